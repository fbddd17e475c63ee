(** Which expression trees have a wire form: stated on the tree alone, without the encoder. *)
From Verif Require Import ValueBase DateModel TimeModel ValueModel ExprModel.
Local Open Scope list_scope.
Local Open Scope Z_scope.

(** A property of every node *)
Fixpoint allNodes (P : kind -> list expr -> Prop) (e : expr) : Prop :=
  match e with Node k cs => P k cs /\ fold_right and True (map (allNodes P) cs) end.

Definition short {A} (l : list A) : Prop := Z.of_nat (List.length l) < 2 ^ 63.
Definition bit (b : bool) : nat := if b then 1%nat else 0%nat.

(** The members a node of the class carries after construction, with V a property of the constants.  Excluded are the classes
    that refuse to be written (label attribute, versioned variable, text search), those that refuse to be read (input and
    variable property), and the column expression (C31). *)
Definition wireNode (V : value -> Prop) (k : kind) (cs : list expr) : Prop :=
  let arity n := List.length cs = n in
  match k with
  | KConst v => arity 0%nat /\ V v
  | KArith _ | KRel _ | KSubscript | KAttr => arity 2%nat
  | KUnary _ => arity 1%nat
  | KRange lo hi => arity (1 + bit lo + bit hi)%nat /\ (lo || hi = true)
  | KLabelAttr | KVersioned _ _ | KTextSearch _ | KColumn _ => False
  | KLogical _ | KList | KSet | KPathBuild => short cs
  | KCast t => arity 1%nat /\ 0 <= t < 2 ^ 64
  | KCall name => short name /\ short cs
  | KProp p ref sym pr => arity 0%nat /\ p <> PInput /\ p <> PVar /\ short ref /\ short sym /\ short pr
  | KVertex | KEdge => arity 0%nat
  | KUUID f => arity 0%nat /\ f <> [] /\ short f
  | KVar s inner => arity 0%nat /\ short s /\ inner = true
  | KMap keys => List.length keys = List.length cs /\ short cs /\ Forall short keys
  | KLabel s => arity 0%nat /\ short s
  | KCase _ c d => short cs /\ exists n, arity (bit c + bit d + 2 * n)%nat
  | KPredicate name iv org f => arity (1 + bit f)%nat /\ short name /\ short iv /\ short org
  | KListComp iv org f m => arity (1 + bit f + bit m)%nat /\ short iv /\ short org
  | KReduce acc iv org => arity 3%nat /\ short acc /\ short iv /\ short org
  | KAggregate name _ => arity 1%nat /\ short name
  end.
Definition wireable (V : value -> Prop) (e : expr) : Prop := allNodes (wireNode V) e.

(** The value serializer gives back the values of V, whatever follows them *)
Definition codecFor (VC : vcodec) (V : value -> Prop) : Prop :=
  forall v rest, V v -> vdec VC (venc VC v ++ rest) = Some (v, rest).
