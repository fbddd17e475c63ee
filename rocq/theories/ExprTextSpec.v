(** Specification of the text of expressions: which trees have one, and a part of the language in which the text tells the tree. *)
From Verif Require Import Prelude ValueBase DateModel TimeModel ValueModel ExprModel ExprSpec.
From Coq Require Import String List.
Import ListNotations.
Local Open Scope string_scope.
Local Open Scope list_scope.
Local Open Scope Z_scope.

(** * Which trees have a text *)
Definition isConst (e : expr) : Prop := match kindOf e with KConst _ => True | _ => False end.
Fixpoint pairwise {A} (l : list A) : Prop := match l with [] => True | [_] => False | _ :: _ :: r => pairwise r end.
(** What the class needs in order to print: enough sub-expressions; something for a constant after a dot *)
Definition canPrint (k : kind) (cs : list expr) : Prop :=
  let arity n := List.length cs = n in
  match k with
  | KArith _ | KRel _ | KSubscript => arity 2%nat
  | KUnary _ | KCast _ | KAggregate _ _ => arity 1%nat
  | KRange lo hi => arity (1 + bit lo + bit hi)%nat
  | KAttr | KLabelAttr => exists l r, cs = [l; r] /\ isConst r
  | KLogical _ => cs <> []
  | KVersioned s v => s <> [] -> v = true -> arity 1%nat
  | KCase true c d => exists p q, cs = p ++ q /\ List.length p = (bit c + bit d)%nat /\ pairwise q
  | KCase false c d => d = true /\ (bit c + 3 <= List.length cs)%nat
  | KPredicate n _ _ f => (n = B "exists" /\ cs <> []) \/ (n <> B "exists" /\ f = true /\ arity 2%nat)
  | KListComp _ _ f m => arity (1 + bit f + bit m)%nat
  | KReduce _ _ _ => arity 3%nat
  | KTextSearch _ => False
  | _ => True
  end.
(** The sub-expressions whose text is part of the text *)
Definition shown (k : kind) (cs : list expr) : list expr :=
  match k with
  | KAttr | KLabelAttr => firstn 1 cs
  | KCase false c _ => firstn 3 (skipn (bit c) cs)
  | KPredicate n _ _ _ => if strEqb n (B "exists") then firstn 1 cs else cs
  | KVersioned s v => match s, v with _ :: _, true => cs | _, _ => [] end
  | KConst _ | KColumn _ | KProp _ _ _ _ | KVertex | KEdge | KUUID _ | KVar _ _ | KLabel _ => []
  | _ => cs
  end.
Inductive hasText : expr -> Prop := HasText k cs : canPrint k cs -> Forall hasText (shown k cs) -> hasText (Node k cs).

(** A tree from which nothing is missing: a name or a constant after a dot, an operand for each operator, a default for cond ? a : b, a filter *)
Definition completeNode (k : kind) (cs : list expr) : Prop :=
  match k with
  | KAttr | KLabelAttr => exists l r, cs = [l; r] /\ isConst r
  | KLogical _ => cs <> []
  | KCase true c d => exists p q, cs = p ++ q /\ List.length p = (bit c + bit d)%nat /\ pairwise q
  | KCase false c d => d = true /\ (bit c + 3 <= List.length cs)%nat
  | KPredicate n _ _ f => n = B "exists" \/ f = true
  | _ => True
  end.
(** no aggregate over distinct values *)
Definition noDistinct (e : expr) : Prop := allNodes (fun k _ => match k with KAggregate _ d => d = false | _ => True end) e.

(** * Where the text tells the tree *)
Definition isNum (c : Z) : bool := (48 <=? c) && (c <=? 57).
Definition nameByte (c : Z) : bool := isNum c || ((65 <=? c) && (c <=? 90)) || ((97 <=? c) && (c <=? 122)) || (c =? 95).
Definition isName (s : str) : bool := match s with [] => false | _ => forallb nameByte s end.
Definition startsNum (s : str) : bool := match s with c :: _ => isNum c | [] => false end.
(** integers, Booleans, NULL and strings without a quote; variables and properties by their names; operators, subscripts, ranges, lists, sets,
    calls and conditional expressions *)
Definition plainNode (k : kind) (n : nat) : bool :=
  match k with
  | KConst (VInt _) | KConst (VBool _) | KConst (VNull NNull) => Nat.eqb n 0
  | KConst (VStr s) => Nat.eqb n 0 && forallb (fun c => negb (c =? 34)) s
  | KArith _ | KRel _ | KSubscript => Nat.eqb n 2
  | KUnary _ => Nat.eqb n 1
  | KRange lo hi => Nat.eqb n (1 + bit lo + bit hi)
  | KColumn _ | KVertex | KEdge => Nat.eqb n 0
  | KLogical _ => Nat.leb 2 n
  | KCall f => isName f && negb (startsNum f)
  | KProp PInput r s p => Nat.eqb n 0 && strEqb r (B "$-") && strEqb s [] && isName p
  | KProp PVar r s p => Nat.eqb n 0 && strEqb r (B "$") && isName s && isName p
  | KProp PSrc r s p => Nat.eqb n 0 && strEqb r (B "$^") && isName s && isName p
  | KProp PDst r s p => Nat.eqb n 0 && strEqb r (B "$$") && isName s && isName p
  | KVar s i => Nat.eqb n 0 && isName s && negb i
  | KVersioned s v => isName s && v && Nat.eqb n 1
  | KList | KSet => Nat.leb 1 n
  | KCase g c d => negb g && negb c && d && Nat.eqb n 3
  | _ => false
  end.
Fixpoint plain (e : expr) : bool := match e with Node k cs => plainNode k (List.length cs) && forallb plain cs end.
