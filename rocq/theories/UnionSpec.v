(** What the memory behind Values should mean: every Value is a tree of its own. *)
From Verif Require Import Prelude CastModel UnionModel.
Open Scope Z_scope.

(** A Value, as the tree of all that is in it, and the addresses of the blocks that belong to it alone *)
Section rep.
Variable h : Z -> option block.
Inductive rep : cell -> tree -> (Z -> Prop) -> Prop :=
| RE s P : (forall q, ~ P q) -> rep (Cell tEmpty s) (Node tEmpty [] []) P
| RS tag z P : scalarTag tag = true -> (forall q, ~ P q) -> rep (Cell tag (SScal z)) (Node tag z []) P
| RP tag p d cs ts (P Q : Z -> Prop) : heapTag tag = true -> h p = Some (Block tag d cs) -> (forall q, P q <-> q = p \/ Q q) -> ~ Q p -> reps cs ts Q ->
    rep (Cell tag (SPtr (Some p))) (Node tag d ts) P
with reps : list cell -> list tree -> (Z -> Prop) -> Prop :=
| RN P : (forall q, ~ P q) -> reps [] [] P
| RC c cs t ts (P P1 P2 : Z -> Prop) : (forall q, P q <-> P1 q \/ P2 q) -> (forall q, P1 q -> P2 q -> False) -> rep c t P1 -> reps cs ts P2 -> reps (c :: cs) (t :: ts) P.
End rep.
(** The state of a program with the variables [kids]: every block in memory belongs to exactly one place *)
Definition frameCell := Cell tList (SPtr (Some 0)).
Definition holds (m : mem) (T : tree) : Prop := exists P : Z -> Prop, rep (heap m) frameCell T P /\ (forall q, heap m q <> None <-> P q) /\ (forall q, P q -> q < next m).
Definition empty_ := Node tEmpty [] [].
Definition vars (ts : list tree) : tree := Node tList [] ts.

(** The part of a tree at a path, and the tree with another part there *)
Fixpoint subtree (t : tree) (path : list nat) : option tree :=
  match path with
  | [] => Some t
  | i :: path' => match t with Node _ _ ts => match nth_error ts i with Some t' => subtree t' path' | None => None end end
  end.
Fixpoint mapNth (i : nat) (f : tree -> tree) (ts : list tree) : list tree :=
  match ts, i with [], _ => [] | t :: ts', O => f t :: ts' | t :: ts', S i' => t :: mapNth i' f ts' end.
Fixpoint replace (t : tree) (path : list nat) (s : tree) : tree :=
  match path with
  | [] => s
  | i :: path' => match t with Node g d ts => Node g d (mapNth i (fun t' => replace t' path' s) ts) end
  end.
(** neither of two Values is inside the other *)
Definition inside (a b : list nat) : Prop := exists c, a = b ++ c.
Definition apart (a b : list nat) : Prop := ~ inside a b /\ ~ inside b a.
(** trees of Values: scalars and EMPTY hold no Values *)
Inductive isValue : tree -> Prop :=
| VE : isValue empty_
| VS tag z : scalarTag tag = true -> isValue (Node tag z [])
| VP tag d ts : heapTag tag = true -> Forall isValue ts -> isValue (Node tag d ts).

(** What the operations should do: as if every Value were copied as a whole *)
Definition tagOf (t : tree) : Z := match t with Node g _ _ => g end.
Inductive does : tree -> op -> tree -> Prop :=
| DMake T a t s : subtree T a = Some s -> a <> [] -> isValue t -> does T (OMake a t) (replace T a t)
| DCopy T a b s t : subtree T a = Some s -> subtree T b = Some t -> a <> [] -> b <> [] -> apart a b -> does T (OCopy a b) (replace T a t)
| DCopySelf T a s : subtree T a = Some s -> a <> [] -> does T (OCopy a a) T
| DMove T a b s t : subtree T a = Some s -> subtree T b = Some t -> a <> [] -> b <> [] -> apart a b -> does T (OMove a b) (replace (replace T b empty_) a t)
| DMoveSelf T a s : subtree T a = Some s -> a <> [] -> does T (OMove a a) T
| DClear T a s : subtree T a = Some s -> a <> [] -> does T (OClear a) (replace T a empty_)
| DSwap T a b s t : subtree T a = Some s -> subtree T b = Some t -> a <> [] -> b <> [] -> apart a b -> does T (OSwap a b) (replace (replace T b s) a t)
| DSwapSelf T a s : subtree T a = Some s -> a <> [] -> does T (OSwap a a) T
| DTake T a b s t : subtree T a = Some s -> subtree T b = Some t -> a <> [] -> b <> [] -> apart a b -> tagOf t <> tEmpty -> does T (OTake a b (tagOf t)) (replace (replace T b empty_) a t)
| DTakeIn T a c s t : subtree T a = Some s -> subtree s c = Some t -> a <> [] -> c <> [] -> tagOf t <> tEmpty -> does T (OTake a (a ++ c) (tagOf t)) (replace T a t)
| DSet T a b s t : subtree T a = Some s -> subtree T b = Some t -> a <> [] -> b <> [] -> apart a b -> tagOf t <> tEmpty -> does T (OSet a b (tagOf t)) (replace T a t).
Inductive doesAll : tree -> list op -> tree -> Prop :=
| DNil T : doesAll T [] T
| DCons T o T1 os T2 : does T o T1 -> doesAll T1 os T2 -> doesAll T (o :: os) T2.
