(** Specification of EitherOr / StatusOr: each object is void, left or right. *)
From Verif Require Import Prelude EitherModel.

Section EitherSpec.
Context {L R : Type}.

Definition aval : Type := option (L + R).
Definition aenv : Type := nat -> aval.
Definition eset (a : aenv) (i : nat) (v : aval) : aenv := fun k => if Nat.eqb k i then v else a k.

Definition easpec (a : aenv) (o : eop L R) : aenv :=
  match o with
  | ECtorVoid i | ETakeLeft i | ETakeRight i => eset a i None
  | ECtorLeft i v | EAssignLeft i v => eset a i (Some (inl v))
  | ECtorRight i v | EAssignRight i v => eset a i (Some (inr v))
  | ECtorCopy i j | ECopy i j | EAssignLeftOf i j | EAssignRightOf i j => eset a i (a j)
  | ECtorMove i j | EMove i j => if Nat.eqb i j then a else eset (eset a i (a j)) j None
  end.

(** When an operation may be used: objects exist, a constructor does not name its own object, a value is
    only taken from the side that holds one, and an object is not assigned a reference into itself. *)
Definition eop_ok (n : nat) (a : aenv) (o : eop L R) : Prop :=
  match o with
  | ECtorVoid i | ECtorLeft i _ | ECtorRight i _ | EAssignLeft i _ | EAssignRight i _ => (i < n)%nat
  | ECtorCopy i j | ECtorMove i j => (i < n)%nat /\ (j < n)%nat /\ i <> j
  | ECopy i j | EMove i j => (i < n)%nat /\ (j < n)%nat
  | EAssignLeftOf i j => (i < n)%nat /\ (j < n)%nat /\ i <> j /\ exists v, a j = Some (inl v)
  | EAssignRightOf i j => (i < n)%nat /\ (j < n)%nat /\ i <> j /\ exists v, a j = Some (inr v)
  | ETakeLeft i => (i < n)%nat /\ exists v, a i = Some (inl v)
  | ETakeRight i => (i < n)%nat /\ exists v, a i = Some (inr v)
  end.

Fixpoint earun (a : aenv) (os : list (eop L R)) : aenv :=
  match os with [] => a | o :: os' => earun (easpec a o) os' end.
Fixpoint eops_ok (n : nat) (a : aenv) (os : list (eop L R)) : Prop :=
  match os with [] => True | o :: os' => eop_ok n a o /\ eops_ok n (easpec a o) os' end.

Fixpoint nonvoid (a : aenv) (n : nat) : Z :=
  match n with
  | O => 0
  | S n' => nonvoid a n' + match a n' with Some _ => 1 | None => 0 end
  end.
End EitherSpec.
Arguments aenv : clear implicits.
Arguments aval : clear implicits.
