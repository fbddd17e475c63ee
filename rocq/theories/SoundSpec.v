(** Specification for C187: values as the types of the code allow them, at every depth. *)
From Coq Require Import String List.
From Verif Require Import Prelude ValueBase DateModel TimeModel ValueModel ValueProofs ExprModel ExprSpec EvalModel ValueProps FaultSpec.
Import ListNotations.
Local Open Scope list_scope.
Open Scope Z_scope.

Definition int32 (z : Z) : Prop := - 2 ^ 31 <= z < 2 ^ 31.
Definition int16 (z : Z) : Prop := - 2 ^ 15 <= z < 2 ^ 15.
Definition int8 (z : Z) : Prop := - 2 ^ 7 <= z < 2 ^ 7.
Definition bits (n z : Z) : Prop := 0 <= z < 2 ^ n.
Definition keysDiffer (m : list (str * value)) : Prop := NoDup (map fst m).
Definition typedVertex (v : vertex) : Prop := Forall (fun t => keysDiffer (tgprops t)) (vtags v).
Definition typedStep (s : step) : Prop := typedVertex (sdst s) /\ keysDiffer (sprops s) /\ int32 (stype s) /\ int64 (srank s).

(** One value, not looking into it: integers and the members of dates (Date.h:21-23, 82-85, 140-146), edges and steps fit their types;
    keys of maps differ; the elements of a set can be hashed and none is found among those before it *)
Definition typed (X : externals) (v : value) : Prop :=
  match v with
  | VInt z => int64 z
  | VDate d => int16 (year d) /\ int8 (month d) /\ int8 (day d)
  | VTime t => int8 (thour t) /\ int8 (tminute t) /\ int8 (tsec t) /\ int32 (tmicro t)
  | VDateTime t => int16 (dyear t) /\ bits 4 (dmonth t) /\ bits 5 (dday t) /\ bits 5 (dhour t) /\ bits 6 (dminute t) /\ bits 6 (dsec t) /\ bits 22 (dmicro t)
  | VVertex x => typedVertex x
  | VEdge e => keysDiffer (eprops e) /\ int32 (etype e) /\ int64 (erank e)
  | VPath p => typedVertex (psrc p) /\ Forall typedStep (psteps p)
  | VMap m => keysDiffer m
  | VSet l => (forall x, In x l -> exists h, vhash X x = Ret h) /\ ForallOrdPairs (fun p q => ~ (sameHash X q p = true /\ veq X q p = true)) l
  | _ => True
  end.
(** [w] is [v] or somewhere in it *)
Inductive within (w : value) : value -> Prop :=
  | withinSelf : within w w
  | withinSub v c : In c (subvals v) -> within w c -> within w v.
Definition sound (X : externals) (v : value) : Prop := forall w, within w v -> typed X w.

(** The answers of the environment *)
Definition soundEnv (E : env) : Prop :=
  let S := sound (eX E) in
  (forall s, S (eNoVar E s)) /\ (forall i, S (eColumn E i)) /\ S (eVertex E) /\ S (eEdge E) /\ (forall s, S (eInput E s)) /\
  (forall s p, S (eEdgeProp E s p) /\ S (eTagProp E s p) /\ S (eSrcProp E s p) /\ S (eDstProp E s p)) /\
  (forall c s z, holds S c -> S (eVersioned E c s z)) /\ (forall c s p, holds S c -> S (eVarProp E c s p)) /\
  (forall n vs v, Forall S vs -> eFun E n vs = Ret v -> S v).
Definition soundConsts (X : externals) (e : expr) : Prop := allNodes (fun k _ => match k with KConst v => sound X v | _ => True end) e.
