(** Responses that can be sent, and what arrives of them: stated without the bytes. *)
From Coq Require Import String List Permutation SpecFloat.
From Verif Require Import Prelude ValueBase HashModel ValueModel ValueProofs WireSpec ReplyModel.
Import ListNotations.
Local Open Scope list_scope.
Local Open Scope Z_scope.

Definition int32 (z : Z) : Prop := inRange int32_min int32_max z.
Definition int64 (z : Z) : Prop := inRange int64_min int64_max z.
Definition ifAny {A} (P : A -> Prop) (o : option A) : Prop := match o with Some x => P x | None => True end.
Definition listOk {A} (P : A -> Prop) (l : list A) : Prop := shortL l /\ forall x, In x l -> P x.
Definition mapOk {K A} (P : K -> Prop) (Q : A -> Prop) (m : list (K * A)) : Prop :=
  shortL m /\ NoDup (map fst m) /\ forall k v, In (k, v) m -> P k /\ Q v.
Definition authOk (a : auth) : Prop :=
  int32 (auCode a) /\ ifAny strOk (auMsg a) /\ ifAny int64 (auSession a) /\ ifAny int32 (auOffset a) /\ ifAny strOk (auZone a).
Definition profOk (p : prof) : Prop := int64 (pfRows p) /\ int64 (pfExec p) /\ int64 (pfTotal p) /\ ifAny (mapOk strOk strOk) (pfOther p).
Definition branchOk (b : branch) : Prop := int64 (brNode b).
Definition kvOk (p : kv) : Prop := strOk (kvKey p) /\ strOk (kvVal p).
Definition pnodeOk (n : node) : Prop :=
  strOk (ndName n) /\ int64 (ndId n) /\ strOk (ndVar n) /\ ifAny (listOk kvOk) (ndDesc n) /\ ifAny (listOk profOk) (ndProfs n) /\
  ifAny branchOk (ndBranch n) /\ ifAny (listOk int64) (ndDeps n).
Definition planOk (p : plan) : Prop :=
  listOk pnodeOk (plNodes p) /\ mapOk int64 int64 (plIndex p) /\ strOk (plFormat p) /\ int32 (plTime p).
Definition execOk (X : externals) (e : exec) : Prop :=
  int32 (exCode e) /\ int32 (exLatency e) /\ ifAny (fun d => sendable X (VDataSet d)) (exData e) /\ ifAny strOk (exSpace e) /\
  ifAny strOk (exMsg e) /\ ifAny planOk (exPlan e) /\ ifAny strOk (exComment e).
Definition addrOk (a : addr) : Prop := strOk (adHost a) /\ int32 (adPort a).

(** everything arrives, except that edge types in the result are reduced to their sign *)
Definition carriedSet (d : dataset) : dataset := mkDataSet (dcols d) (map (map carried) (drows d)).
Definition carriedExec (e : exec) : exec :=
  mkExec (exCode e) (exLatency e) (option_map carriedSet (exData e)) (exSpace e) (exMsg e) (exPlan e) (exComment e).

(** Reading into an object that is in use: what is not sent stays *)
Definition orElse {A} (new old : option A) : option A := match new with Some _ => new | None => old end.
Definition overAuth (old a : auth) : auth :=
  mkAuth (auCode a) (orElse (auMsg a) (auMsg old)) (orElse (auSession a) (auSession old)) (orElse (auOffset a) (auOffset old)) (orElse (auZone a) (auZone old)).
Definition overExec (old e : exec) : exec :=
  mkExec (exCode e) (exLatency e) (orElse (exData e) (exData old)) (orElse (exSpace e) (exSpace old)) (orElse (exMsg e) (exMsg old))
    (orElse (exPlan e) (exPlan old)) (orElse (exComment e) (exComment old)).

(** A member of a kind this version does not know, as a newer peer may send it: a number, a text, a value, a list or a
    map of values, or a struct of such members; [extras] is such members with their ids *)
Inductive extra :=
  | XBool (b : bool) | XByte (z : Z) | XI16 (z : Z) | XI32 (z : Z) | XI64 (z : Z) | XDouble (x : spec_float) | XText (s : str)
  | XValue (v : value) | XList (l : list value) | XMap (m : list (str * value)) | XStruct (l : extras)
with extras := XNone | XMore (id : Z) (x : extra) (l : extras).
(** [extrasOk X last l]: the ids increase, from more than [last] to at most 15 *)
Fixpoint extraOk (X : externals) (x : extra) : Prop :=
  match x with
  | XBool _ | XByte _ | XDouble _ => True
  | XI16 z => inRange int16_min int16_max z
  | XI32 z => int32 z
  | XI64 z => int64 z
  | XText s => strOk s
  | XValue v => sendable X v
  | XList l => listOk (sendable X) l
  | XMap m => shortL m /\ forall k v, In (k, v) m -> strOk k /\ sendable X v
  | XStruct l => extrasOk X 0 l
  end
with extrasOk (X : externals) (last : Z) (l : extras) : Prop :=
  match l with XNone => True | XMore id x l' => last < id <= 15 /\ extraOk X x /\ extrasOk X id l' end.

(** * Comparison *)
Definition sameOpt {A} (P : A -> A -> Prop) (a b : option A) : Prop :=
  match a, b with None, None => True | Some x, Some y => P x y | _, _ => False end.
Definition sameProf (a b : prof) : Prop :=
  pfRows a = pfRows b /\ pfExec a = pfExec b /\ pfTotal a = pfTotal b /\ sameOpt (@Permutation (str * str)) (pfOther a) (pfOther b).
(** the variable a node writes is not looked at *)
Definition sameNode (a b : node) : Prop :=
  ndName a = ndName b /\ ndId a = ndId b /\ ndDesc a = ndDesc b /\ sameOpt (Forall2 sameProf) (ndProfs a) (ndProfs b) /\
  ndBranch a = ndBranch b /\ ndDeps a = ndDeps b.
(** the time spent optimising is not looked at *)
Definition samePlan (a b : plan) : Prop :=
  Forall2 sameNode (plNodes a) (plNodes b) /\ Permutation (plIndex a) (plIndex b) /\ plFormat a = plFormat b.
(** the keys of the hash maps in a plan are distinct, as they are in any hash map *)
Definition profMaps (p : prof) : Prop := ifAny (fun m => NoDup (map fst m)) (pfOther p).
Definition nodeMaps (n : node) : Prop := ifAny (fun l => forall p, In p l -> profMaps p) (ndProfs n).
Definition planMaps (p : plan) : Prop := NoDup (map fst (plIndex p)) /\ forall n, In n (plNodes p) -> nodeMaps n.
Definition execMaps (e : exec) : Prop := ifAny planMaps (exPlan e).
