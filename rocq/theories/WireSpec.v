(** What can be sent and what arrives: stated without the bytes. *)
From Coq Require Import String List.
From Verif Require Import Prelude ValueBase DateModel TimeModel HashModel ValueModel ValueProofs.
Import ListNotations.
Local Open Scope list_scope.
Local Open Scope Z_scope.

(** What arrives of a value: everything, except that edge types are reduced to their sign. *)
Section Carry.
Context {V : Type}.
Variable c : V -> V.
Definition carryProps (m : list (str * V)) : list (str * V) := map (fun p => (fst p, c (snd p))) m.
Definition carryTag (t : tagR V) : tagR V := mkTag (tgname t) (carryProps (tgprops t)).
Definition carryVertex (v : vertexR V) : vertexR V := mkVertex (c (vvid v)) (map carryTag (vtags v)).
Definition carryEdge (e : edgeR V) : edgeR V := mkEdge (c (esrc e)) (c (edst e)) (Z.sgn (etype e)) (ename e) (erank e) (carryProps (eprops e)).
Definition carryStep (s : stepR V) : stepR V := mkStep (carryVertex (sdst s)) (Z.sgn (stype s)) (sname s) (srank s) (carryProps (sprops s)).
Definition carryPath (p : pathR V) : pathR V := mkPath (carryVertex (psrc p)) (map carryStep (psteps p)).
End Carry.
Fixpoint carried (v : value) : value :=
  match v with
  | VVertex x => VVertex (carryVertex carried x)
  | VEdge x => VEdge (carryEdge carried x)
  | VPath x => VPath (carryPath carried x)
  | VList l => VList (map carried l)
  | VMap m => VMap (carryProps carried m)
  | VSet l => VSet (map carried l)
  | VDataSet d => VDataSet (mkDataSet (dcols d) (map (map carried) (drows d)))
  | _ => v
  end.

(** sizes fit an int32 *)
Definition shortL {A} (l : list A) : Prop := Z.of_nat (List.length l) < 2 ^ 31.
(** a string is a sequence of bytes *)
Definition byte (b : Z) : Prop := 0 <= b < 256.
Definition strOk (s : str) : Prop := shortL s /\ Forall byte s.
Definition inRange (lo hi z : Z) : Prop := lo <= z <= hi.
(** the members of the C++ objects are in the range of their types, maps have distinct keys, containers are not huge *)
Definition propsOk (m : list (str * value)) : Prop := shortL m /\ NoDup (map fst m) /\ forall k v, In (k, v) m -> strOk k.
Definition tagOk (t : tag) : Prop := strOk (tgname t) /\ propsOk (tgprops t).
Definition vertexOk (v : vertex) : Prop := shortL (vtags v) /\ forall t, In t (vtags v) -> tagOk t.
Definition edgeOk (e : edge) : Prop := inRange int32_min int32_max (etype e) /\ inRange int64_min int64_max (erank e) /\ strOk (ename e) /\ propsOk (eprops e).
Definition stepOk (s : step) : Prop :=
  vertexOk (sdst s) /\ inRange int32_min int32_max (stype s) /\ inRange int64_min int64_max (srank s) /\ strOk (sname s) /\ propsOk (sprops s).
Definition dateOk (d : date) : Prop := inRange int16_min int16_max (year d) /\ inRange int8_min int8_max (month d) /\ inRange int8_min int8_max (day d).
Definition timeOk (t : time) : Prop :=
  inRange int8_min int8_max (thour t) /\ inRange int8_min int8_max (tminute t) /\ inRange int8_min int8_max (tsec t) /\ inRange int32_min int32_max (tmicro t).
Definition dateTimeOk (t : datetime) : Prop :=
  inRange int16_min int16_max (dyear t) /\ inRange 0 15 (dmonth t) /\ inRange 0 31 (dday t) /\ inRange 0 31 (dhour t) /\ inRange 0 63 (dminute t) /\
  inRange 0 63 (dsec t) /\ inRange 0 4194303 (dmicro t).
Section X.
Variable X : externals.
(** the elements of a set can be hashed and no two of them are the same for the set, also after their edge types are reduced *)
Fixpoint setOk (l : list value) : Prop :=
  match l with
  | [] => True
  | v :: l' => (exists h, vhash X v = Ret h) /\ (forall w, In w l' -> sameHash X w v && veq X w v = false) /\ setOk l'
  end.
Definition nodeOk (v : value) : Prop :=
  match v with
  | VInt z => inRange int64_min int64_max z
  | VFloat f => f64valid f = true
  | VStr s => strOk s
  | VDate d => dateOk d
  | VTime t => timeOk t
  | VDateTime t => dateTimeOk t
  | VVertex x => vertexOk x
  | VEdge e => edgeOk e
  | VPath p => vertexOk (psrc p) /\ shortL (psteps p) /\ forall s, In s (psteps p) -> stepOk s
  | VList l => shortL l
  | VMap m => propsOk m
  | VSet l => shortL l /\ setOk (map carried l)
  | VDataSet d => shortL (dcols d) /\ (forall c, In c (dcols d) -> strOk c) /\ shortL (drows d) /\ forall r, In r (drows d) -> shortL r
  | _ => True
  end.
(** the conditions hold for the value and all values inside *)
Inductive sendable : value -> Prop :=
| sendable_intro v : nodeOk v -> (forall c, In c (subvals v) -> sendable c) -> sendable v.
End X.

