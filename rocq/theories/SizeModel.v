(** The size that is announced before a value or an answer is written: Cpp2Ops<T>::serializedSize and serializedSizeZC of datatypes/*Ops.inl and
    graph/*Ops.inl, for the compact protocol. Both are the same for that protocol (it copies what is shorter than a buffer, and announces the text either way).
    The sizes of the protocol's parts are not in the repository; they are transcribed from its public description. xfer is a uint32_t; as
    wrapping commutes with adding, the model wraps once, at the end. *)
From Coq Require Import String List.
From Verif Require Import Prelude ValueBase DateModel TimeModel HashModel ValueModel GraphModel AssocModel WireModel ReplyModel.
Import ListNotations.
Local Open Scope list_scope.
Local Open Scope Z_scope.

(** * Compact protocol *)
Definition szByte : Z := 1. Definition szI16 : Z := 3. Definition szI32 : Z := 5. Definition szI64 : Z := 10. Definition szDouble : Z := 8. Definition szBool : Z := 1.
Definition szStop : Z := 1.
Definition szField : Z := szByte + szI16.
Definition szBin (s : str) : Z := szI32 + Z.of_nat (List.length s).
Definition szListHdr : Z := szByte + szI32.
Definition szMapHdr : Z := szByte + szByte + szI32.
Definition sumOf {A} (f : A -> Z) (l : list A) : Z := fold_right (fun x n => f x + n) 0 l.

(** * The data types *)
(** DateOps.inl 172-193, 394-419, 713-750 *)
Definition szDate : Z := szField + szI16 + szField + szByte + szField + szByte + szStop.
Definition szTime : Z := szField + szByte + szField + szByte + szField + szByte + szField + szI32 + szStop.
Definition szDateTime : Z :=
  szField + szI16 + szField + szByte + szField + szByte + szField + szByte + szField + szByte + szField + szByte + szField + szI32 + szStop.
Section Sizes.
Context {V : Type}.
Variable w : V -> Z.
Definition szProps (m : list (str * V)) : Z := szMapHdr + sumOf (fun p => szBin (fst p) + w (snd p)) m.
(** VertexOps.inl 153-171 *)
Definition szTag (t : tagR V) : Z := szField + szBin (tgname t) + szField + szProps (tgprops t) + szStop.
(** VertexOps.inl 323-338 *)
Definition szVertex (v : vertexR V) : Z := szField + w (vvid v) + szField + (szListHdr + sumOf szTag (vtags v)) + szStop.
(** EdgeOps.inl 252-284 *)
Definition szEdge (e : edgeR V) : Z :=
  szField + w (esrc e) + szField + w (edst e) + szField + szI32 + szField + szBin (ename e) + szField + szI64 + szField + szProps (eprops e) + szStop.
(** PathOps.inl 234-263 *)
Definition szStep (s : stepR V) : Z :=
  szField + szVertex (sdst s) + szField + szI32 + szField + szBin (sname s) + szField + szI64 + szField + szProps (sprops s) + szStop.
(** PathOps.inl 428-446 *)
Definition szPath (p : pathR V) : Z := szField + szVertex (psrc p) + szField + (szListHdr + sumOf szStep (psteps p)) + szStop.
(** ListOps.inl 123-137, SetOps.inl 124-137: the header of a set is that of a list *)
Definition szRow (l : list V) : Z := szField + (szListHdr + sumOf w l) + szStop.
(** MapOps.inl 123-137 *)
Definition szMap (m : list (str * V)) : Z := szField + szProps m + szStop.
(** DataSetOps.inl 162-183 *)
Definition szDataSet (d : datasetR V) : Z :=
  szField + (szListHdr + sumOf szBin (dcols d)) + szField + (szListHdr + sumOf szRow (drows d)) + szStop.
End Sizes.
(** ValueOps.inl 467-609 *)
Fixpoint szValue (v : value) : Z :=
  (match v with
   | VEmpty => 0
   | VNull _ => szField + szI32
   | VBool _ => szField + szBool
   | VInt _ => szField + szI64
   | VFloat _ => szField + szDouble
   | VStr s => szField + szBin s
   | VDate _ => szField + szDate
   | VTime _ => szField + szTime
   | VDateTime _ => szField + szDateTime
   | VVertex x => szField + szVertex szValue x
   | VEdge x => szField + szEdge szValue x
   | VPath x => szField + szPath szValue x
   | VList l => szField + szRow szValue l
   | VMap m => szField + szMap szValue m
   | VSet l => szField + szRow szValue l
   | VDataSet d => szField + szDataSet szValue d
   end) + szStop.
Definition announced (v : value) : Z := u32 (szValue v).

(** * Answers *)
Definition szOpt {A} (f : A -> Z) (o : option A) : Z := match o with Some x => szField + f x | None => 0 end.
(** AuthResponseOps.inl 225-261: the offset of the time zone is announced as an int64 *)
Definition szAuth (a : auth) : Z :=
  szField + szI32 + szOpt szBin (auMsg a) + szOpt (fun _ => szI64) (auSession a) + szOpt (fun _ => szI64) (auOffset a) + szOpt szBin (auZone a) + szStop.
(** ProfilingStatsOps.inl 214-245 *)
Definition szProf (p : prof) : Z :=
  szField + szI64 + szField + szI64 + szField + szI64 + szOpt (fun m => szMapHdr + sumOf (fun e => szBin (fst e) + szBin (snd e)) m) (pfOther p) + szStop.
(** PlanNodeBranchInfoOps.inl 151-167 *)
Definition szBranch (_ : branch) : Z := szField + szBool + szField + szI64 + szStop.
(** PairOps.inl 143-155, KeyValueOps.inl 140-155 *)
Definition szKV (p : kv) : Z := szField + szBin (kvKey p) + szField + szBin (kvVal p) + szStop.
(** PlanNodeDescriptionOps.inl 290-331 *)
Definition szNode (n : node) : Z :=
  szField + szBin (ndName n) + szField + szI64 + szField + szBin (ndVar n) + szOpt (fun l => szListHdr + sumOf szKV l) (ndDesc n) +
  szOpt (fun l => szListHdr + sumOf szProf l) (ndProfs n) + szOpt szBranch (ndBranch n) + szOpt (fun l => szListHdr + sumOf (fun _ => szI64) l) (ndDeps n) + szStop.
(** PlanDescriptionOps.inl 213-238 *)
Definition szPlan (p : plan) : Z :=
  szField + (szListHdr + sumOf szNode (plNodes p)) + szField + (szMapHdr + sumOf (fun _ => szI64 + szI64) (plIndex p)) + szField + szBin (plFormat p) +
  szField + szI32 + szStop.
(** ExecutionResponseOps.inl 322-364, serializedSizeZC. serializedSize (281-320) hands the pointers to the texts to serializedSizeBinary, which takes no pointers to
    strings; it is not used here. *)
Definition szExec (e : exec) : Z :=
  szField + szI32 + szField + szI32 + szOpt (szDataSet szValue) (exData e) + szOpt szBin (exSpace e) + szOpt szBin (exMsg e) + szOpt szPlan (exPlan e) +
  szOpt szBin (exComment e) + szStop.
(** HostAddrOps.inl 143-160 *)
Definition szAddr (a : addr) : Z := szField + szBin (adHost a) + szField + szI32 + szStop.
Definition announcedAuth (a : auth) : Z := u32 (szAuth a).
Definition announcedExec (e : exec) : Z := u32 (szExec e).
