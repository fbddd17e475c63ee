(** What the graph service answers: AuthResponse, ExecutionResponse and the plan in it (src/common/graph/Response.h), their
    comparison, clear(), and Cpp2Ops<T>::write and read (src/common/graph/*Ops.inl) over the compact protocol of WireModel;
    also HostAddr and KeyValue on the wire.

    A unique_ptr is an option; an unordered_map is a list of entries with distinct keys, in the order it is iterated.
    Not modelled: protocols with field names (serializedSize is in SizeModel). *)
From Coq Require Import String List.
From Verif Require Import Prelude ValueBase HashModel ValueModel AssocModel WireModel.
Import ListNotations.
Local Open Scope list_scope.
Local Open Scope Z_scope.

(** * The structs *)
(** AuthResponse, Response.h:209-241; the error code is an int32 *)
Record auth := mkAuth { auCode : Z; auMsg : option str; auSession : option Z; auOffset : option Z; auZone : option str }.
(** ProfilingStats, Response.h:244-276 *)
Record prof := mkProf { pfRows : Z; pfExec : Z; pfTotal : Z; pfOther : option (list (str * str)) }.
(** PlanNodeBranchInfo, Response.h:279-298 *)
Record branch := mkBranch { brDo : bool; brNode : Z }.
(** Pair, Response.h:300-316; KeyValue, KeyValue.h:12-52, has the same members *)
Record kv := mkKV { kvKey : str; kvVal : str }.
(** PlanNodeDescription, Response.h:318-345 *)
Record node := mkNode { ndName : str; ndId : Z; ndVar : str; ndDesc : option (list kv); ndProfs : option (list prof);
                        ndBranch : option branch; ndDeps : option (list Z) }.
(** PlanDescription, Response.h:347-373 *)
Record plan := mkPlan { plNodes : list node; plIndex : list (Z * Z); plFormat : str; plTime : Z }.
(** ExecutionResponse, Response.h:375-422 *)
Record exec := mkExec { exCode : Z; exLatency : Z; exData : option dataset; exSpace : option str; exMsg : option str;
                        exPlan : option plan; exComment : option str }.
(** HostAddr, HostAddr.h:17-20 *)
Record addr := mkAddr { adHost : str; adPort : Z }.
(** objects as constructed *)
Definition newAuth : auth := mkAuth 0 None None None None.
Definition newProf : prof := mkProf 0 0 0 None.
Definition newBranch : branch := mkBranch false (-1).
Definition newKV : kv := mkKV [] [].
Definition newNode : node := mkNode [] (-1) [] None None None None.
Definition newPlan : plan := mkPlan [] [] [] 0.
Definition newExec : exec := mkExec 0 0 None None None None None.
Definition newAddr : addr := mkAddr [] 0.

(** * clear() *)
(** AuthResponse::__clear, Response.h:210-214: the members of the time zone are not mentioned *)
Definition clearAuth (a : auth) : auth := mkAuth 0 None None (auOffset a) (auZone a).
(** ExecutionResponse::__clear, Response.h:376-384 *)
Definition clearExec (_ : exec) : exec := mkExec 0 0 None None None None None.
(** PlanDescription::__clear, Response.h:348-353 *)
Definition clearPlan (_ : plan) : plan := mkPlan [] [] [] 0.
(** PlanNodeDescription::__clear, Response.h:319-327 *)
Definition clearNode (_ : node) : node := mkNode [] (-1) [] None None None None.

(** * Comparison *)
(** checkPointer, Response.h:195-203 *)
Definition ptrEq {A} (f : A -> A -> bool) (a b : option A) : bool :=
  match a, b with None, None => true | Some x, Some y => f x y | _, _ => false end.
(** AuthResponse::operator==, Response.h:220-234: the last line compares the time zone name with itself *)
Definition authEq (a b : auth) : bool :=
  (auCode a =? auCode b) && ptrEq Z.eqb (auSession a) (auSession b) && ptrEq strEqb (auMsg a) (auMsg b) &&
  ptrEq Z.eqb (auOffset a) (auOffset b) && ptrEq strEqb (auZone a) (auZone a).
(** ProfilingStats::operator==, Response.h:256-267 *)
Definition profEq (a b : prof) : bool :=
  (pfRows a =? pfRows b) && (pfExec a =? pfExec b) && (pfTotal a =? pfTotal b) && ptrEq (mapEq strEqb) (pfOther a) (pfOther b).
(** PlanNodeBranchInfo::operator==, Response.h:290-292 *)
Definition branchEq (a b : branch) : bool := Bool.eqb (brDo a) (brDo b) && (brNode a =? brNode b).
(** Pair::operator==, Response.h:310-312 *)
Definition kvEq (a b : kv) : bool := strEqb (kvKey a) (kvKey b) && strEqb (kvVal a) (kvVal b).
(** PlanNodeDescription::operator==, Response.cpp:11-28: outputVar is not compared *)
Definition nodeEq (a b : node) : bool :=
  strEqb (ndName a) (ndName b) && (ndId a =? ndId b) && ptrEq (listEq kvEq) (ndDesc a) (ndDesc b) &&
  ptrEq (listEq profEq) (ndProfs a) (ndProfs b) && ptrEq branchEq (ndBranch a) (ndBranch b) && ptrEq (listEq Z.eqb) (ndDeps a) (ndDeps b).
(** std::unordered_map<int64_t, int64_t>::operator== *)
Definition indexEq (x y : list (Z * Z)) : bool :=
  Nat.eqb (List.length x) (List.length y) && forallb (fun p => match aget Z.eqb (fst p) y with Some v => snd p =? v | None => false end) x.
(** PlanDescription::operator==, Response.h:359-363: the optimisation time is not compared *)
Definition planEq (a b : plan) : bool :=
  listEq nodeEq (plNodes a) (plNodes b) && indexEq (plIndex a) (plIndex b) && strEqb (plFormat a) (plFormat b).
(** ExecutionResponse::operator==, Response.h:389-412 *)
Definition execEq (X : externals) (a b : exec) : bool :=
  (exCode a =? exCode b) && (exLatency a =? exLatency b) && ptrEq (datasetEq (veq X)) (exData a) (exData b) &&
  ptrEq strEqb (exSpace a) (exSpace b) && ptrEq strEqb (exMsg a) (exMsg b) && ptrEq planEq (exPlan a) (exPlan b) && ptrEq strEqb (exComment a) (exComment b).

(** * Writing *)
(** writeFieldBegin(id, type), the value, writeFieldEnd for every member, then writeFieldStop *)
Definition member : Type := Z * Z * str.
Fixpoint putMembers (last : Z) (l : list member) : str :=
  match l with
  | [] => putStop
  | (id, t, b) :: l' => putField last id t ++ b ++ putMembers id l'
  end.
(** if (ptr != nullptr) ... *)
Definition optional {A} (id t : Z) (w : A -> str) (o : option A) : list member := match o with Some x => [(id, t, w x)] | None => [] end.
(** protocol_methods of list<...> and map<...> *)
Definition putListOf {A} (t : Z) (w : A -> str) (l : list A) : str := putListHdr t (List.length l) ++ flat_map w l.
Definition putMapOf {K A} (kt vt : Z) (wk : K -> str) (w : A -> str) (m : list (K * A)) : str :=
  putMapHdr kt vt (List.length m) ++ flat_map (fun p => wk (fst p) ++ w (snd p)) m.
(** Cpp2Ops<AuthResponse>::write, AuthResponseOps.inl:61-100 *)
Definition authMembers (a : auth) : list member :=
  [(1, tI32, putI32 (auCode a))] ++ optional 2 tBIN putBin (auMsg a) ++ optional 3 tI64 putI64 (auSession a) ++
  optional 4 tI32 putI32 (auOffset a) ++ optional 5 tBIN putBin (auZone a).
Definition putAuth (a : auth) : str := putMembers 0 (authMembers a).
(** Cpp2Ops<ProfilingStats>::write, ProfilingStatsOps.inl:58-90 *)
Definition profMembers (p : prof) : list member :=
  [(1, tI64, putI64 (pfRows p)); (2, tI64, putI64 (pfExec p)); (3, tI64, putI64 (pfTotal p))] ++
  optional 4 tMAP (putMapOf tBIN tBIN putBin putBin) (pfOther p).
Definition putProf (p : prof) : str := putMembers 0 (profMembers p).
(** Cpp2Ops<PlanNodeBranchInfo>::write, PlanNodeBranchInfoOps.inl:52-68; the value of a Boolean is in the field header *)
Definition branchMembers (b : branch) : list member := [(1, (if brDo b then 1 else 2), []); (2, tI64, putI64 (brNode b))].
Definition putBranch (b : branch) : str := putMembers 0 (branchMembers b).
(** Cpp2Ops<Pair>::write, PairOps.inl:51-64, and Cpp2Ops<KeyValue>::write, KeyValueOps.inl:48-64 *)
Definition kvMembers (p : kv) : list member := [(1, tBIN, putBin (kvKey p)); (2, tBIN, putBin (kvVal p))].
Definition putKV (p : kv) : str := putMembers 0 (kvMembers p).
(** Cpp2Ops<PlanNodeDescription>::write, PlanNodeDescriptionOps.inl:69-114 *)
Definition nodeMembers (n : node) : list member :=
  [(1, tBIN, putBin (ndName n)); (2, tI64, putI64 (ndId n)); (3, tBIN, putBin (ndVar n))] ++
  optional 4 tLIST (putListOf tSTRUCT putKV) (ndDesc n) ++ optional 5 tLIST (putListOf tSTRUCT putProf) (ndProfs n) ++
  optional 6 tSTRUCT putBranch (ndBranch n) ++ optional 7 tLIST (putListOf tI64 putI64) (ndDeps n).
Definition putNode (n : node) : str := putMembers 0 (nodeMembers n).
(** Cpp2Ops<PlanDescription>::write, PlanDescriptionOps.inl:57-85 *)
Definition planMembers (p : plan) : list member :=
  [(1, tLIST, putListOf tSTRUCT putNode (plNodes p)); (2, tMAP, putMapOf tI64 tI64 putI64 putI64 (plIndex p));
   (3, tBIN, putBin (plFormat p)); (4, tI32, putI32 (plTime p))].
Definition putPlan (p : plan) : str := putMembers 0 (planMembers p).
(** Cpp2Ops<ExecutionResponse>::write, ExecutionResponseOps.inl:69-114 *)
Definition execMembers (e : exec) : list member :=
  [(1, tI32, putI32 (exCode e)); (2, tI32, putI32 (exLatency e))] ++ optional 3 tSTRUCT (putDataSet putValue) (exData e) ++
  optional 4 tBIN putBin (exSpace e) ++ optional 5 tBIN putBin (exMsg e) ++ optional 6 tSTRUCT putPlan (exPlan e) ++
  optional 7 tBIN putBin (exComment e).
Definition putExec (e : exec) : str := putMembers 0 (execMembers e).
(** Cpp2Ops<HostAddr>::write, HostAddrOps.inl:48-65 *)
Definition addrMembers (a : addr) : list member := [(1, tBIN, putBin (adHost a)); (2, tI32, putI32 (adPort a))].
Definition putAddr (a : addr) : str := putMembers 0 (addrMembers a).

(** * Reading *)
(** The shape shared by the read functions: a field in the table whose type is the expected one is read, another is
    skipped, until the stop; then a required field that was never read is an exception.  The jumps of advanceToNextField
    agree with the table for all the structs here.  A row of the table: id, type, reader; a Boolean has two types. *)
Definition rows (A : Type) : Type := list (Z * Z * (A -> str -> rd A)).
Fixpoint row {A} (tb : rows A) (id t : Z) : option (A -> str -> rd A) :=
  match tb with
  | [] => None
  | (id', t', rf) :: tb' => if (id =? id') && (t =? t') then Some rf else row tb' id t
  end.
Section Members.
Context {A : Type}.
Variable tb : rows A.
Variable skipper : Z -> str -> rd unit.
Fixpoint members (fuel : nat) (cur : Z) (seen : list Z) (a : A) (s : str) : rd (A * list Z) :=
  match fuel with
  | O => NoFuel
  | S f =>
      rbind (getField cur s) (fun h r =>
      if snd h =? 0 then Got (a, seen) r
      else match row tb (fst h) (snd h) with
           | Some rf => rbind (rf a r) (members f (fst h) (fst h :: seen))
           | None => rbind (skipper (snd h) r) (fun _ => members f (fst h) seen a)
           end)
  end.
End Members.
Definition getStruct {A} (tb : rows A) (required : list Z) (f : nat) (a : A) (s : str) : rd A :=
  rbind (members tb (skip f true) f 0 [] a s)
        (fun p r => if forallb (fun id => existsb (Z.eqb id) (snd p)) required then Got (fst p) r else Throw).
(** read a value and put it into the object *)
Definition into {A C} (get : str -> rd C) (upd : A -> C -> A) (a : A) (s : str) : rd A := rbind (get s) (fun x r => Got (upd a x) r).
Definition noBytes (s : str) : rd unit := Got tt s.
(** a map: map[key] is created if missing, its value replaced; entries of other types are skipped *)
Definition getMapOf {K A} (f : nat) (eqb : K -> K -> bool) (kt vt : Z) (gk : str -> rd K) (g : str -> rd A) (s : str) : rd (list (K * A)) :=
  rbind (getMapHdr s) (fun h r => let '(kt', vt', n) := h in
  if (kt' =? kt) && (vt' =? vt) then
    times (fun m r1 => rbind (gk r1) (fun k r2 => rbind (g r2) (fun v r3 => Got (aset eqb k v m) r3))) f n [] r
  else rbind (times (fun _ r1 => rbind (skip f false kt' r1) (fun _ => skip f false vt')) f n tt r) (fun _ r1 => Got [] r1)).

(** Cpp2Ops<AuthResponse>::read, AuthResponseOps.inl:102-224 *)
Definition authTable : rows auth :=
  [(1, tI32, into getI32 (fun a x => mkAuth x (auMsg a) (auSession a) (auOffset a) (auZone a)));
   (2, tBIN, into getBin (fun a x => mkAuth (auCode a) (Some x) (auSession a) (auOffset a) (auZone a)));
   (3, tI64, into getI64 (fun a x => mkAuth (auCode a) (auMsg a) (Some x) (auOffset a) (auZone a)));
   (4, tI32, into getI32 (fun a x => mkAuth (auCode a) (auMsg a) (auSession a) (Some x) (auZone a)));
   (5, tBIN, into getBin (fun a x => mkAuth (auCode a) (auMsg a) (auSession a) (auOffset a) (Some x)))].
Definition getAuth (f : nat) (a : auth) (s : str) : rd auth := getStruct authTable [1] f a s.
(** Cpp2Ops<HostAddr>::read, HostAddrOps.inl:68-142: no field is required *)
Definition addrTable : rows addr :=
  [(1, tBIN, into getBin (fun a x => mkAddr x (adPort a))); (2, tI32, into getI32 (fun a x => mkAddr (adHost a) x))].
Definition getAddr (f : nat) (a : addr) (s : str) : rd addr := getStruct addrTable [] f a s.
(** Cpp2Ops<Pair>::read, PairOps.inl:66-142 *)
Definition kvTable : rows kv :=
  [(1, tBIN, into getBin (fun a x => mkKV x (kvVal a))); (2, tBIN, into getBin (fun a x => mkKV (kvKey a) x))].
Definition getPair (f : nat) (s : str) : rd kv := getStruct kvTable [1; 2] f newKV s.
(** Cpp2Ops<KeyValue>::read, KeyValueOps.inl:67-138: no field is required *)
Definition getKV (f : nat) (a : kv) (s : str) : rd kv := getStruct kvTable [] f a s.
(** Cpp2Ops<PlanNodeBranchInfo>::read, PlanNodeBranchInfoOps.inl:70-150 *)
Definition branchTable : rows branch :=
  [(1, 1, into noBytes (fun a _ => mkBranch true (brNode a))); (1, 2, into noBytes (fun a _ => mkBranch false (brNode a)));
   (2, tI64, into getI64 (fun a x => mkBranch (brDo a) x))].
Definition getBranch (f : nat) (s : str) : rd branch := getStruct branchTable [1; 2] f newBranch s.
(** Cpp2Ops<ProfilingStats>::read, ProfilingStatsOps.inl:92-213 *)
Definition profTable (f : nat) : rows prof :=
  [(1, tI64, into getI64 (fun a x => mkProf x (pfExec a) (pfTotal a) (pfOther a)));
   (2, tI64, into getI64 (fun a x => mkProf (pfRows a) x (pfTotal a) (pfOther a)));
   (3, tI64, into getI64 (fun a x => mkProf (pfRows a) (pfExec a) x (pfOther a)));
   (4, tMAP, into (getMapOf f strEqb tBIN tBIN getBin getBin) (fun a x => mkProf (pfRows a) (pfExec a) (pfTotal a) (Some x)))].
Definition getProf (f : nat) (s : str) : rd prof := getStruct (profTable f) [1; 2; 3] f newProf s.
(** Cpp2Ops<PlanNodeDescription>::read, PlanNodeDescriptionOps.inl:116-289 *)
Definition nodeTable (f : nat) : rows node :=
  [(1, tBIN, into getBin (fun a x => mkNode x (ndId a) (ndVar a) (ndDesc a) (ndProfs a) (ndBranch a) (ndDeps a)));
   (2, tI64, into getI64 (fun a x => mkNode (ndName a) x (ndVar a) (ndDesc a) (ndProfs a) (ndBranch a) (ndDeps a)));
   (3, tBIN, into getBin (fun a x => mkNode (ndName a) (ndId a) x (ndDesc a) (ndProfs a) (ndBranch a) (ndDeps a)));
   (4, tLIST, into (getList f tSTRUCT (getPair f)) (fun a x => mkNode (ndName a) (ndId a) (ndVar a) (Some x) (ndProfs a) (ndBranch a) (ndDeps a)));
   (5, tLIST, into (getList f tSTRUCT (getProf f)) (fun a x => mkNode (ndName a) (ndId a) (ndVar a) (ndDesc a) (Some x) (ndBranch a) (ndDeps a)));
   (6, tSTRUCT, into (getBranch f) (fun a x => mkNode (ndName a) (ndId a) (ndVar a) (ndDesc a) (ndProfs a) (Some x) (ndDeps a)));
   (7, tLIST, into (getList f tI64 getI64) (fun a x => mkNode (ndName a) (ndId a) (ndVar a) (ndDesc a) (ndProfs a) (ndBranch a) (Some x)))].
Definition getNode (f : nat) (s : str) : rd node := getStruct (nodeTable f) [1; 2; 3] f newNode s.
(** Cpp2Ops<PlanDescription>::read, PlanDescriptionOps.inl:87-212 *)
Definition planTable (f : nat) : rows plan :=
  [(1, tLIST, into (getList f tSTRUCT (getNode f)) (fun a x => mkPlan x (plIndex a) (plFormat a) (plTime a)));
   (2, tMAP, into (getMapOf f Z.eqb tI64 tI64 getI64 getI64) (fun a x => mkPlan (plNodes a) x (plFormat a) (plTime a)));
   (3, tBIN, into getBin (fun a x => mkPlan (plNodes a) (plIndex a) x (plTime a)));
   (4, tI32, into getI32 (fun a x => mkPlan (plNodes a) (plIndex a) (plFormat a) x))].
Definition getPlan (f : nat) (s : str) : rd plan := getStruct (planTable f) [1; 2; 3; 4] f newPlan s.
(** Cpp2Ops<ExecutionResponse>::read, ExecutionResponseOps.inl:116-280 *)
Definition execTable (X : externals) (f : nat) : rows exec :=
  [(1, tI32, into getI32 (fun a x => mkExec x (exLatency a) (exData a) (exSpace a) (exMsg a) (exPlan a) (exComment a)));
   (2, tI32, into getI32 (fun a x => mkExec (exCode a) x (exData a) (exSpace a) (exMsg a) (exPlan a) (exComment a)));
   (3, tSTRUCT, into (getDataSet (getValue X f) f) (fun a x => mkExec (exCode a) (exLatency a) (Some x) (exSpace a) (exMsg a) (exPlan a) (exComment a)));
   (4, tBIN, into getBin (fun a x => mkExec (exCode a) (exLatency a) (exData a) (Some x) (exMsg a) (exPlan a) (exComment a)));
   (5, tBIN, into getBin (fun a x => mkExec (exCode a) (exLatency a) (exData a) (exSpace a) (Some x) (exPlan a) (exComment a)));
   (6, tSTRUCT, into (getPlan f) (fun a x => mkExec (exCode a) (exLatency a) (exData a) (exSpace a) (exMsg a) (Some x) (exComment a)));
   (7, tBIN, into getBin (fun a x => mkExec (exCode a) (exLatency a) (exData a) (exSpace a) (exMsg a) (exPlan a) (Some x)))].
Definition getExec (X : externals) (f : nat) (a : exec) (s : str) : rd exec := getStruct (execTable X f) [1; 2] f a s.

(** deserialize into an existing object; the number of bytes bounds the work *)
Definition readAuth (a : auth) (s : str) : rd auth := getAuth (S (List.length s)) a s.
Definition readExec (X : externals) (a : exec) (s : str) : rd exec := getExec X (S (List.length s)) a s.
Definition readAddr (a : addr) (s : str) : rd addr := getAddr (S (List.length s)) a s.
Definition readKV (a : kv) (s : str) : rd kv := getKV (S (List.length s)) a s.
