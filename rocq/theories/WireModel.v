(** Values on the wire: the Cpp2Ops<T>::write and read of src/common/datatypes/*Ops.inl over the thrift compact
    protocol (apache::thrift::CompactSerializer, the one Expression.cpp:39 uses).

    The protocol itself (variable-length integers, field and container headers) is not in the repository; it is
    transcribed from its public description.  Sizes are written as 32-bit numbers.  Not modelled: protocols with field
    names, the limits a server may set on sizes, the depth of the C++ stack, null pointers inside a Value. *)
From Coq Require Import String List.
From Verif Require Import Prelude ValueBase DateModel TimeModel HashModel ValueModel GraphModel AssocModel.
Import ListNotations.
Local Open Scope list_scope.
Local Open Scope Z_scope.

(** * Compact protocol: writing *)
(** a variable-length integer of at most k groups of seven bits *)
Fixpoint putVar (k : nat) (n : Z) : str :=
  match k with
  | O => []
  | S k' => if n <? 128 then [n] else 128 + n mod 128 :: putVar k' (n / 128)
  end.
Definition zigzag (n : Z) : Z := if 0 <=? n then 2 * n else - 2 * n - 1.
Definition putI16 (n : Z) : str := putVar 5 (zigzag n).
Definition putI32 (n : Z) : str := putVar 5 (zigzag n).
Definition putI64 (n : Z) : str := putVar 10 (zigzag n).
Definition putByte (n : Z) : str := [n mod 256].
Definition putDouble (f : f64) : str := rev (leBytes 8 (f64bits f)).
Definition putBin (s : str) : str := putVar 5 (u32 (Z.of_nat (List.length s))) ++ s.
(** types as the compact protocol numbers them; 1 and 2 are the Booleans true and false *)
Definition tBYTE : Z := 3. Definition tI16 : Z := 4. Definition tI32 : Z := 5. Definition tI64 : Z := 6.
Definition tDOUBLE : Z := 7. Definition tBIN : Z := 8. Definition tLIST : Z := 9. Definition tSET : Z := 10.
Definition tMAP : Z := 11. Definition tSTRUCT : Z := 12. Definition tFLOAT : Z := 13.
(** field header: the difference of the ids if it is 1 to 15 *)
Definition putField (last id t : Z) : str :=
  if (0 <? id - last) && (id - last <=? 15) then [16 * (id - last) + t] else t :: putI16 id.
Definition putStop : str := [0].
Definition putListHdr (t : Z) (n : nat) : str :=
  let z := u32 (Z.of_nat n) in if z <=? 14 then [16 * z + t] else 240 + t :: putVar 5 z.
Definition putMapHdr (kt vt : Z) (n : nat) : str :=
  let z := u32 (Z.of_nat n) in if z =? 0 then [0] else putVar 5 z ++ [16 * kt + vt].

(** * Writing the data types *)
(** Cpp2Ops<Date>::write, DateOps.inl:53-76 *)
Definition putDate (d : date) : str :=
  putField 0 1 tI16 ++ putI16 (year d) ++ putField 1 2 tBYTE ++ putByte (month d) ++ putField 2 3 tBYTE ++ putByte (day d) ++ putStop.
(** Cpp2Ops<Time>::write, DateOps.inl:256-283 *)
Definition putTime (t : time) : str :=
  putField 0 1 tBYTE ++ putByte (thour t) ++ putField 1 2 tBYTE ++ putByte (tminute t) ++ putField 2 3 tBYTE ++ putByte (tsec t) ++
  putField 3 4 tI32 ++ putI32 (tmicro t) ++ putStop.
(** Cpp2Ops<DateTime>::write, DateOps.inl:495-537 *)
Definition putDateTime (t : datetime) : str :=
  putField 0 1 tI16 ++ putI16 (dyear t) ++ putField 1 2 tBYTE ++ putByte (dmonth t) ++ putField 2 3 tBYTE ++ putByte (dday t) ++
  putField 3 4 tBYTE ++ putByte (dhour t) ++ putField 4 5 tBYTE ++ putByte (dminute t) ++ putField 5 6 tBYTE ++ putByte (dsec t) ++
  putField 6 7 tI32 ++ putI32 (dmicro t) ++ putStop.

(** the edge type as it is written, EdgeOps.inl:73-77 and PathOps.inl:71-75 *)
Definition wireType (t : Z) : Z := if t =? 0 then 0 else if 0 <? t then 1 else -1.

Section Put.
Context {V : Type}.
Variable w : V -> str.
(** protocol_methods of map<binary, structure>, list<structure>, list<binary> and set<structure> *)
Definition putProps (m : list (str * V)) : str :=
  putMapHdr tBIN tSTRUCT (List.length m) ++ flat_map (fun p => putBin (fst p) ++ w (snd p)) m.
Definition putList (l : list V) : str := putListHdr tSTRUCT (List.length l) ++ flat_map w l.
(** Cpp2Ops<Tag>::write, VertexOps.inl:52-72 *)
Definition putTag (t : tagR V) : str := putField 0 1 tBIN ++ putBin (tgname t) ++ putField 1 2 tMAP ++ putProps (tgprops t) ++ putStop.
(** Cpp2Ops<Vertex>::write, VertexOps.inl:227-244 *)
Definition putVertex (v : vertexR V) : str :=
  putField 0 1 tSTRUCT ++ w (vvid v) ++ putField 1 2 tLIST ++ putListHdr tSTRUCT (List.length (vtags v)) ++ flat_map putTag (vtags v) ++ putStop.
(** Cpp2Ops<Edge>::write, EdgeOps.inl:60-103 *)
Definition putEdge (e : edgeR V) : str :=
  putField 0 1 tSTRUCT ++ w (esrc e) ++ putField 1 2 tSTRUCT ++ w (edst e) ++ putField 2 3 tI32 ++ putI32 (wireType (etype e)) ++
  putField 3 4 tBIN ++ putBin (ename e) ++ putField 4 5 tI64 ++ putI64 (erank e) ++ putField 5 6 tMAP ++ putProps (eprops e) ++ putStop.
(** Cpp2Ops<Step>::write, PathOps.inl:60-98 *)
Definition putStep (s : stepR V) : str :=
  putField 0 1 tSTRUCT ++ putVertex (sdst s) ++ putField 1 2 tI32 ++ putI32 (wireType (stype s)) ++
  putField 2 3 tBIN ++ putBin (sname s) ++ putField 3 4 tI64 ++ putI64 (srank s) ++ putField 4 5 tMAP ++ putProps (sprops s) ++ putStop.
(** Cpp2Ops<Path>::write, PathOps.inl:328-346 *)
Definition putPath (p : pathR V) : str :=
  putField 0 1 tSTRUCT ++ putVertex (psrc p) ++ putField 1 2 tLIST ++ putListHdr tSTRUCT (List.length (psteps p)) ++ flat_map putStep (psteps p) ++ putStop.
(** Cpp2Ops<List>::write, ListOps.inl:45-60; Row is List *)
Definition putRow (l : list V) : str := putField 0 1 tLIST ++ putList l ++ putStop.
(** Cpp2Ops<Map>::write, MapOps.inl:45-60 *)
Definition putMap (m : list (str * V)) : str := putField 0 1 tMAP ++ putProps m ++ putStop.
(** Cpp2Ops<Set>::write, SetOps.inl:45-60; the header of a set is that of a list *)
Definition putSet (l : list V) : str := putField 0 1 tSET ++ putList l ++ putStop.
(** Cpp2Ops<DataSet>::write, DataSetOps.inl:53-75 *)
Definition putDataSet (d : datasetR V) : str :=
  putField 0 1 tLIST ++ putListHdr tBIN (List.length (dcols d)) ++ flat_map putBin (dcols d) ++
  putField 1 2 tLIST ++ putListHdr tSTRUCT (List.length (drows d)) ++ flat_map putRow (drows d) ++ putStop.
End Put.

(** NullType as a number, Value.h:36-45 *)
Definition nullNo (n : nullType) : Z :=
  match n with NNull => 0 | NNaN => 1 | NBadData => 2 | NBadType => 3 | NOverflow => 4 | NUnknownProp => 5 | NDivByZero => 6 | NOutOfRange => 7 end.
(** Cpp2Ops<Value>::write, ValueOps.inl:96-258 *)
Fixpoint putValue (v : value) : str :=
  match v with
  | VEmpty => putStop
  | VNull n => putField 0 1 tI32 ++ putI32 (nullNo n) ++ putStop
  | VBool b => putField 0 2 (if b then 1 else 2) ++ putStop
  | VInt z => putField 0 3 tI64 ++ putI64 z ++ putStop
  | VFloat f => putField 0 4 tDOUBLE ++ putDouble f ++ putStop
  | VStr s => putField 0 5 tBIN ++ putBin s ++ putStop
  | VDate d => putField 0 6 tSTRUCT ++ putDate d ++ putStop
  | VTime t => putField 0 7 tSTRUCT ++ putTime t ++ putStop
  | VDateTime t => putField 0 8 tSTRUCT ++ putDateTime t ++ putStop
  | VVertex x => putField 0 9 tSTRUCT ++ putVertex putValue x ++ putStop
  | VEdge x => putField 0 10 tSTRUCT ++ putEdge putValue x ++ putStop
  | VPath x => putField 0 11 tSTRUCT ++ putPath putValue x ++ putStop
  | VList l => putField 0 12 tSTRUCT ++ putRow putValue l ++ putStop
  | VMap m => putField 0 13 tSTRUCT ++ putMap putValue m ++ putStop
  | VSet l => putField 0 14 tSTRUCT ++ putSet putValue l ++ putStop
  | VDataSet d => putField 0 15 tSTRUCT ++ putDataSet putValue d ++ putStop
  end.

(** * Compact protocol: reading *)
(** The result of reading: an object and the unread bytes; a TProtocolException or an underflow; the end of the process
    (LOG(FATAL)); an object with an uninitialised member; an object the Value model does not have (a null of unknown
    kind); fuel exhausted. *)
Inductive rd (A : Type) := Got (a : A) (rest : str) | Throw | Abort | Indet | Beyond | NoFuel.
Arguments Got {A}. Arguments Throw {A}. Arguments Abort {A}. Arguments Indet {A}. Arguments Beyond {A}. Arguments NoFuel {A}.
Definition rbind {A C} (m : rd A) (f : A -> str -> rd C) : rd C :=
  match m with Got a r => f a r | Throw => Throw | Abort => Abort | Indet => Indet | Beyond => Beyond | NoFuel => NoFuel end.

Definition getByte (s : str) : rd Z := match s with [] => Throw | b :: r => Got b r end.
Fixpoint getVar (k : nat) (s : str) : rd Z :=
  match k with
  | O => Throw
  | S k' => rbind (getByte s) (fun b r => if b <? 128 then Got b r else rbind (getVar k' r) (fun hi r' => Got (b - 128 + 128 * hi) r'))
  end.
Definition unzigzag (u : Z) : Z := if Z.even u then u / 2 else - (u / 2) - 1.
Definition getU32 (s : str) : rd Z := rbind (getVar 5 s) (fun n r => Got (u32 n) r).
Definition getI32 (s : str) : rd Z := rbind (getU32 s) (fun n r => Got (unzigzag n) r).
Definition getI16 (s : str) : rd Z := rbind (getI32 s) (fun n r => Got (wrap16 n) r).
Definition getI64 (s : str) : rd Z := rbind (getVar 10 s) (fun n r => Got (unzigzag (u64 n)) r).
Definition getI8 (s : str) : rd Z := rbind (getByte s) (fun b r => Got (wrap8 b) r).
Definition getN (n : Z) (s : str) : rd str :=
  if Z.of_nat (List.length s) <? n then Throw else Got (firstn (Z.to_nat n) s) (skipn (Z.to_nat n) s).
Fixpoint beVal (l : str) (acc : Z) : Z := match l with [] => acc | b :: l' => beVal l' (256 * acc + b) end.
(** the double with the given bit pattern *)
Definition f64ofBits (u : Z) : f64 :=
  let sg := 9223372036854775808 <=? u in
  let e := (u / 4503599627370496) mod 2048 in
  let m := u mod 4503599627370496 in
  if e =? 2047 then (if m =? 0 then S754_infinity sg else S754_nan)
  else if e =? 0 then match m with Zpos p => S754_finite sg p (-1074) | _ => S754_zero sg end
  else match 4503599627370496 + m with Zpos p => S754_finite sg p (e - 1075) | _ => S754_nan end.
Definition getDouble (s : str) : rd f64 := rbind (getN 8 s) (fun b r => Got (f64ofBits (beVal b 0)) r).
(** sizes are read as 32-bit numbers and refused if negative *)
Definition getSize (s : str) : rd Z := rbind (getU32 s) (fun n r => if 2147483648 <=? n then Throw else Got n r).
Definition getBin (s : str) : rd str := rbind (getSize s) getN.
(** field header: id and type; type 0 is the end of the struct *)
Definition getField (last : Z) (s : str) : rd (Z * Z) :=
  rbind (getByte s) (fun b r =>
  let t := b mod 16 in
  if t =? 0 then Got (0, 0) r
  else rbind (if b / 16 =? 0 then getI16 r else Got (wrap16 (last + b / 16)) r) (fun id r' =>
       if 14 <=? t then Throw else Got (id, t) r')).
Definition getListHdr (s : str) : rd (Z * Z) :=
  rbind (getByte s) (fun b r => if b / 16 =? 15 then rbind (getSize r) (fun n r' => Got (b mod 16, n) r') else Got (b mod 16, b / 16) r).
Definition getMapHdr (s : str) : rd (Z * Z * Z) :=
  rbind (getSize s) (fun n r => if n =? 0 then Got (0, 0, 0) r else rbind (getByte r) (fun b r' => Got (b / 16, b mod 16, n) r')).

(** n times *)
Section Repeat.
Context {A : Type}.
Variable step : A -> str -> rd A.
Fixpoint times (fuel : nat) (n : Z) (a : A) (s : str) : rd A :=
  if n <=? 0 then Got a s
  else match fuel with O => NoFuel | S f => rbind (step a s) (times f (n - 1)) end.
End Repeat.

(** protocol->skip(type); the value of a Boolean field is in its header, that of a Boolean element is a byte *)
Fixpoint skip (fuel : nat) (inField : bool) (t : Z) (s : str) : rd unit :=
  match fuel with
  | O => NoFuel
  | S f =>
      if (t =? 1) || (t =? 2) then (if inField then Got tt s else rbind (getByte s) (fun _ r => Got tt r))
      else if t =? tBYTE then rbind (getByte s) (fun _ r => Got tt r)
      else if (t =? tI16) || (t =? tI32) then rbind (getVar 5 s) (fun _ r => Got tt r)
      else if t =? tI64 then rbind (getVar 10 s) (fun _ r => Got tt r)
      else if t =? tDOUBLE then rbind (getN 8 s) (fun _ r => Got tt r)
      else if t =? tFLOAT then rbind (getN 4 s) (fun _ r => Got tt r)
      else if t =? tBIN then rbind (getBin s) (fun _ r => Got tt r)
      else if (t =? tLIST) || (t =? tSET) then
        rbind (getListHdr s) (fun h r => times (fun _ => skip f false (fst h)) f (snd h) tt r)
      else if t =? tMAP then
        rbind (getMapHdr s) (fun h r => let '(kt, vt, n) := h in
        times (fun _ r1 => rbind (skip f false kt r1) (fun _ => skip f false vt)) f n tt r)
      else if t =? tSTRUCT then
        (fix fields (g : nat) (last : Z) (s : str) : rd unit :=
           match g with
           | O => NoFuel
           | S g' => rbind (getField last s) (fun h r =>
                     if snd h =? 0 then Got tt r else rbind (skip f true (snd h) r) (fun _ => fields g' (fst h)))
           end) (S f) 0 s
      else Throw
  end.

(** * Reading the data types *)
(** The read functions share one shape.  After field [cur] has been read ([direct]), advanceToNextField tries the header
    expected next and jumps to its field; for Time and DateTime the jump differs from the table of the switch, given by
    [quick]: field to read, or None for the end.  Otherwise _loop: stop, a field of the table with its type, or skip. *)
Section Struct.
Context {A : Type}.
Variable table : Z -> option (Z * (A -> str -> rd A)).
Variable quick : Z -> Z * Z -> option (option Z).
Variable skipper : Z -> str -> rd unit.
Fixpoint fields (fuel : nat) (cur : Z) (direct : bool) (a : A) (s : str) : rd A :=
  match fuel with
  | O => NoFuel
  | S f =>
      rbind (getField cur s) (fun h r =>
      match (if direct then quick cur h else None) with
      | Some None => Got a r
      | Some (Some id) => match table id with Some (_, rf) => rbind (rf a r) (fields f id true) | None => Throw end
      | None =>
          if snd h =? 0 then Got a r
          else match table (fst h) with
               | Some (t, rf) => if snd h =? t then rbind (rf a r) (fields f (fst h) true)
                                 else rbind (skipper (snd h) r) (fun _ => fields f (fst h) false a)
               | None => rbind (skipper (snd h) r) (fun _ => fields f (fst h) false a)
               end
      end)
  end.
End Struct.
Definition noQuick (_ : Z) (_ : Z * Z) : option (option Z) := None.
Definition is (h : Z * Z) (id t : Z) : bool := (fst h =? id) && (snd h =? t).

(** Cpp2Ops<Date>::read, DateOps.inl:79-171 *)
Definition dateTable (id : Z) : option (Z * (date -> str -> rd date)) :=
  match id with
  | 1 => Some (tI16, fun d s => rbind (getI16 s) (fun x r => Got (mkDate x (month d) (day d)) r))
  | 2 => Some (tBYTE, fun d s => rbind (getI8 s) (fun x r => Got (mkDate (year d) x (day d)) r))
  | 3 => Some (tBYTE, fun d s => rbind (getI8 s) (fun x r => Got (mkDate (year d) (month d) x) r))
  | _ => None
  end.
Definition getDate (f : nat) (s : str) : rd date := fields dateTable noQuick (skip f true) f 0 true (mkDate 0 1 1) s.
(** Cpp2Ops<Time>::read, DateOps.inl:286-390: the first header expected is of type I16 (line 294), the last one field 5 of type I32 (331) *)
Definition timeTable (id : Z) : option (Z * (time -> str -> rd time)) :=
  match id with
  | 1 => Some (tBYTE, fun t s => rbind (getI8 s) (fun x r => Got (mkTime x (tminute t) (tsec t) (tmicro t)) r))
  | 2 => Some (tBYTE, fun t s => rbind (getI8 s) (fun x r => Got (mkTime (thour t) x (tsec t) (tmicro t)) r))
  | 3 => Some (tBYTE, fun t s => rbind (getI8 s) (fun x r => Got (mkTime (thour t) (tminute t) x (tmicro t)) r))
  | 4 => Some (tI32, fun t s => rbind (getI32 s) (fun x r => Got (mkTime (thour t) (tminute t) (tsec t) x) r))
  | _ => None
  end.
Definition timeQuick (cur : Z) (h : Z * Z) : option (option Z) :=
  if (cur =? 0) && is h 1 tI16 then Some (Some 1) else if (cur =? 4) && is h 5 tI32 then Some None else None.
Definition getTime (f : nat) (s : str) : rd time := fields timeTable timeQuick (skip f true) f 0 true (mkTime 0 0 0 0) s.
(** Cpp2Ops<DateTime>::read, DateOps.inl:540-710: members are bit fields (Date.h:140-148); the last header expected is field 8 of type
    I32 (line 621) *)
Definition dateTimeTable (id : Z) : option (Z * (datetime -> str -> rd datetime)) :=
  match id with
  | 1 => Some (tI16, fun t s => rbind (getI16 s) (fun x r => Got (mkDT x (dmonth t) (dday t) (dhour t) (dminute t) (dsec t) (dmicro t)) r))
  | 2 => Some (tBYTE, fun t s => rbind (getI8 s) (fun x r => Got (mkDT (dyear t) (x mod 16) (dday t) (dhour t) (dminute t) (dsec t) (dmicro t)) r))
  | 3 => Some (tBYTE, fun t s => rbind (getI8 s) (fun x r => Got (mkDT (dyear t) (dmonth t) (x mod 32) (dhour t) (dminute t) (dsec t) (dmicro t)) r))
  | 4 => Some (tBYTE, fun t s => rbind (getI8 s) (fun x r => Got (mkDT (dyear t) (dmonth t) (dday t) (x mod 32) (dminute t) (dsec t) (dmicro t)) r))
  | 5 => Some (tBYTE, fun t s => rbind (getI8 s) (fun x r => Got (mkDT (dyear t) (dmonth t) (dday t) (dhour t) (x mod 64) (dsec t) (dmicro t)) r))
  | 6 => Some (tBYTE, fun t s => rbind (getI8 s) (fun x r => Got (mkDT (dyear t) (dmonth t) (dday t) (dhour t) (dminute t) (x mod 64) (dmicro t)) r))
  | 7 => Some (tI32, fun t s => rbind (getI32 s) (fun x r => Got (mkDT (dyear t) (dmonth t) (dday t) (dhour t) (dminute t) (dsec t) (x mod 4194304)) r))
  | _ => None
  end.
Definition dateTimeQuick (cur : Z) (h : Z * Z) : option (option Z) := if (cur =? 7) && is h 8 tI32 then Some None else None.
Definition getDateTime (f : nat) (s : str) : rd datetime := fields dateTimeTable dateTimeQuick (skip f true) f 0 true (mkDT 0 1 1 0 0 0 0) s.

Section Get.
(** reading a Value into an existing Value *)
Variable rv : value -> str -> rd value.
Variable f : nat.
(** a list<structure>, list<binary>: elements of another type are skipped and the container stays empty *)
Definition getList {A} (et : Z) (elem : str -> rd A) (s : str) : rd (list A) :=
  rbind (getListHdr s) (fun h r =>
  if fst h =? et then times (fun l r1 => rbind (elem r1) (fun x r2 => Got (l ++ [x]) r2)) f (snd h) [] r
  else rbind (times (fun _ => skip f false (fst h)) f (snd h) tt r) (fun _ r1 => Got [] r1)).
(** a map<binary, structure>: map[key] is created if missing and the value is read into it *)
Definition getProps (s : str) : rd (list (str * value)) :=
  rbind (getMapHdr s) (fun h r => let '(kt, vt, n) := h in
  if (kt =? tBIN) && (vt =? tSTRUCT) then
    times (fun m r1 => rbind (getBin r1) (fun k r2 =>
           rbind (rv (match aget strEqb k m with Some v => v | None => VEmpty end) r2) (fun v r3 => Got (aset strEqb k v m) r3))) f n [] r
  else rbind (times (fun _ r1 => rbind (skip f false kt r1) (fun _ => skip f false vt)) f n tt r) (fun _ r1 => Got [] r1)).
(** Cpp2Ops<Tag>::read, VertexOps.inl:75-149 *)
Definition tagTable (id : Z) : option (Z * (tag -> str -> rd tag)) :=
  match id with
  | 1 => Some (tBIN, fun t s => rbind (getBin s) (fun x r => Got (mkTag x (tgprops t)) r))
  | 2 => Some (tMAP, fun t s => rbind (getProps s) (fun x r => Got (mkTag (tgname t) x) r))
  | _ => None
  end.
Definition getTag (s : str) : rd tag := fields tagTable noQuick (skip f true) f 0 true (mkTag [] []) s.
(** Cpp2Ops<Vertex>::read, VertexOps.inl:247-320 *)
Definition vertexTable (id : Z) : option (Z * (vertex -> str -> rd vertex)) :=
  match id with
  | 1 => Some (tSTRUCT, fun v s => rbind (rv (vvid v) s) (fun x r => Got (mkVertex x (vtags v)) r))
  | 2 => Some (tLIST, fun v s => rbind (getList tSTRUCT getTag s) (fun x r => Got (mkVertex (vvid v) x) r))
  | _ => None
  end.
Definition getVertexInto (v : vertex) (s : str) : rd vertex := fields vertexTable noQuick (skip f true) f 0 true v s.
(** Cpp2Ops<Edge>::read, EdgeOps.inl:106-258; the members type and ranking of a new Edge are not initialised (Edge.h:25) *)
Definition protoEdge : Type := edge * bool * bool.
Definition edgeTable (id : Z) : option (Z * (protoEdge -> str -> rd protoEdge)) :=
  match id with
  | 1 => Some (tSTRUCT, fun p s => let '(e, bt, br) := p in rbind (rv (esrc e) s) (fun x r => Got (mkEdge x (edst e) (etype e) (ename e) (erank e) (eprops e), bt, br) r))
  | 2 => Some (tSTRUCT, fun p s => let '(e, bt, br) := p in rbind (rv (edst e) s) (fun x r => Got (mkEdge (esrc e) x (etype e) (ename e) (erank e) (eprops e), bt, br) r))
  | 3 => Some (tI32, fun p s => let '(e, bt, br) := p in rbind (getI32 s) (fun x r => Got (mkEdge (esrc e) (edst e) x (ename e) (erank e) (eprops e), true, br) r))
  | 4 => Some (tBIN, fun p s => let '(e, bt, br) := p in rbind (getBin s) (fun x r => Got (mkEdge (esrc e) (edst e) (etype e) x (erank e) (eprops e), bt, br) r))
  | 5 => Some (tI64, fun p s => let '(e, bt, br) := p in rbind (getI64 s) (fun x r => Got (mkEdge (esrc e) (edst e) (etype e) (ename e) x (eprops e), bt, true) r))
  | 6 => Some (tMAP, fun p s => let '(e, bt, br) := p in rbind (getProps s) (fun x r => Got (mkEdge (esrc e) (edst e) (etype e) (ename e) (erank e) x, bt, br) r))
  | _ => None
  end.
Definition getEdge (s : str) : rd edge :=
  rbind (fields edgeTable noQuick (skip f true) f 0 true (mkEdge VEmpty VEmpty 0 [] 0 [], false, false) s)
        (fun p r => let '(e, bt, br) := p in if bt && br then Got e r else Indet).
(** Cpp2Ops<Step>::read, PathOps.inl:101-213; a Step of a resized vector is zero-initialised (Path.h:23) *)
Definition stepTable (id : Z) : option (Z * (step -> str -> rd step)) :=
  match id with
  | 1 => Some (tSTRUCT, fun p s => rbind (getVertexInto (sdst p) s) (fun x r => Got (mkStep x (stype p) (sname p) (srank p) (sprops p)) r))
  | 2 => Some (tI32, fun p s => rbind (getI32 s) (fun x r => Got (mkStep (sdst p) x (sname p) (srank p) (sprops p)) r))
  | 3 => Some (tBIN, fun p s => rbind (getBin s) (fun x r => Got (mkStep (sdst p) (stype p) x (srank p) (sprops p)) r))
  | 4 => Some (tI64, fun p s => rbind (getI64 s) (fun x r => Got (mkStep (sdst p) (stype p) (sname p) x (sprops p)) r))
  | 5 => Some (tMAP, fun p s => rbind (getProps s) (fun x r => Got (mkStep (sdst p) (stype p) (sname p) (srank p) x) r))
  | _ => None
  end.
Definition getStep (s : str) : rd step := fields stepTable noQuick (skip f true) f 0 true (mkStep (mkVertex VEmpty []) 0 [] 0 []) s.
(** Cpp2Ops<Path>::read, PathOps.inl:349-425 *)
Definition pathTable (id : Z) : option (Z * (path -> str -> rd path)) :=
  match id with
  | 1 => Some (tSTRUCT, fun p s => rbind (getVertexInto (psrc p) s) (fun x r => Got (mkPath x (psteps p)) r))
  | 2 => Some (tLIST, fun p s => rbind (getList tSTRUCT getStep s) (fun x r => Got (mkPath (psrc p) x) r))
  | _ => None
  end.
Definition getPath (s : str) : rd path := fields pathTable noQuick (skip f true) f 0 true (mkPath (mkVertex VEmpty []) []) s.
(** Cpp2Ops<List>::read, ListOps.inl:63-121 *)
Definition rowTable (id : Z) : option (Z * (list value -> str -> rd (list value))) :=
  match id with
  | 1 => Some (tLIST, fun _ s => getList tSTRUCT (rv VEmpty) s)
  | _ => None
  end.
Definition getRow (s : str) : rd (list value) := fields rowTable noQuick (skip f true) f 0 true [] s.
(** Cpp2Ops<Map>::read, MapOps.inl:63-121 *)
Definition mapTable (id : Z) : option (Z * (list (str * value) -> str -> rd (list (str * value)))) :=
  match id with
  | 1 => Some (tMAP, fun _ s => getProps s)
  | _ => None
  end.
Definition getMap (s : str) : rd (list (str * value)) := fields mapTable noQuick (skip f true) f 0 true [] s.
(** Cpp2Ops<DataSet>::read, DataSetOps.inl:78-160 *)
Definition dataSetTable (id : Z) : option (Z * (dataset -> str -> rd dataset)) :=
  match id with
  | 1 => Some (tLIST, fun d s => rbind (getList tBIN getBin s) (fun x r => Got (mkDataSet x (drows d)) r))
  | 2 => Some (tLIST, fun d s => rbind (getList tSTRUCT getRow s) (fun x r => Got (mkDataSet (dcols d) x) r))
  | _ => None
  end.
Definition getDataSet (s : str) : rd dataset := fields dataSetTable noQuick (skip f true) f 0 true (mkDataSet [] []) s.

Variable X : externals.
(** a set<structure>: every element is hashed and inserted unless it is there *)
Definition setInsert (l : list value) (v : value) (r : str) : rd (list value) :=
  match vhash X v with
  | Ret _ => Got (if memberOf X v l then l else l ++ [v]) r
  | _ => Abort
  end.
Definition getSetElems (s : str) : rd (list value) :=
  rbind (getListHdr s) (fun h r =>
  if fst h =? tSTRUCT then times (fun l r1 => rbind (rv VEmpty r1) (fun x r2 => setInsert l x r2)) f (snd h) [] r
  else rbind (times (fun _ => skip f false (fst h)) f (snd h) tt r) (fun _ r1 => Got [] r1)).
(** Cpp2Ops<Set>::read, SetOps.inl:63-122 *)
Definition setTable (id : Z) : option (Z * (list value -> str -> rd (list value))) :=
  match id with
  | 1 => Some (tSET, fun _ s => getSetElems s)
  | _ => None
  end.
Definition getSet (s : str) : rd (list value) := fields setTable noQuick (skip f true) f 0 true [] s.
End Get.

Definition nullOf (z : Z) : option nullType :=
  match z with 0 => Some NNull | 1 => Some NNaN | 2 => Some NBadData | 3 => Some NBadType | 4 => Some NOverflow | 5 => Some NUnknownProp
  | 6 => Some NDivByZero | 7 => Some NOutOfRange | _ => None end.

Section GetValue.
Variable X : externals.
(** the member selected by the field id, ValueOps.inl:286-467; another type is skipped and the object stays as it was *)
Definition getMember (rv : value -> str -> rd value) (f : nat) (init : value) (id t : Z) (s : str) : rd value :=
  let as_ {A} (ty : Z) (m : rd A) (mk : A -> value) : rd value :=
    if t =? ty then rbind m (fun x r => Got (mk x) r) else rbind (skip f true t s) (fun _ r => Got init r) in
  match id with
  | 1 => if t =? tI32 then rbind (getI32 s) (fun z r => match nullOf z with Some n => Got (VNull n) r | None => Beyond end)
         else rbind (skip f true t s) (fun _ r => Got init r)
  | 2 => if (t =? 1) || (t =? 2) then Got (VBool (t =? 1)) s else rbind (skip f true t s) (fun _ r => Got init r)
  | 3 => as_ tI64 (getI64 s) VInt
  | 4 => as_ tDOUBLE (getDouble s) VFloat
  | 5 => as_ tBIN (getBin s) VStr
  | 6 => as_ tSTRUCT (getDate f s) VDate
  | 7 => as_ tSTRUCT (getTime f s) VTime
  | 8 => as_ tSTRUCT (getDateTime f s) VDateTime
  | 9 => as_ tSTRUCT (getVertexInto rv f (mkVertex VEmpty []) s) VVertex
  | 10 => as_ tSTRUCT (getEdge rv f s) VEdge
  | 11 => as_ tSTRUCT (getPath rv f s) VPath
  | 12 => as_ tSTRUCT (getRow rv f s) VList
  | 13 => as_ tSTRUCT (getMap rv f s) VMap
  | 14 => as_ tSTRUCT (getSet rv f X s) VSet
  | 15 => as_ tSTRUCT (getDataSet rv f s) VDataSet
  | _ => rbind (skip f true t s) (fun _ r => Got init r)
  end.
(** Cpp2Ops<Value>::read, ValueOps.inl:261-480 *)
Fixpoint getValue (fuel : nat) (init : value) (s : str) : rd value :=
  match fuel with
  | O => NoFuel
  | S f =>
      rbind (getField 0 s) (fun h r =>
      if snd h =? 0 then Got VEmpty r
      else rbind (getMember (getValue f) f init (fst h) (snd h) r) (fun v r1 =>
           rbind (getField (fst h) r1) (fun h' r2 => if snd h' =? 0 then Got v r2 else Throw)))
  end.
(** CompactSerializer::deserialize into a new Value; every nesting and every field takes a byte, so the number of bytes
    bounds the work *)
Definition readWire (s : str) : rd value := getValue (S (List.length s)) VEmpty s.
End GetValue.
