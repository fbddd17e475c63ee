(** src/common/meta/GflagsManager.cpp, and the configuration part of src/common/clients/meta/MetaClient.cpp.
    Not modelled: logging, locks, help texts and default values of flags.  An exception is [Fatal] (nothing catches it), and so is
    LOG(FATAL). *)
From Coq Require Import String List.
From Verif Require Import Prelude ValueBase ValueModel NetModel EvalModel AssocModel DynModel ConfModel.
Import ListNotations.
Local Open Scope Z_scope.
Local Open Scope list_scope.

(** ** The library gflags *)
Inductive ftype := FBool | FInt32 | FUInt32 | FInt64 | FUInt64 | FDouble | FString.
(** CommandLineFlagInfo::type *)
Definition typeText (t : ftype) : str :=
  match t with
  | FBool => B "bool" | FInt32 => B "int32" | FUInt32 => B "uint32" | FInt64 => B "int64" | FUInt64 => B "uint64"
  | FDouble => B "double" | FString => B "string"
  end.
Definition flagRange (t : ftype) : Z * Z :=
  match t with
  | FInt32 => (int32_min, int32_max) | FUInt32 => (0, 4294967295) | FInt64 => (int64_min, int64_max) | FUInt64 => (0, 18446744073709551615)
  | _ => (0, -1)
  end.
(** A flag: name, type and CommandLineFlagInfo::current_value.  A program has a list of them with pairwise different names;
    replacing dashes by underscores in names, which the library does, is left out. *)
Record flag := mkFlag { flName : str; flType : ftype; flText : str }.
(** What is outside: hexadecimal numbers, doubles (the text a flag shows after the assignment, None if refused) and validators *)
Record gWorld := mkGWorld {
  gwHex : ftype -> str -> option str;
  gwDouble : str -> option str;
  gwValid : str -> str -> bool
}.
(** strtoimax with base 10 that has to consume the whole text *)
Definition strtoWhole (s : str) : option Z :=
  let (neg, s2) := takeSign (dropSpace s) in
  let '(n, z) := digits s2 0 in
  if (0 <? n)%nat && (n =? List.length s2)%nat then Some (if neg then - z else z) else None.
(** FlagValue::ParseFrom and then FlagValue::ToString of gflags: the text of the flag after the assignment, None if it is refused.
    For unsigned types every text with a minus is refused (gflags looks for it only behind spaces). *)
Definition flagParse (G : gWorld) (t : ftype) (s : str) : option str :=
  match t with
  | FString => Some s
  | FBool =>
      let w := map lowerByte s in
      if existsb (strEqb w) [B "1"; B "t"; B "true"; B "y"; B "yes"] then Some (B "true")
      else if existsb (strEqb w) [B "0"; B "f"; B "false"; B "n"; B "no"] then Some (B "false") else None
  | FDouble => match s with [] => None | _ => gwDouble G s end
  | _ =>
      match s with
      | 48 :: 120 :: _ | 48 :: 88 :: _ => gwHex G t s
      | _ =>
        if (match t with FUInt32 | FUInt64 => existsb (Z.eqb 45) s | _ => false end) then None else
        match strtoWhole s with
        | Some z => if (fst (flagRange t) <=? z) && (z <=? snd (flagRange t)) then Some (decZ z) else None
        | None => None
        end
      end
  end.
(** GetCommandLineOption *)
Fixpoint flagGet (fs : list flag) (name : str) : option flag :=
  match fs with [] => None | f :: r => if strEqb (flName f) (cstr name) then Some f else flagGet r name end.
(** SetCommandLineOption: nothing happens if there is no such flag or the value is refused *)
Fixpoint flagSet (G : gWorld) (fs : list flag) (name text : str) : list flag :=
  match fs with
  | [] => []
  | f :: r =>
      if strEqb (flName f) (cstr name) then
        (match flagParse G (flType f) (cstr text) with
         | Some t => if gwValid G (flName f) t then mkFlag (flName f) (flType f) t else f
         | None => f
         end) :: r
      else f :: flagSet G r name text
  end.

(** ** GflagsManager *)
Definition startsWithB (p s : str) : bool := strEqb p (firstn (List.length p) s).
(** one call of the lambda in 36-38 *)
Definition mapItem (W : dynWorld) (m : list (str * value)) (k : str) (d : dyn) : option (list (str * value)) :=
  match asString W d with Some s => Some (aadd strEqb k (VStr s) m) | None => None end.
Definition throwing {A} (o : option A) : outcome A := match o with Some a => Ret a | None => Fatal end.
(** gflagsValueToValue, 16-45; the status of forEachItem is not looked at *)
Definition gflagsValueToValue (W : dynWorld) (type text : str) : outcome value :=
  if startsWithB (B "int") type || startsWithB (B "uint") type then let* z := throwing (toInt64 text) in Ret (VInt z)
  else if strEqb type (B "double") then let* x := throwing (dwStrDouble W text) in Ret (VFloat x)
  else if strEqb type (B "bool") then let* b := throwing (toBool text) in Ret (VBool b)
  else if strEqb type (B "string") then Ret (VStr text)
  else if strEqb type (B "map") then
    match parseFromString W newConf text with
    | (false, _) => Ret (VNull NNull)
    | (true, c) => let* r := forEachItem (mapItem W) c [] in Ret (VMap (snd r))
    end
  else Ret VEmpty.

(** ConfigMode, meta.thrift 761-766; true stands for nested in the map below *)
Inductive configMode := MImmutable | MReboot | MMutable | MIgnored.
(** the map at the start of parseConfigJson, 51-67 *)
Definition defaultModes : list (str * (configMode * bool)) :=
  map (fun n => (B n, (MMutable, false)))
    ["max_edge_returned_per_vertex"; "minloglevel"; "v"; "heartbeat_interval_secs"; "meta_client_retry_times"; "slow_op_threshhold_ms";
     "wal_ttl"; "clean_wal_interval_secs"; "custom_filter_interval_secs"; "accept_partial_success"]%string ++
  map (fun n => (B n, (MMutable, true))) ["rocksdb_db_options"; "rocksdb_column_family_options"; "rocksdb_block_based_table_options"]%string.
(** the loops 81-83 and 88-91 *)
Definition setModes (names : list str) (x : configMode * bool) (m : list (str * (configMode * bool))) : list (str * (configMode * bool)) :=
  fold_left (fun m n => aset strEqb n x m) names m.
(** parseConfigJson, 48-95; [file]: what parseFromFile finds *)
Definition parseConfigJson (W : dynWorld) (file : option str) : outcome (list (str * (configMode * bool))) :=
  match parseFromFile W newConf file with
  | (false, _) => Ret defaultModes
  | (true, c) =>
      let* r := fetchAsStringArray W c (B "MUTABLE") [] in
      let m1 := if fst r then setModes (snd r) (MMutable, false) defaultModes else defaultModes in
      let* r2 := fetchAsStringArray W c (B "NESTED") [] in
      Ret (if fst r2 then setModes (snd r2) (MMutable, true) m1 else m1)
  end.

(** ConfigModule (0: UNKNOWN) and ConfigItem, meta.thrift 753-773 *)
Record configItem := mkConfigItem { ciModule : Z; ciName : str; ciMode : configMode; ciValue : value }.
(** the body of the loop of declareGflags, 106-139 *)
Definition declareOne (W : dynWorld) (modes : list (str * (configMode * bool))) (module : Z) (f : flag) : outcome (list configItem) :=
  match aget strEqb (flName f) modes with
  | None => Ret []
  | Some (_, nested) =>
      let* v := gflagsValueToValue W (if nested then B "map" else typeText (flType f)) (flText f) in
      match v with
      | VEmpty | VNull _ => Ret []
      | _ => Ret [mkConfigItem module (flName f) MMutable v]
      end
  end.
Fixpoint declareAll (W : dynWorld) modes (module : Z) (fs : list flag) : outcome (list configItem) :=
  match fs with
  | [] => Ret []
  | f :: r => let* a := declareOne W modes module f in let* b := declareAll W modes module r in Ret (a ++ b)
  end.
(** declareGflags, 97-142 *)
Definition declareGflags (W : dynWorld) (file : option str) (fs : list flag) (module : Z) : outcome (list configItem) :=
  if module =? 0 then Ret [] else
  let* modes := parseConfigJson W file in
  declareAll W modes module fs.

Section WithExternals.
Context (X : externals).
(** ValueToGflagString, 163-195: the order of the items is that of the hash map *)
Definition gflagText (v : value) : outcome str :=
  match v with
  | VBool b => Ret (if b then B "true" else B "false")
  | VInt z => Ret (decZ z)
  | VFloat x => Ret (xfmt X x)
  | VStr s => Ret s
  | VMap m => Ret (B "{" ++ joinStr (B ",") (map (fun p => B """" ++ fst p ++ B """:""" ++ vstr X (snd p) ++ B """") m) ++ B "}")
  | _ => Fatal
  end.
(** Value::typeName, Value.cpp 427-471 *)
Definition nullTypeName (n : nullType) : str :=
  match n with
  | NNull => B "__NULL__" | NNaN => B "NaN" | NBadData => B "BAD_DATA" | NBadType => B "BAD_TYPE" | NOverflow => B "ERR_OVERFLOW"
  | NUnknownProp => B "UNKNOWN_PROP" | NDivByZero => B "DIV_BY_ZERO" | NOutOfRange => B "__UNKNOWN__"
  end.
Definition typeName (v : value) : str :=
  match v with
  | VEmpty => B "__EMPTY__" | VNull n => nullTypeName n | VBool _ => B "bool" | VInt _ => B "int" | VFloat _ => B "float" | VStr _ => B "string"
  | VDate _ => B "date" | VTime _ => B "time" | VDateTime _ => B "datetime" | VVertex _ => B "vertex" | VEdge _ => B "edge" | VPath _ => B "path"
  | VList _ => B "list" | VMap _ => B "map" | VSet _ => B "set" | VDataSet _ => B "dataset"
  end.

(** ** MetaClient *)
(** one call of onSpaceOptionUpdated *)
Definition told := (Z * list (str * str))%type.
(** updateNestedGflags, MetaClient.cpp 3171-3181; [spaces]: the keys of localCache_ *)
Definition updateNestedGflags (spaces : list Z) (m : list (str * value)) : list told :=
  let options := fold_left (fun o p => aadd strEqb (fst p) (vstr X (snd p)) o) m [] in
  map (fun s => (s, options)) spaces.
(** updateGflagsValue, 3142-3168; [listener]: listener_ is set *)
Definition updateGflagsValue (G : gWorld) (W : dynWorld) (listener : bool) (spaces : list Z) (fs : list flag) (it : configItem)
  : outcome (list flag * list told) :=
  match ciMode it with
  | MMutable =>
      match flagGet fs (ciName it) with
      | None => Ret (fs, [])
      | Some f =>
          let* cur := gflagsValueToValue W (typeName (ciValue it)) (flText f) in
          if veq X cur (ciValue it) then Ret (fs, [])
          else
            let* t := gflagText (ciValue it) in
            let t := match ciValue it with VMap [] => B "{}" | _ => t end in
            let fs' := flagSet G fs (ciName it) t in
            Ret (fs', match ciValue it with VMap m => if listener then updateNestedGflags spaces m else [] | _ => [] end)
      end
  | _ => Ret (fs, [])
  end.

Definition cfgKey := (Z * str)%type.
Definition cfgKeyEqb (a b : cfgKey) : bool := (fst a =? fst b) && strEqb (snd a) (snd b).
Definition itemKey (it : configItem) : cfgKey := (ciModule it, ciName it).
(** configReady_, metaConfigMap_, the flags of the process and the calls of the listener so far *)
Record cfgState := mkCfg { csReady : bool; csCache : list (cfgKey * configItem); csFlags : list flag; csTold : list told }.
(** the loop 3123-3131 over the answer *)
Fixpoint takeItems (G : gWorld) (W : dynWorld) (listener : bool) (spaces : list Z) (es : list (cfgKey * configItem)) (s : cfgState) : outcome cfgState :=
  match es with
  | [] => Ret s
  | (k, it) :: r =>
      let same := match aget cfgKeyEqb k (csCache s) with Some old => veq X (ciValue it) (ciValue old) | None => false end in
      if same then takeItems G W listener spaces r s
      else
        let* u := updateGflagsValue G W listener spaces (csFlags s) it in
        takeItems G W listener spaces r (mkCfg (csReady s) (aset cfgKeyEqb k it (csCache s)) (fst u) (csTold s ++ snd u))
  end.
(** 3115-3119: of two items with the same key the first is kept *)
Definition answerMap (items : list configItem) : list (cfgKey * configItem) :=
  fold_left (fun m it => aadd cfgKeyEqb (itemKey it) it m) items [].
(** loadCfg 3107-3139 with registerCfg 2998-3005; [reg]: regConfig succeeded; [answer]: what listConfigs answers;
    [order]: the order in which the hash map of the answer is iterated *)
Definition loadCfg (G : gWorld) (W : dynWorld) (listener : bool) (spaces : list Z) (order : list (cfgKey * configItem) -> list (cfgKey * configItem))
  (reg : bool) (answer : option (list configItem)) (s : cfgState) : outcome (bool * cfgState) :=
  let s := if csReady s then s else mkCfg reg (csCache s) (csFlags s) (csTold s) in
  if csReady s then
    match answer with
    | Some items => let* s' := takeItems G W listener spaces (order (answerMap items)) s in Ret (true, s')
    | None => Ret (false, s)
    end
  else Ret (false, s).
End WithExternals.
