(** Model of NebulaSchemaProvider, of the schema iterator, and of loading the schemas of a space into the
    cache of MetaClient. *)
From Coq Require Import String List.
From Verif Require Import Prelude Trans ValueBase LeaderModel AssocModel.
Import ListNotations.
Open Scope Z_scope.

(** cpp2::PropertyType, meta.thrift:64-86 *)
Inductive ptype := PUnknown | PBool | PInt64 | PVid | PFloat | PDouble | PString | PFixedString | PInt8 | PInt16 | PInt32
  | PTimestamp | PDate | PDateTime | PTime.

(** NebulaSchemaProvider::SchemaField, NebulaSchemaProvider.h:22-79. Sizes are size_t. The default value
    expression is left out: nothing here depends on it. *)
Record sfield := mkSF { sfName : str; sfType : ptype; sfNullable : bool; sfSize : Z; sfOffset : Z; sfNullPos : Z }.
(** The members of NebulaSchemaProvider, NebulaSchemaProvider.h:122-128, without the schema property *)
Record provider := mkProv { pvVer : Z; pvNames : list (str * Z); pvFields : list sfield; pvNulls : Z }.
(** The constructor, NebulaSchemaProvider.h:82-84 *)
Definition newProvider (ver : Z) : provider := mkProv ver [] [] 0.

(** fieldSize, NebulaSchemaProvider.cpp:138-186; a zero-length fixed string fails a CHECK and the unknown type
    is fatal *)
Definition fieldSize (t : ptype) (fixedStrLimit : Z) : outcome Z :=
  match t with
  | PBool => Ret 1 | PInt64 => Ret 8 | PInt32 => Ret 4 | PInt16 => Ret 2 | PInt8 => Ret 1 | PVid => Ret 8
  | PFloat => Ret 4 | PDouble => Ret 8 | PString => Ret 8
  | PFixedString => if 0 <? fixedStrLimit then Ret fixedStrLimit else Fatal
  | PTimestamp => Ret 8
  | PDate => Ret (2 + 1 + 1)
  | PTime => Ret (1 + 1 + 1 + 4)
  | PDateTime => Ret (2 + 1 + 1 + 1 + 1 + 1 + 4)
  | PUnknown => Fatal
  end.

Definition lastField (fs : list sfield) : option sfield := match rev fs with f :: _ => Some f | [] => None end.
(** size, NebulaSchemaProvider.cpp:28-35 *)
Definition provSize (p : provider) : Z :=
  match lastField (pvFields p) with Some f => u64 (sfOffset f + sfSize f) | None => 0 end.

(** addField, NebulaSchemaProvider.cpp:107-135 *)
Definition addField (p : provider) (name : str) (t : ptype) (fixedStrLen : Z) (nullable : bool) : outcome provider :=
  let* size := fieldSize t fixedStrLen in
  let offset := match lastField (pvFields p) with Some f => u64 (sfOffset f + sfSize f) | None => 0 end in
  let nullPos := if nullable then pvNulls p else 0 in
  let nulls := if nullable then u64 (pvNulls p + 1) else pvNulls p in
  let fields := pvFields p ++ [mkSF name t nullable size offset nullPos] in
  Ret (mkProv (pvVer p) (aadd strEqb name (Z.of_nat (List.length fields) - 1) (pvNames p)) fields nulls).

(** getFieldIndex, 38-46 *)
Definition getFieldIndex (p : provider) (name : str) : Z :=
  match aget strEqb name (pvNames p) with Some i => i | None => -1 end.
(** field(index), 81-92; [None] is the null pointer *)
Definition fieldAt (p : provider) (i : Z) : option sfield :=
  if (i <? 0) || (Z.of_nat (List.length (pvFields p)) <=? i) then None else nth_error (pvFields p) (Z.to_nat i).
(** field(name), 95-104; indexing outside the vector would be undefined *)
Definition fieldNamed (p : provider) (name : str) : outcome (option sfield) :=
  match aget strEqb name (pvNames p) with
  | None => Ret None
  | Some i => if i <? 0 then UB else match nth_error (pvFields p) (Z.to_nat i) with Some f => Ret (Some f) | None => UB end
  end.
(** A C string ends at the first NUL byte. *)
Fixpoint cstr (s : str) : str := match s with [] => [] | c :: s' => if c =? 0 then [] else c :: cstr s' end.
(** getFieldName, 49-56; the caller sees the name as a C string *)
Definition getFieldName (p : provider) (i : Z) : option str :=
  match fieldAt p i with Some f => Some (cstr (sfName f)) | None => None end.
(** getFieldType(index) and (name), 59-78 *)
Definition fieldTypeAt (p : provider) (i : Z) : ptype := match fieldAt p i with Some f => sfType f | None => PUnknown end.
Definition fieldTypeNamed (p : provider) (name : str) : outcome ptype :=
  match aget strEqb name (pvNames p) with
  | None => Ret PUnknown
  | Some i => if i <? 0 then UB else match nth_error (pvFields p) (Z.to_nat i) with Some f => Ret (sfType f) | None => UB end
  end.

(** SchemaProviderIf::Iterator, SchemaProviderIf.h:47-98: an index and the field there; all iterators compared
    belong to the same schema *)
Record siter := mkIt { itIndex : Z; itField : option sfield }.
Definition itAt (p : provider) (i : Z) : siter := mkIt i (fieldAt p i).
Definition itBegin (p : provider) : siter := itAt p 0.
Definition itEnd (p : provider) : siter := itAt p (Z.of_nat (List.length (pvFields p))).
Definition itNext (p : provider) (it : siter) : siter :=
  match itField it with Some _ => itAt p (itIndex it + 1) | None => it end.
Definition isNull {A} (o : option A) : bool := match o with Some _ => false | None => true end.
Definition itEqb (a b : siter) : bool := (itIndex a =? itIndex b) || (isNull (itField a) && isNull (itField b)).
(** [for (it = begin(); !(it == end()); ++it)], dereferencing [it]; a null dereference is undefined *)
Fixpoint itLoop (fuel : nat) (p : provider) (it : siter) : outcome (list sfield) :=
  match fuel with
  | O => Diverge
  | S n => if itEqb it (itEnd p) then Ret []
           else match itField it with
                | None => UB
                | Some f => let* rest := itLoop n p (itNext p it) in Ret (f :: rest)
                end
  end.

(** A column of a schema, cpp2::ColumnDef: name, type, the i16 type_length if set, nullable if set *)
Record column := mkCol { colName : str; colType : ptype; colLen : option Z; colNullable : option bool }.
(** addSchemaField, MetaClient.cpp:332-357: the i16 length is converted to size_t, a missing one counts as 0 and
    a missing nullable as false. The default value is left out. *)
Definition addSchemaField (p : provider) (c : column) : outcome provider :=
  addField p (colName c) (colType c) (match colLen c with Some l => u64 l | None => 0 end)
    (match colNullable c with Some b => b | None => false end).
Fixpoint addColumns (p : provider) (cs : list column) : outcome provider :=
  match cs with [] => Ret p | c :: cs' => let* p1 := addSchemaField p c in addColumns p1 cs' end.

(** TagItem and EdgeItem: id, name, version, columns *)
Record item := mkItem { itmId : Z; itmName : str; itmVer : Z; itmCols : list column }.

(** TagSchemas / EdgeSchemas: id -> vector of shared pointers indexed by version *)
Definition schemaVec : Type := list (option provider).
Definition schemas : Type := list (Z * schemaVec).
(** vector::resize to [n] entries, new ones null *)
Definition vresize (n : nat) (v : schemaVec) : schemaVec := firstn n v ++ repeat None (n - List.length v).
Definition vset (i : nat) (x : option provider) (v : schemaVec) : schemaVec := firstn i v ++ x :: skipn (S i) v.

(** One round of the first loop of loadSchemas, MetaClient.cpp:359-371 (399-408 for edges): build the schema,
    resize the vector of a new id, store the schema at its version. [last] is lastTagId. Resizing beyond
    vector::max_size throws; storing outside the vector is undefined. *)
Definition vecMax : Z := 576460752303423487.   (* 2^63 / sizeof(shared_ptr) - 1 *)
Definition storeSchema (last : Z) (m : schemas) (it : item) : outcome schemas :=
  let* p := addColumns (newProvider (itmVer it)) (itmCols it) in
  let v0 := match aget Z.eqb (itmId it) m with Some v => v | None => [] end in
  let* v := (if itmId it =? last then Ret v0
             else if itmVer it =? int64_max then UB
             else if u64 (itmVer it + 1) <=? vecMax then Ret (vresize (Z.to_nat (u64 (itmVer it + 1))) v0) else Fatal) in
  if (0 <=? itmVer it) && (itmVer it <? Z.of_nat (List.length v)) then Ret (aset Z.eqb (itmId it) (vset (Z.to_nat (itmVer it)) (Some p) v) m)
  else UB.

(** The maps filled besides: name -> id, id -> name, id -> newest version, all keyed by the space too, and the
    list of edge names per space *)
Record nameMaps := mkNM { nmIds : list ((Z * str) * Z); nmNames : list (pkey * str); nmNewest : list (pkey * Z) }.
Definition skeyEqb (a b : Z * str) : bool := (fst a =? fst b) && strEqb (snd a) (snd b).
Definition addNames (space : Z) (nm : nameMaps) (it : item) : nameMaps :=
  mkNM (aadd skeyEqb (space, itmName it) (itmId it) (nmIds nm)) (aadd pkeyEqb (space, itmId it) (itmName it) (nmNames nm)) (nmNewest nm).
(** 374-382: keep the larger version *)
Definition addNewest (space : Z) (nm : nameMaps) (it : item) : nameMaps :=
  mkNM (nmIds nm) (nmNames nm)
    (match aget pkeyEqb (space, itmId it) (nmNewest nm) with
     | Some v => if v <? itmVer it then aset pkeyEqb (space, itmId it) (itmVer it) (nmNewest nm) else nmNewest nm
     | None => aadd pkeyEqb (space, itmId it) (itmVer it) (nmNewest nm)
     end).

(** The tag loop, 359-388 *)
Fixpoint loadTags (space last : Z) (items : list item) (m : schemas) (nm : nameMaps) : outcome (schemas * nameMaps) :=
  match items with
  | [] => Ret (m, nm)
  | it :: rest => let* m1 := storeSchema last m it in loadTags space (itmId it) rest m1 (addNewest space (addNames space nm it) it)
  end.
(** The edge loop, 392-429: a type already seen in this loop is skipped before its version is looked at *)
Fixpoint loadEdges (space last : Z) (seen : list Z) (items : list item) (m : schemas) (nm : nameMaps) (all : list str)
  : outcome (schemas * nameMaps * list str) :=
  match items with
  | [] => Ret (m, nm, all)
  | it :: rest =>
      let* m1 := storeSchema last m it in
      let nm1 := addNames space nm it in
      if existsb (Z.eqb (itmId it)) seen then loadEdges space (itmId it) seen rest m1 nm1 all
      else loadEdges space (itmId it) (itmId it :: seen) rest m1 (addNewest space nm1 it) (all ++ [itmName it])
  end.

(** What the cache holds about schemas: per space the tag and edge schemas, and the maps *)
Record schemaCache := mkSC {
  scTags : list (Z * schemas); scEdges : list (Z * schemas); scTagMaps : nameMaps; scEdgeMaps : nameMaps; scAllEdges : list (Z * list str) }.
Definition noNames : nameMaps := mkNM [] [] [].
Definition emptySchemaCache : schemaCache := mkSC [] [] noNames noNames [].
(** loadSchemas, 302-434, for one space, given what listTagSchemas and listEdgeSchemas answered; lastTagId and
    lastEdgeType start as -1. loadData stores the space's entry with emplace, 259. *)
Definition loadSchemas (sc : schemaCache) (space : Z) (tags edges : list item) : outcome schemaCache :=
  let* tr := loadTags space (-1) tags [] (scTagMaps sc) in
  let* er := loadEdges space (-1) [] edges [] (scEdgeMaps sc) [] in
  Ret (mkSC (aadd Z.eqb space (fst tr) (scTags sc)) (aadd Z.eqb space (fst (fst er)) (scEdges sc)) (snd tr) (snd (fst er))
            (aset Z.eqb space (snd er) (scAllEdges sc))).
(** The loop over the spaces, 205-260, into fresh maps *)
Definition spaceSchemas : Type := Z * (list item * list item).
Fixpoint loadSpaces (sc : schemaCache) (l : list spaceSchemas) : outcome schemaCache :=
  match l with [] => Ret sc | (s, (ts, es)) :: l' => let* sc1 := loadSchemas sc s ts es in loadSpaces sc1 l' end.
Definition loadAll (l : list spaceSchemas) : outcome schemaCache := loadSpaces emptySchemaCache l.

(** getTagSchemaFromCache, 2012-2030, and getEdgeSchemaFromCache, 2033-2051, once ready; [None] is the null
    pointer *)
Definition schemaFromCache (c : list (Z * schemas)) (space id ver : Z) : option provider :=
  match aget Z.eqb space c with
  | None => None
  | Some m =>
      match aget Z.eqb id m with
      | None => None
      | Some v => if (List.length v =? 0)%nat then None
                  else if ver <? Z.of_nat (List.length v)
                       then (if ver <? 0 then last v None else nth (Z.to_nat ver) v None)
                       else None
      end
  end.
(** getLatestTagVersionFromCache, getLatestEdgeVersionFromCache, 2441-2465 *)
Definition latestVersion (nm : nameMaps) (space id : Z) : option Z := aget pkeyEqb (space, id) (nmNewest nm).
(** ServerBasedSchemaManager::getTagSchema, getEdgeSchema, ServerBasedSchemaManager.cpp:40-57, 66-84 *)
Definition managerSchema (c : list (Z * schemas)) (nm : nameMaps) (space id ver : Z) : option provider :=
  if ver <? 0 then match latestVersion nm space id with Some v => schemaFromCache c space id v | None => None end
  else schemaFromCache c space id ver.
(** getTagIDByNameFromCache, getTagNameByIdFromCache and the edge versions, 1226-1280 *)
Definition idByName (nm : nameMaps) (space : Z) (name : str) : option Z := aget skeyEqb (space, name) (nmIds nm).
Definition nameById (nm : nameMaps) (space id : Z) : option str := aget pkeyEqb (space, id) (nmNames nm).
(** getAllEdgeFromCache, 1282-1295 *)
Definition allEdges (sc : schemaCache) (space : Z) : option (list str) := aget Z.eqb space (scAllEdges sc).
