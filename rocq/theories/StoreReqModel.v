(** The requests that the storage clients make: clients/storage/GraphStorageClient.cpp, GeneralStorageClient.cpp, and
    clusterIdsToHosts of StorageClientBase.inl with callbacks that change the items (LeaderModel has it for callbacks that do not).
    Not modelled: the fields of a request that are copied from the arguments alike into every request (one value, [spec]); sending (RespModel).
    DCHECKs are left out, as in a release build; CHECKs are [Fatal]. *)
From Coq Require Import String List.
From Verif Require Import Prelude ValueBase ValueModel HashModel AssocModel LeaderModel.
Import ListNotations.
Local Open Scope Z_scope.
Local Open Scope list_scope.

(** the types of vertex ids that getSpaceVidType lets pass, MetaClient.cpp 1968-1986 *)
Inductive vidType := TInt64 | TFixedString.
(** EdgeKey, NewVertex, NewEdge and DelTags, storage.thrift 303-322 and 373-376 *)
Record edgeKey := mkEK { ekSrc : value; ekType : Z; ekRank : Z; ekDst : value }.
Record newVertex := mkNV { nvId : value; nvTags : list (Z * list value) }.
Record newEdge := mkNE { neKey : edgeKey; neProps : list value }.
Record delTags := mkDT { dtId : value; dtTags : list Z }.

(** the eight bytes of an int64 on a little-endian machine *)
Definition le8 (z : Z) : str := map (fun i => (u64 z / 2 ^ (8 * i)) mod 256) [0; 1; 2; 3; 4; 5; 6; 7].
(** Value(std::string(reinterpret_cast<const char*>(&v.getInt()), 8)) *)
Definition packed (v : value) : outcome value := match v with VInt z => Ret (VStr (le8 z)) | _ => Fatal end.
(** Value::getStr, Value.cpp 714-717 *)
Definition textOf (v : value) : outcome str := match v with VStr s => Ret s | _ => Fatal end.
(** values[i] of a row: no check *)
Definition at_ (r : list value) (i : nat) : outcome value := match nth_error r i with Some v => Ret v | None => UB end.
Fixpoint put_ (r : list value) (i : nat) (v : value) : list value :=
  match r, i with [], _ => [] | _ :: r', O => v :: r' | x :: r', S i' => x :: put_ r' i' v end.

(** The callbacks: what becomes of the item, and the reference to the vertex id that is returned.
    getIdFromValue, GraphStorageClient.cpp 717-742 *)
Definition takeValue (t : vidType) (v : value) : outcome (value * str) :=
  match t with
  | TInt64 => let* v' := packed v in let* s := textOf v' in Ret (v', s)
  | TFixedString => let* s := textOf v in Ret (v, s)
  end.
(** getIdFromRow, 576-618; [edge]: isEdgeProps *)
Definition takeRow (edge : bool) (t : vidType) (r : list value) : outcome (list value * str) :=
  match t with
  | TInt64 =>
      let* v := at_ r 0 in
      let* v' := packed v in
      let r1 := put_ r 0 v' in
      let* r2 := (if edge then let* d := at_ r1 3 in let* d' := packed d in Ret (put_ r1 3 d') else Ret r1) in
      let* x := at_ r2 0 in let* s := textOf x in Ret (r2, s)
  | TFixedString => let* v := at_ r 0 in let* s := textOf v in Ret (r, s)
  end.
(** getIdFromNewVertex, 621-646 *)
Definition takeVertex (t : vidType) (v : newVertex) : outcome (newVertex * str) :=
  let* (i, s) := takeValue t (nvId v) in Ret (mkNV i (nvTags v), s).
(** getIdFromEdgeKey, 685-715 *)
Definition takeKey (t : vidType) (k : edgeKey) : outcome (edgeKey * str) :=
  match t with
  | TInt64 =>
      let* a := packed (ekSrc k) in
      let* b := packed (ekDst k) in
      let* s := textOf a in Ret (mkEK a (ekType k) (ekRank k) b, s)
  | TFixedString => let* s := textOf (ekSrc k) in Ret (k, s)
  end.
(** getIdFromNewEdge, 649-682 *)
Definition takeEdge (t : vidType) (e : newEdge) : outcome (newEdge * str) :=
  let* (k, s) := takeKey t (neKey e) in Ret (mkNE k (neProps e), s).
(** getIdFromDelTags, 745-770 *)
Definition takeTags (t : vidType) (d : delTags) : outcome (delTags * str) :=
  let* (i, s) := takeValue t (dtId d) in Ret (mkDT i (dtTags d), s).

(** The items and their callbacks: rows (getNeighbors, getProps), vertices (addVertices), edges (addEdges), keys of edges (deleteEdges, updateEdge),
    values (deleteVertices, updateVertex), tags to delete (deleteTags); keys (get, remove) and pairs (put) of GeneralStorageClient.cpp 14-113 *)
Inductive kind : Type -> Type :=
| KRow (edge : bool) : kind (list value)
| KVertex : kind newVertex
| KEdge : kind newEdge
| KKey : kind edgeKey
| KValue : kind value
| KTags : kind delTags
| KText : kind str
| KPair : kind (str * str).
Definition take {A} (k : kind A) (t : vidType) : A -> outcome (A * str) :=
  match k in kind A return A -> outcome (A * str) with
  | KRow edge => takeRow edge t
  | KVertex => takeVertex t
  | KEdge => takeEdge t
  | KKey => takeKey t
  | KValue => takeValue t
  | KTags => takeTags t
  | KText => fun s => Ret (s, s)
  | KPair => fun p => Ret (p, fst p)
  end.
(** GeneralStorageClient does not ask for the type of ids *)
Definition asksType {A} (k : kind A) : bool := match k with KText | KPair => false | _ => true end.

(** the loop of clusterIdsToHosts, StorageClientBase.inl 328-340; the container is changed by the callback, and so is what the caller sees of it
    where the container is the caller's (getNeighbors, getProps) *)
Fixpoint spread {A} (k : kind A) (t : vidType) (n : Z) (leaders : list (Z * host)) (items : list A) (cl : list (host * list (Z * list A)))
  : outcome (list A * list (host * list (Z * list A))) :=
  match items with
  | [] => Ret ([], cl)
  | a :: r =>
      let* (a', s) := take k t a in
      let* part := partId n s in
      let h := match aget Z.eqb part leaders with Some h => h | None => noHost end in
      let* (r', cl') := spread k t n leaders r (addTo h part a' cl) in
      Ret (a' :: r', cl')
  end.

(** a request: space_id, parts and the rest *)
Record request (A S : Type) := mkRequest { rqSpace : Z; rqParts : list (Z * list A); rqSpec : S }.
Arguments mkRequest {A S}. Arguments rqSpace {A S}. Arguments rqParts {A S}. Arguments rqSpec {A S}.
(** what a call ends with: the requests by host (None: a future with an error), the items afterwards and the leader cache *)
Record sent (A S : Type) := mkSent { seRequests : option (list (host * request A S)); seItems : list A; seLeaders : leaderInfo }.
Arguments mkSent {A S}. Arguments seRequests {A S}. Arguments seItems {A S}. Arguments seLeaders {A S}.

Section Calls.
(** the cache of MetaClient: parts, and the type of ids by space (None: a type that is refused) *)
Context (cache : allocCache) (vidTypes : Z -> option vidType) (ready : bool).
(** getSpaceVidType, MetaClient.cpp 1968-1986 *)
Definition spaceVidType (space : Z) : option vidType :=
  if ready then match aget Z.eqb space cache with Some _ => vidTypes space | None => None end else None.
(** getNeighbors, addVertices, addEdges, getProps, deleteEdges, deleteVertices, deleteTags, GraphStorageClient.cpp 13-325, and get, put, remove of
    GeneralStorageClient.cpp: the same but for the item and the rest of the request *)
Definition storageCall {A S} (k : kind A) (li : leaderInfo) (space : Z) (items : list A) (spec : S) : outcome (sent A S) :=
  match (if asksType k then spaceVidType space else Some TFixedString) with
  | None => Ret (mkSent None items li)
  | Some t =>
      match partsNum cache space with
      | None => Ret (mkSent None items li)
      | Some n =>
          let* (ls, li') := partLeaders cache ready space 1 (Z.to_nat n) li [] in
          match ls with
          | None => Ret (mkSent None items li')
          | Some leaders =>
              let* (items', cl) := spread k t n leaders items [] in
              Ret (mkSent (Some (map (fun c => (fst c, mkRequest space (snd c) spec)) cl)) items' li')
          end
      end
  end.
(** updateVertex 326-378 (KValue), updateEdge 381-431 (KKey), getUUID 434-469 (KText): the host, the part and the item of the one request *)
Definition singleCall {A} (k : kind A) (li : leaderInfo) (space : Z) (a : A) : outcome (option (host * Z * A) * leaderInfo) :=
  match (if asksType k then spaceVidType space else Some TFixedString) with
  | None => Ret (None, li)
  | Some t =>
      match partsNum cache space with
      | None => Ret (None, li)
      | Some n =>
          let* (a', s) := take k t a in
          let* part := partId n s in
          let* (h, li') := getLeader cache ready li (space, part) in
          Ret (match h with Some h => Some (h, part, a') | None => None end, li')
      end
  end.
(** scanEdge 538-555, scanVertex 557-574: the host *)
Definition scanCall (li : leaderInfo) (space part : Z) : outcome (option host * leaderInfo) := getLeader cache ready li (space, part).
(** lookupIndex 471-506, lookupAndTraverse 509-535: the parts of each host *)
Definition lookupCall {S} (li : leaderInfo) (space : Z) (spec : S) : outcome (option (list (host * (Z * list Z * S))) * leaderInfo) :=
  let* (hp, li') := getHostParts cache ready li space in
  Ret (match hp with Some cl => Some (map (fun c => (fst c, (space, snd c, spec))) cl) | None => None end, li').
End Calls.
