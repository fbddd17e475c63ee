(** The cached full-text indexes: /repo/src/common/clients/meta/MetaClient.cpp:493-517 and 3538-3654, MetaClient.h:766-768,
    meta/ServerBasedSchemaManager.cpp getFTClients and getFTIndex. *)
From Verif Require Import Prelude ValueBase AssocModel.

(** union SchemaID, interface/meta.thrift:159-162; a default-constructed one has no member *)
Inductive schemaId := SNone | STag (id : Z) | SEdge (id : Z).
(** struct FTIndex, meta.thrift:1043-1047 *)
Record ftIndex := mkFt { ftSpace : Z; ftSchema : schemaId; ftFields : list str }.
Definition ftDefault : ftIndex := mkFt 0 SNone [].
Definition ftMap := list (str * ftIndex).

(** The part of the client that is used: ready_, fulltextIndexMap_, fulltextClientList_ (a client by the name of its host) *)
Record ftCache := mkFtc { fcReady : bool; fcMap : ftMap; fcClients : list str }.
Definition fresh : ftCache := mkFtc false [] [].

(** What a lookup answers *)
Inductive ftAnswer :=
  | ANotReady
  | ANotFound
  | ANoClients
  | AIndexes (l : ftMap)
  | AIndex (x : ftIndex)
  | ANamed (n : str) (x : ftIndex)
  | AClients (l : list str).

(** The iteration order of the map: any function that permutes the entries *)
Section Order.
Variable order : ftMap -> ftMap.

(** getFTIndexesFromCache, 3602-3609 *)
Definition allIndexes (c : ftCache) : ftAnswer := if fcReady c then AIndexes (fcMap c) else ANotReady.
(** getFTIndexBySpaceFromCache, 3611-3624 *)
Definition indexesBySpace (c : ftCache) (space : Z) : ftAnswer :=
  if fcReady c then AIndexes (fold_left (fun m e => if ftSpace (snd e) =? space then aset strEqb (fst e) (snd e) m else m) (order (fcMap c)) [])
  else ANotReady.
(** getFTIndexBySpaceSchemaFromCache, 3626-3641. get_tag_id of a union that holds nothing reads a member that was never written
    (or throws, depending on the version of thrift): UB *)
Fixpoint bySchemaLoop (l : ftMap) (space schema : Z) : outcome ftAnswer :=
  match l with
  | [] => Ret ANotFound
  | (n, x) :: r =>
      let* id := match ftSchema x with SEdge id => Ret id | STag id => Ret id | SNone => UB end in
      if (ftSpace x =? space) && (id =? schema) then Ret (ANamed n x) else bySchemaLoop r space schema
  end.
Definition indexBySchema (c : ftCache) (space schema : Z) : outcome ftAnswer :=
  if fcReady c then bySchemaLoop (order (fcMap c)) space schema else Ret ANotReady.
(** getFTIndexByNameFromCache, 3643-3654: the last operator[] inserts a default-constructed index for a missing name,
    under the lock of readers *)
Definition indexByName (c : ftCache) (space : Z) (name : str) : ftAnswer * ftCache :=
  if fcReady c then
    match aget strEqb name (fcMap c) with
    | Some x => if negb (ftSpace x =? space) then (ANotFound, c) else (AIndex x, c)
    | None => (AIndex ftDefault, mkFtc (fcReady c) (aset strEqb name ftDefault (fcMap c)) (fcClients c))
    end
  else (ANotReady, c).
(** getFTClientsFromCache, 3538-3546, and ServerBasedSchemaManager::getFTClients *)
Definition ftClients (c : ftCache) : ftAnswer := if fcReady c then AClients (fcClients c) else ANotReady.
Definition schemaManClients (c : ftCache) : ftAnswer :=
  match ftClients c with AClients [] => ANoClients | a => a end.

(** One call, or a load (loadFulltextClients, loadFulltextIndexes, 493-517; the rest of the load is C89's) *)
Inductive ftCall :=
  | CLoad (m : ftMap) (clients : list str)
  | CAll
  | CSpace (space : Z)
  | CSchema (space schema : Z)
  | CName (space : Z) (name : str)
  | CClients.
Definition fstep (c : ftCache) (k : ftCall) : outcome (option ftAnswer * ftCache) :=
  match k with
  | CLoad m cl => Ret (None, mkFtc true m cl)
  | CAll => Ret (Some (allIndexes c), c)
  | CSpace s => Ret (Some (indexesBySpace c s), c)
  | CSchema s i => let* a := indexBySchema c s i in Ret (Some a, c)
  | CName s n => let (a, c') := indexByName c s n in Ret (Some a, c')
  | CClients => Ret (Some (schemaManClients c), c)
  end.
Fixpoint frun (c : ftCache) (ks : list ftCall) : outcome ftCache :=
  match ks with
  | [] => Ret c
  | k :: r => let* (_, c') := fstep c k in frun c' r
  end.
End Order.
