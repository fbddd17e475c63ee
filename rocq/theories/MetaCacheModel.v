(** Model of the metadata cache of MetaClient as a whole (clients/meta/MetaClient.cpp): loading it (loadData,
    170-299, with loadUsersAndRoles, loadIndexes, loadListeners and loadRemoteListeners), the lookups in it, and
    the heartbeat that decides when it is loaded again (isMetadReady, 62-79, heartBeatThreadFunc, 118-141).
    Loading the schemas of a space is SchemaModel's loadSchemas, loading leaders LeaderModel's loadLeader, and the
    notifications are DiffModel's.
    One thread runs at a time: what a reader sees between two writes of one load, and readers of
    tagNameIndexMap_ and edgeNameIndexMap_, which no lock protects, are not modelled. *)
From Coq Require Import String List.
From Verif Require Import Prelude Trans ValueBase AssocModel LeaderModel DiffModel SchemaModel.
Import ListNotations.
Open Scope Z_scope.

(** cpp2::RoleItem without the user id: space and role type *)
Definition role : Type := Z * Z.
(** cpp2::IndexItem: id, name, and the tag or edge it is on; the fields are left out *)
Record idxItem := mkIdx { ixId : Z; ixName : str; ixSchema : Z }.
(** cpp2::SpaceDesc: name, number of partitions and replicas; the other properties are left out *)
Record sdesc := mkSD { sdName : str; sdParts : Z; sdReplica : Z }.

(** What the meta server answers to the requests of one load; [None] is an error status. One answer per request:
    the requests of a load are pairwise different as long as no space or user is listed twice. *)
Record answers := mkAns {
  anUsers : option (list (str * str));                              (* listUsers: account, encoded password *)
  anRoles : str -> option (list role);                              (* getUserRoles *)
  anFtClients : option (list host);                                 (* listFTClients *)
  anFtIndexes : option (list (str * Z));                            (* listFTIndexes: name, schema *)
  anSpaces : option (list (Z * str));                               (* listSpaces *)
  anParts : Z -> option (list (Z * list host) * list (Z * Z));      (* getPartsAlloc: replicas, terms *)
  anTags : Z -> option (list item);                                 (* listTagSchemas *)
  anEdges : Z -> option (list item);                                (* listEdgeSchemas *)
  anTagIdx : Z -> option (list idxItem);                            (* listTagIndexes *)
  anEdgeIdx : Z -> option (list idxItem);                           (* listEdgeIndexes *)
  anListeners : Z -> option (list (host * (Z * Z)));                (* listListener: host, part, type *)
  anSpace : str -> option sdesc;                                    (* getSpace *)
  anHosts : option (list hostItem) }.                               (* listHosts *)

(** SpaceInfoCache, MetaClient.h:60-72; the schemas are kept beside, in [schemaCache] *)
Record entry := mkEntry {
  enInfo : spaceInfo; enTerms : list (Z * Z); enTagIdx : list (Z * idxItem); enEdgeIdx : list (Z * idxItem); enDesc : sdesc }.

(** The members of MetaClient read and written here, MetaClient.h:700-790 *)
Record client := mkCl {
  clReady : bool;                              (* ready_ *)
  clLocalTime : Z; clMetaTime : Z;             (* localLastUpdateTime_, metadLastUpdateTime_ *)
  clRoles : list (str * list role);            (* userRolesMap_ *)
  clPwds : list (str * str);                   (* userPasswordMap_ *)
  clFtClients : list host; clFtIndexes : list (str * Z);
  clCache : list (Z * entry);                  (* localCache_ *)
  clNames : list (str * Z);                    (* spaceIndexByName_ *)
  clSchemas : schemaCache;
  clTagIdxNames : list ((Z * str) * Z);        (* tagNameIndexMap_ *)
  clEdgeIdxNames : list ((Z * str) * Z);       (* edgeNameIndexMap_ *)
  clLeaders : leaderInfo;                      (* leadersInfo_ *)
  clHosts : list host }.                       (* storageHosts_ *)
Definition freshClient : client := mkCl false 0 0 [] [] [] [] [] [] emptySchemaCache [] [] (mkLI [] []) [].

(** loadUsersAndRoles, 144-167: the maps built for the listed users *)
Fixpoint loadUsers (roles : str -> option (list role)) (us : list (str * str)) (rs : list (str * list role)) (ps : list (str * str))
  : option (list (str * list role) * list (str * str)) :=
  match us with
  | [] => Some (rs, ps)
  | (u, p) :: us' => match roles u with
                     | None => None
                     | Some r => loadUsers roles us' (aset strEqb u r rs) (aset strEqb u p ps)
                     end
  end.

(** loadIndexes, 436-475: names into the member map, items into the map of the space *)
Definition addIdxName (space : Z) (m : list ((Z * str) * Z)) (it : idxItem) : list ((Z * str) * Z) :=
  aset skeyEqb (space, ixName it) (ixId it) m.
Definition addIdx (m : list (Z * idxItem)) (it : idxItem) : list (Z * idxItem) := aadd Z.eqb (ixId it) it m.
(** loadListeners, 477-490: listeners[host].emplace_back(part, type) *)
Definition addListenerOf (m : list (host * list (Z * Z))) (l : host * (Z * Z)) : list (host * list (Z * Z)) :=
  aset hostEqb (fst l) (match aget hostEqb (fst l) m with Some x => x | None => [] end ++ [snd l]) m.

(** The variables filled by the loop over the spaces, 197-205, and the two member maps loadIndexes writes to *)
Record loadSt := mkLS {
  lsCache : list (Z * entry); lsNames : list (str * Z); lsSchemas : schemaCache;
  lsTagIdxNames : list ((Z * str) * Z); lsEdgeIdxNames : list ((Z * str) * Z) }.

(** One round of the loop, 207-261; [false] is the early return *)
Definition loadSpace (a : answers) (st : loadSt) (space : Z * str) : outcome (loadSt * bool) :=
  let s := fst space in
  match anParts a s with
  | None => Ret (st, false)
  | Some (alloc, terms) =>
    match anTags a s, anEdges a s with
    | Some ts, Some es =>
        let* sc := loadSchemas (lsSchemas st) s ts es in
        match anTagIdx a s, anEdgeIdx a s with
        | Some ti, Some ei =>
            let tn := fold_left (addIdxName s) ti (lsTagIdxNames st) in
            let en := fold_left (addIdxName s) ei (lsEdgeIdxNames st) in
            match anListeners a s with
            | None => Ret (mkLS (lsCache st) (lsNames st) sc tn en, false)
            | Some ls =>
                match anSpace a (snd space) with
                | None => Ret (mkLS (lsCache st) (lsNames st) sc tn en, false)
                | Some d =>
                    let e := mkEntry (mkSI (reverse alloc) alloc (fold_left addListenerOf ls [])) terms
                               (fold_left addIdx ti []) (fold_left addIdx ei []) d in
                    Ret (mkLS (aadd Z.eqb s e (lsCache st)) (aadd strEqb (snd space) s (lsNames st)) sc tn en, true)
                end
            end
        | _, _ => Ret (mkLS (lsCache st) (lsNames st) sc (lsTagIdxNames st) (lsEdgeIdxNames st), false)
        end
    | _, _ => Ret (st, false)
    end
  end.
Fixpoint loadLoop (a : answers) (st : loadSt) (spaces : list (Z * str)) : outcome (loadSt * bool) :=
  match spaces with
  | [] => Ret (st, true)
  | sp :: rest => let* (st1, ok) := loadSpace a st sp in if (ok : bool) then loadLoop a st1 rest else Ret (st1, false)
  end.

(** The views of localCache_ that the leader cache and the notifications use *)
Definition infos (c : list (Z * entry)) : localCache := map (fun e => (fst e, enInfo (snd e))) c.
Definition allocs (c : list (Z * entry)) : allocCache := map (fun e => (fst e, partsAlloc (enInfo (snd e)))) c.

(** getListenerHostTypeBySpacePartType, 3083-3105, after the check of ready_; an error status when there is none *)
Definition remoteListeners (c : list (Z * entry)) (s p : Z) : option (list (host * Z)) :=
  match aget Z.eqb s c with
  | None => None
  | Some e =>
      match flat_map (fun h => map (fun l => (fst h, snd l)) (filter (fun l => fst l =? p) (snd h))) (listeners (enInfo e)) with
      | [] => None
      | l => Some l
      end
  end.

(** What the registered MetaChangedListener is told during a load *)
Record told := mkTold { tdParts : list note; tdListeners : list lnote; tdRemote : list (Z * Z * list host) }.
(** loadRemoteListeners, 1008-1029: per local part, onCheckRemoteListeners(space, part, hosts). ready_ is the
    member at that moment. *)
Definition remoteTold (ready : bool) (c : list (Z * entry)) (pm : partsMap) : list (Z * Z * list host) :=
  flat_map (fun se => map (fun pe => (fst se, fst pe,
    match (if ready then remoteListeners c (fst se) (fst pe) else None) with Some ls => map fst ls | None => [] end)) (snd se)) pm.

(** What a load ends with: the client and the value returned *)
Record loadRes := mkLd { ldClient : client; ldOk : bool; ldTold : told }.
Definition nothingTold : told := mkTold [] [] [].

Definition withUsers (c : client) (r : list (str * list role)) (p : list (str * str)) : client :=
  mkCl (clReady c) (clLocalTime c) (clMetaTime c) r p (clFtClients c) (clFtIndexes c) (clCache c) (clNames c) (clSchemas c)
       (clTagIdxNames c) (clEdgeIdxNames c) (clLeaders c) (clHosts c).
Definition withFtClients (c : client) (x : list host) : client :=
  mkCl (clReady c) (clLocalTime c) (clMetaTime c) (clRoles c) (clPwds c) x (clFtIndexes c) (clCache c) (clNames c) (clSchemas c)
       (clTagIdxNames c) (clEdgeIdxNames c) (clLeaders c) (clHosts c).
Definition withFtIndexes (c : client) (x : list (str * Z)) : client :=
  mkCl (clReady c) (clLocalTime c) (clMetaTime c) (clRoles c) (clPwds c) (clFtClients c) x (clCache c) (clNames c) (clSchemas c)
       (clTagIdxNames c) (clEdgeIdxNames c) (clLeaders c) (clHosts c).
Definition withIdxNames (c : client) (t e : list ((Z * str) * Z)) : client :=
  mkCl (clReady c) (clLocalTime c) (clMetaTime c) (clRoles c) (clPwds c) (clFtClients c) (clFtIndexes c) (clCache c) (clNames c) (clSchemas c)
       t e (clLeaders c) (clHosts c).
Definition withTimes (c : client) (l m : Z) : client :=
  mkCl (clReady c) l m (clRoles c) (clPwds c) (clFtClients c) (clFtIndexes c) (clCache c) (clNames c) (clSchemas c)
       (clTagIdxNames c) (clEdgeIdxNames c) (clLeaders c) (clHosts c).
Definition notReady (c : client) : client :=
  mkCl false (clLocalTime c) (clMetaTime c) (clRoles c) (clPwds c) (clFtClients c) (clFtIndexes c) (clCache c) (clNames c) (clSchemas c)
       (clTagIdxNames c) (clEdgeIdxNames c) (clLeaders c) (clHosts c).

Section Load.
(** options_.localHost_, when a listener is registered *)
Context (local : option host).

(** The end of loadData, 263-298. [hosts] is what listHosts answered; line 264 looks at the answer of listSpaces
    again, so an error there goes on to hostsRet.value(), which is undefined (StatusOr.h:246-264: only a DCHECK).
    Leaders are loaded with the previous spaceIndexByName_ (276) and the previous localCache_ (3203). *)
Definition loadEnd (c : client) (st : loadSt) (hosts : option (list hostItem)) : outcome loadRes :=
  match hosts with
  | None => UB
  | Some items =>
      let leaders := loadLeader (allocs (clCache c)) (fun n => aget strEqb n (clNames c)) items in
      let* td := match local with
                 | None => Ret nothingTold
                 | Some h =>
                     let* d := diff h (infos (clCache c)) (infos (lsCache st)) in
                     let* pm := doGetPartsMap h (infos (lsCache st)) in
                     Ret (mkTold d (listenerDiff h (infos (clCache c)) (infos (lsCache st))) (remoteTold (clReady c) (lsCache st) pm))
                 end in
      Ret (mkLd (mkCl true (clLocalTime c) (clMetaTime c) (clRoles c) (clPwds c) (clFtClients c) (clFtIndexes c)
                   (lsCache st) (lsNames st) (lsSchemas st) (lsTagIdxNames st) (lsEdgeIdxNames st) leaders (map fst items)) true td)
  end.
(** loadData, 170-299; the thread pool is not empty *)
Definition loadData (c : client) (a : answers) : outcome loadRes :=
  match anUsers a with
  | None => Ret (mkLd c false nothingTold)
  | Some us =>
    match loadUsers (anRoles a) us [] [] with
    | None => Ret (mkLd c false nothingTold)
    | Some (rs, ps) =>
      let c1 := withUsers c rs ps in
      match anFtClients a with
      | None => Ret (mkLd c1 false nothingTold)
      | Some fc =>
        let c2 := withFtClients c1 fc in
        match anFtIndexes a with
        | None => Ret (mkLd c2 false nothingTold)
        | Some fi =>
          let c3 := withFtIndexes c2 fi in
          match anSpaces a with
          | None => Ret (mkLd c3 false nothingTold)
          | Some spaces =>
              let* (st, ok) := loadLoop a (mkLS [] [] emptySchemaCache (clTagIdxNames c3) (clEdgeIdxNames c3)) spaces in
              if (ok : bool) then loadEnd c3 st (anHosts a)
              else Ret (mkLd (withIdxNames c3 (lsTagIdxNames st) (lsEdgeIdxNames st)) false nothingTold)
          end
        end
      end
    end
  end.
Fixpoint loads (c : client) (l : list answers) : outcome client :=
  match l with [] => Ret c | a :: l' => let* r := loadData c a in loads (ldClient r) l' end.

(** * The heartbeat *)
(** heartbeat, 2467-2523, as seen by the cache: answered with the last update time, refused because the leader
    has changed, or failed *)
Inductive hbAnswer := HbTime (t : Z) | HbLeaderChanged | HbFailed.
Definition heartbeat (c : client) (h : hbAnswer) : client :=
  match h with HbTime t => withTimes c (clLocalTime c) t | _ => c end.
(** 132-139, 70-77: load the data and the configuration ([cfg]: loadCfg's answer, true with skipConfig_) *)
Definition reload (c : client) (cfg : bool) (a : answers) : outcome client :=
  let* r := loadData c a in
  Ret (if ldOk r && cfg then withTimes (ldClient r) (clMetaTime (ldClient r)) (clMetaTime (ldClient r)) else ldClient r).
(** heartBeatThreadFunc, 118-141 *)
Definition heartBeatRound (c : client) (h : hbAnswer) (cfg : bool) (a : answers) : outcome client :=
  let c1 := heartbeat c h in
  match h with
  | HbTime _ => if clLocalTime c1 <? clMetaTime c1 then reload c1 cfg a else Ret c1
  | _ => Ret c1
  end.
(** isMetadReady, 62-79; it returns ready_ *)
Definition isMetadReady (c : client) (h : hbAnswer) (cfg : bool) (a : answers) : outcome client :=
  let c1 := heartbeat c h in
  match h with HbFailed => Ret (notReady c1) | _ => reload c1 cfg a end.
End Load.

(** * Lookups; [None] is an error status *)
Section Get.
Context (c : client).
(** getSpaceIdByNameFromCache, 1200-1211 *)
Definition spaceIdByName (n : str) : option Z := if clReady c then aget strEqb n (clNames c) else None.
(** getSpaceNameByIdFromCache, 1213-1224 *)
Definition spaceNameById (s : Z) : option str :=
  if clReady c then match aget Z.eqb s (clCache c) with Some e => Some (sdName (enDesc e)) | None => None end else None.
(** getPartHostsFromCache, 1447-1466, is LeaderModel's getPartHosts on [allocs (clCache c)]; partsNum likewise *)
(** getTermFromCache, 2416-2430 *)
Definition termOf (s p : Z) : Z :=
  match aget Z.eqb s (clCache c) with
  | Some e => match aget Z.eqb p (enTerms e) with Some t => t | None => -1 end
  | None => -1
  end.
(** getRolesByUserFromCache, 2377-2388 *)
Definition rolesOf (u : str) : list role :=
  if clReady c then match aget strEqb u (clRoles c) with Some r => r | None => [] end else [].
(** authCheckFromCache, 2391-2401 *)
Definition authCheck (u p : str) : bool :=
  if clReady c then match aget strEqb u (clPwds c) with Some q => strEqb q p | None => false end else false.
(** checkShadowAccountFromCache, 2404-2414 *)
Definition shadowAccount (u : str) : bool :=
  if clReady c then match aget strEqb u (clPwds c) with Some _ => true | None => false end else false.
(** getStorageHosts, 2432-2439 *)
Definition storageHosts : option (list host) := if clReady c then Some (clHosts c) else None.
(** getTagIndexFromCache, 2193-2213; getEdgeIndexFromCache, 2233-2252 *)
Definition indexById (sel : entry -> list (Z * idxItem)) (s id : Z) : option idxItem :=
  if clReady c then match aget Z.eqb s (clCache c) with Some e => aget Z.eqb id (sel e) | None => None end else None.
Definition tagIndexById := indexById enTagIdx.
Definition edgeIndexById := indexById enEdgeIdx.
(** getTagIndexByNameFromCache, getEdgeIndexByNameFromCache, 2155-2190 *)
Definition tagIndexByName (s : Z) (n : str) : option idxItem :=
  if clReady c then match aget skeyEqb (s, n) (clTagIdxNames c) with Some id => tagIndexById s id | None => None end else None.
Definition edgeIndexByName (s : Z) (n : str) : option idxItem :=
  if clReady c then match aget skeyEqb (s, n) (clEdgeIdxNames c) with Some id => edgeIndexById s id | None => None end else None.
(** getTagIndexesFromCache, 2273-2294, getEdgeIndexesFromCache, 2296-2317 *)
Definition indexesOf (sel : entry -> list (Z * idxItem)) (s : Z) : option (list idxItem) :=
  if clReady c then match aget Z.eqb s (clCache c) with Some e => Some (map snd (sel e)) | None => None end else None.
(** checkTagIndexed, checkEdgeIndexed, 519-548, which do not look at ready_ *)
Definition indexed (sel : entry -> list (Z * idxItem)) (s id : Z) : bool :=
  match aget Z.eqb s (clCache c) with Some e => match aget Z.eqb id (sel e) with Some _ => true | None => false end | None => false end.
(** getListenersBySpaceHostFromCache, 3007-3025 *)
Definition listenersOn (s : Z) (h : host) : option (list (Z * Z)) :=
  if clReady c then match aget Z.eqb s (clCache c) with Some e => aget hostEqb h (listeners (enInfo e)) | None => None end else None.
(** getListenerHostsBySpacePartType, 3060-3081: the first host found *)
Definition listenerHost (s p ty : Z) : option host :=
  if clReady c then
    match aget Z.eqb s (clCache c) with
    | Some e => match find (fun h => existsb (fun l => (fst l =? p) && (snd l =? ty)) (snd h)) (listeners (enInfo e)) with
                | Some h => Some (fst h)
                | None => None
                end
    | None => None
    end
  else None.
End Get.
