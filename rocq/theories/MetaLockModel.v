(** The locks of the meta client: which of them each function of clients/meta/MetaClient.cpp and MetaClient.h takes, in which order, and which members it
    reads and writes under them. A function is the list of what it does with locks and shared members, in order; what it computes is in the other models. Every step
    is atomic, also an access to a member: whether two of them meet is a question about the states.
    folly::RWSpinLock (not in the repository) is taken for writing if nobody holds it, and for reading if nobody holds it for writing; who waits for writing does not
    keep readers out, so a thread may take it for reading twice. *)
From Coq Require Import List.
From Verif Require Import Prelude Trans.
Import ListNotations.

(** localCacheLock_, leadersLock_, hostLock_, listenerLock_, configCacheLock_, leaderIdsLock_; MetaClient.h 732-781 *)
Inductive lock := LCache | LLeaders | LHost | LListener | LConfig | LLeaderIds.
(** what they protect: localCache_ and the maps beside it (spaces, schemas, users, full-text indexes, storageHosts_); leadersInfo_; active_ and leader_; listener_;
    metaConfigMap_; leaderIds_. And tagNameIndexMap_ with edgeNameIndexMap_, which have no lock. *)
Inductive var := VCache | VLeaders | VHost | VListener | VConfig | VLeaderIds | VIndexNames.
Inductive mode := Rd | Wr.
Definition lock_eqb (a b : lock) : bool :=
  match a, b with LCache, LCache | LLeaders, LLeaders | LHost, LHost | LListener, LListener | LConfig, LConfig | LLeaderIds, LLeaderIds => true | _, _ => false end.
Definition isWr (m : mode) : bool := match m with Wr => true | Rd => false end.
(** [Wait]: get() of a future that an answer of the meta server fulfils *)
Inductive ev := Acq (l : lock) (m : mode) | Rel (l : lock) | Acc (v : var) (m : mode) | Wait.
(** { ReadHolder holder(lock); ... } and { WriteHolder holder(lock); ... } *)
Definition scope (l : lock) (m : mode) (body : list ev) : list ev := Acq l m :: body ++ [Rel l].

(** * Functions that any thread calls *)
Inductive call :=
| Lookup       (* get...FromCache, check...FromCache, getListener..., getStorageHosts, getFT...: one ReadHolder on localCacheLock_ *)
| LookupByName (* getTagIndexByNameFromCache, getEdgeIndexByNameFromCache, 2155-2190 *)
| StorageLeader (* getStorageLeaderFromCache, 2320-2348, on the longest way through it *)
| SetLeader    (* updateStorageLeader, invalidStorageLeader, 2350-2363 *)
| LeaderInfos  (* getLeaderInfo, 2365-2371 *)
| Send         (* getResponse up to sending, 571-579 *)
| Elsewhere    (* its answer: updateLeader, updateActive, MetaClient.h 681-693 *)
| Download     (* download, ingest, 3761-3800: leader_ is read without the lock *)
| Register     (* registerListener, unRegisterListener, MetaClient.h 192-201 *).
Definition lookup : list ev := scope LCache Rd [Acc VCache Rd].
Definition callEvents (c : call) : list ev :=
  match c with
  | Lookup => lookup
  | LookupByName => Acc VIndexNames Rd :: lookup
  | StorageLeader => scope LLeaders Rd [Acc VLeaders Rd] ++ lookup ++ scope LLeaders Wr [Acc VLeaders Wr]
  | SetLeader => scope LLeaders Wr [Acc VLeaders Wr]
  | LeaderInfos => scope LLeaders Rd [Acc VLeaders Rd]
  | Send => scope LHost Rd [Acc VHost Rd]
  | Elsewhere => scope LHost Wr [Acc VHost Wr]
  | Download => [Acc VHost Rd]
  | Register => scope LListener Wr [Acc VListener Wr]
  end.
Definition callsEvents (l : list call) : list ev := flat_map callEvents l.

(** * The background thread *)
(** A listener is called back: it may call the client in turn. *)
Definition callback := list call.
(** a request and its answer: f(...).get() *)
Definition ask : list ev := callEvents Send ++ [Wait].
(** heartbeat, 2466-2523, then get(): listener_ is read without its lock, leaderIds_ compared without its own. [cb]: fetchLeaderInfo of the listener, if there is one *)
Definition heartbeatEvents (cb : option callback) : list ev :=
  Acc VListener Rd ::
  match cb with Some c => callsEvents c ++ [Acc VLeaderIds Rd] ++ scope LLeaderIds Wr [Acc VLeaderIds Wr] | None => [] end ++ ask.
(** loadUsersAndRoles with [users] users, loadFulltextClients, loadFulltextIndexes, 144-168, 493-517. A load is the list of its parts, after each of which it may end
    because of an answer. *)
Definition loadUsers (users : nat) : list (list ev) := ask :: repeat ask users ++ [scope LCache Wr [Acc VCache Wr]].
Definition loadFt : list (list ev) := [ask; scope LCache Wr [Acc VCache Wr]].
(** one round for a space, 201-262: parts, tags, edges, tag and edge indexes, listeners, properties; loadIndexes writes the maps of names, 458, 469 *)
Definition loadSpace : list (list ev) := [ask; ask; ask; ask; ask; [Acc VIndexNames Wr; Acc VIndexNames Wr]; ask; ask].
(** loadLeader for [parts] parts led by somebody, 3189-3227; spaceIndexByName_ is handed to it without the lock, 276 *)
Definition loadLeaderEvents (parts : nat) : list ev := Acc VCache Rd :: concat (repeat lookup parts) ++ scope LLeaders Wr [Acc VLeaders Wr].
(** diff and listenerDiff, 840-1006: localCache_ is handed to them without the lock, 293-294; [cbs]: the callbacks *)
Definition diffEvents (cbs : option (list callback)) : list ev :=
  scope LListener Wr (Acc VListener Rd :: match cbs with Some l => Acc VCache Rd :: flat_map callsEvents l | None => [] end).
(** loadRemoteListeners, 1008-1030: per part a lookup and a callback *)
Definition remoteEvents (cbs : option (list callback)) : list ev :=
  scope LListener Wr (Acc VListener Rd :: match cbs with Some l => lookup ++ flat_map (fun c => lookup ++ callsEvents c) l | None => [] end).
(** loadData, 170-299, up to its [k]-th part *)
Definition loadDataEvents (k users spaces parts : nat) (d1 d2 d3 : option (list callback)) : list ev :=
  concat (firstn k (loadUsers users ++ loadFt ++ loadFt ++ [ask] ++ concat (repeat loadSpace spaces) ++ [ask] ++
    [loadLeaderEvents parts; scope LCache Wr [Acc VCache Wr]; diffEvents d1; diffEvents d2; remoteEvents d3])).
(** loadCfg, 3107-3139, with updateGflagsValue and updateNestedGflags, 3142-3181, per changed item: if it is nested, listener_ is read without its lock, and called for
    every space under the lock of the cache *)
Definition cfgItem (nested : option (list callback)) : list ev :=
  Acc VConfig Rd :: match nested with Some l => Acc VListener Rd :: scope LCache Rd (Acc VCache Rd :: flat_map callsEvents l) | None => [] end ++ [Acc VConfig Wr].
Definition loadCfgEvents (k : nat) (items : list (option (list callback))) : list ev := concat (firstn k [ask; ask; scope LConfig Wr (flat_map cfgItem items)]).
(** what the background thread does: heartBeatThreadFunc, 118-141, and loadData for refreshCache, 3183-3186 *)
Inductive job :=
| Heartbeat (cb : option callback)
| LoadData (k users spaces parts : nat) (d1 d2 d3 : option (list callback))
| LoadCfg (k : nat) (items : list (option (list callback))).
Definition jobEvents (j : job) : list ev :=
  match j with Heartbeat cb => heartbeatEvents cb | LoadData k u s p d1 d2 d3 => loadDataEvents k u s p d1 d2 d3 | LoadCfg k i => loadCfgEvents k i end.

(** * Threads *)
(** what a thread holds, and what it will do *)
Record thr := mkThr { held : list (lock * mode); todo : list ev }.
Definition sys := list thr.
Definition holds (l : lock) (wanted : mode) (h : list (lock * mode)) : bool := existsb (fun p => lock_eqb (fst p) l && (isWr (snd p) || isWr wanted)) h.
(** nobody holds the lock in a way that keeps the wanted one out; a thread keeps itself out as well *)
Definition free (s : sys) (l : lock) (wanted : mode) : bool := forallb (fun t => negb (holds l wanted (held t))) s.
Fixpoint release (l : lock) (h : list (lock * mode)) : list (lock * mode) :=
  match h with [] => [] | p :: h' => if lock_eqb (fst p) l then h' else p :: release l h' end.
Inductive step (s : sys) : sys -> Prop :=
| step_acq i h l m r : nth_error s i = Some (mkThr h (Acq l m :: r)) -> free s l m = true -> step s (supd i (mkThr ((l, m) :: h) r) s)
| step_rel i h l r : nth_error s i = Some (mkThr h (Rel l :: r)) -> step s (supd i (mkThr (release l h) r) s)
| step_acc i h v m r : nth_error s i = Some (mkThr h (Acc v m :: r)) -> step s (supd i (mkThr h r) s)
| step_wait i h r : nth_error s i = Some (mkThr h (Wait :: r)) -> step s (supd i (mkThr h r) s).
Definition caller (l : list call) : thr := mkThr [] (callsEvents l).
Definition background (l : list job) : thr := mkThr [] (flat_map jobEvents l).
(** one background thread and any number of others *)
Definition system (js : list job) (cs : list (list call)) : sys := background js :: map caller cs.
