(** Model of the storage-leader cache of MetaClient and of StorageClientBase::clusterIdsToHosts. *)
From Coq Require Import String List.
From Verif Require Import Prelude Trans ValueBase ValueProofs HashModel AssocModel.
Import ListNotations.
Open Scope Z_scope.

(** HostAddr: host name and port *)
Definition host : Type := str * Z.
Definition hostEqb (a b : host) : bool := strEqb (fst a) (fst b) && (snd a =? snd b).
Definition pkey : Type := Z * Z.   (* GraphSpaceID, PartitionID *)
Definition pkeyEqb (a b : pkey) : bool := (fst a =? fst b) && (snd a =? snd b).

Lemma hostEqb_ok a b : hostEqb a b = true <-> a = b.
Proof.
  destruct a as [a1 a2], b as [b1 b2]. unfold hostEqb. cbn. rewrite andb_true_iff, strEqb_eq, Z.eqb_eq.
  split; [intros [-> ->]; reflexivity|intros H; injection H; auto].
Qed.
Lemma pkeyEqb_ok a b : pkeyEqb a b = true <-> a = b.
Proof.
  destruct a as [a1 a2], b as [b1 b2]. unfold pkeyEqb. cbn. rewrite andb_true_iff, !Z.eqb_eq.
  split; [intros [-> ->]; reflexivity|intros H; injection H; auto].
Qed.

(** localCache_: space -> SpaceInfoCache::partsAlloc_, part -> replicas (MetaClient.h, PartsAlloc) *)
Definition allocCache : Type := list (Z * list (Z * list host)).
(** LeaderInfo, MetaClient.h:92-97 *)
Record leaderInfo := mkLI { leaderMap : list (pkey * host); pickedIndex : list (pkey * Z) }.

Section L.
Context (cache : allocCache).
(** MetaClient::getPartHostsFromCache, MetaClient.cpp:1447-1466; [None] is an error status *)
Definition getPartHosts (k : pkey) : option (list host) :=
  match aget Z.eqb (fst k) cache with Some alloc => aget Z.eqb (snd k) alloc | None => None end.
(** MetaClient::partsNum, 1507-1514: a size_t converted to int32 *)
Definition partsNum (space : Z) : option Z :=
  match aget Z.eqb space cache with Some alloc => Some (wrap32 (Z.of_nat (List.length alloc))) | None => None end.

(** The second block of getStorageLeaderFromCache, 2333-2347, under the write lock. Taking % by an empty
    list's size is undefined. *)
Definition pickLeader (li : leaderInfo) (k : pkey) : outcome (option host * leaderInfo) :=
  match getPartHosts k with
  | None => Ret (None, li)
  | Some hosts =>
      let p := match aget pkeyEqb k (pickedIndex li) with Some p => p | None => 0 end in
      if (List.length hosts =? 0)%nat then UB
      else
        let index := u64 (p + 1) mod Z.of_nat (List.length hosts) in
        match nth_error hosts (Z.to_nat index) with
        | Some h => Ret (Some h, mkLI (aset pkeyEqb k h (leaderMap li)) (aset pkeyEqb k index (pickedIndex li)))
        | None => UB
        end
  end.
(** getStorageLeaderFromCache, 2320-2348, run by one thread *)
Definition getLeader (ready : bool) (li : leaderInfo) (k : pkey) : outcome (option host * leaderInfo) :=
  if negb ready then Ret (None, li)
  else match aget pkeyEqb k (leaderMap li) with
       | Some h => Ret (Some h, li)
       | None => pickLeader li k
       end.
(** updateStorageLeader, 2350-2356 *)
Definition updateLeader (li : leaderInfo) (k : pkey) (h : host) : leaderInfo :=
  mkLI (aset pkeyEqb k h (leaderMap li)) (pickedIndex li).
(** invalidStorageLeader, 2358-2363 *)
Definition invalidLeader (li : leaderInfo) (k : pkey) : leaderInfo :=
  mkLI (adel pkeyEqb k (leaderMap li)) (pickedIndex li).

(** loadLeader, 3189-3227. [items] : host and, per space name, the parts it leads; [spaceId] : the lookup in
    spaceIndexByName. *)
Definition hostItem : Type := host * list (str * list Z).
Fixpoint indexOf (h : host) (l : list host) (i : Z) : option Z :=
  match l with [] => None | x :: l' => if hostEqb x h then Some i else indexOf h l' (i + 1) end.
Definition loadPart (h : host) (space : Z) (li : leaderInfo) (part : Z) : leaderInfo :=
  let k := (space, part) in
  let i := match getPartHosts k with
           | Some peers => match indexOf h peers 0 with Some i => i | None => 0 end
           | None => 0
           end in
  mkLI (aset pkeyEqb k h (leaderMap li)) (aset pkeyEqb k i (pickedIndex li)).
Definition loadItem (spaceId : str -> option Z) (li : leaderInfo) (it : hostItem) : leaderInfo :=
  fold_left (fun li e => match spaceId (fst e) with
                         | Some s => fold_left (loadPart (fst it) s) (snd e) li
                         | None => li
                         end) (snd it) li.
Definition loadLeader (spaceId : str -> option Z) (items : list hostItem) : leaderInfo :=
  fold_left (loadItem spaceId) items (mkLI [] []).

(** Histories of calls made by one thread, on a ready client. *)
Inductive leaderOp := OGet (k : pkey) | OUpd (k : pkey) (h : host) | OInv (k : pkey).
Definition leaderStep (li : leaderInfo) (o : leaderOp) : outcome (leaderInfo * option host) :=
  match o with
  | OGet k => let* (r, li') := getLeader true li k in Ret (li', r)
  | OUpd k h => Ret (updateLeader li k h, None)
  | OInv k => Ret (invalidLeader li k, None)
  end.
Fixpoint leaderRun (li : leaderInfo) (ops : list leaderOp) : outcome (leaderInfo * list (option host)) :=
  match ops with
  | [] => Ret (li, [])
  | o :: ops' =>
      let* (li1, r) := leaderStep li o in
      let* (li2, rs) := leaderRun li1 ops' in
      Ret (li2, r :: rs)
  end.

(** * clusterIdsToHosts, StorageClientBase.inl:295-342 *)
(** The loop over the parts 1..numParts, 321-327: [count] iterations from [part] *)
Fixpoint partLeaders (ready : bool) (space part : Z) (count : nat) (li : leaderInfo) (acc : list (Z * host))
    : outcome (option (list (Z * host)) * leaderInfo) :=
  match count with
  | O => Ret (Some acc, li)
  | S c =>
      let* (h, li') := getLeader ready li (space, part) in
      match h with
      | None => Ret (None, li')
      | Some h => partLeaders ready space (part + 1) c li' (aset Z.eqb part h acc)
      end
  end.

Section C.
Context {A : Type} (vid : A -> str).
(** clusters[leader][part].emplace_back(id), 336-338 *)
Definition addTo (h : host) (part : Z) (id : A) (cl : list (host * list (Z * list A))) : list (host * list (Z * list A)) :=
  let m := match aget hostEqb h cl with Some m => m | None => [] end in
  let ids := match aget Z.eqb part m with Some ids => ids | None => [] end in
  aset hostEqb h (aset Z.eqb part (ids ++ [id]) m) cl.
(** leaders[part] creates an empty HostAddr when absent *)
Definition noHost : host := ([], 0).
(** The loop over the ids, 328-340 *)
Fixpoint clusterLoop (numParts : Z) (leaders : list (Z * host)) (ids : list A) (cl : list (host * list (Z * list A)))
    : outcome (list (host * list (Z * list A))) :=
  match ids with
  | [] => Ret cl
  | id :: ids' =>
      let* part := partId numParts (vid id) in
      let h := match aget Z.eqb part leaders with Some h => h | None => noHost end in
      clusterLoop numParts leaders ids' (addTo h part id cl)
  end.
Definition clusterIdsToHosts (ready : bool) (li : leaderInfo) (space : Z) (ids : list A)
    : outcome (option (list (host * list (Z * list A))) * leaderInfo) :=
  match partsNum space with
  | None => Ret (None, li)
  | Some n =>
      let* (ls, li') := partLeaders ready space 1 (Z.to_nat n) li [] in
      match ls with
      | None => Ret (None, li')
      | Some leaders => let* cl := clusterLoop n leaders ids [] in Ret (Some cl, li')
      end
  end.
End C.

(** getHostParts, 344-363: the parts 1..n by leader *)
Fixpoint hostPartsLoop (ready : bool) (space part : Z) (count : nat) (li : leaderInfo) (acc : list (host * list Z))
    : outcome (option (list (host * list Z)) * leaderInfo) :=
  match count with
  | O => Ret (Some acc, li)
  | S c =>
      let* (h, li') := getLeader ready li (space, part) in
      match h with
      | None => Ret (None, li')
      | Some h =>
          let ps := match aget hostEqb h acc with Some ps => ps | None => [] end in
          hostPartsLoop ready space (part + 1) c li' (aset hostEqb h (ps ++ [part]) acc)
      end
  end.
Definition getHostParts (ready : bool) (li : leaderInfo) (space : Z) : outcome (option (list (host * list Z)) * leaderInfo) :=
  match partsNum space with
  | None => Ret (None, li)
  | Some n => hostPartsLoop ready space 1 (Z.to_nat n) li []
  end.
End L.
