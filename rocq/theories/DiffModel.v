(** Model of the change notifications of MetaClient: reverse (clients/meta/MetaClient.cpp:550-559), doGetPartsMap
    (818-837), diff (840-902), doGetListenersMap (3035-3058) and listenerDiff (904-1006); meta/Common.h:18-53. *)
From Verif Require Import Prelude ValueBase LeaderModel AssocModel.
Open Scope Z_scope.

(** PartHosts, meta/Common.h:18-31 *)
Record partHosts := mkPH { phSpace : Z; phPart : Z; phHosts : list host }.
Fixpoint hostsEqb (a b : list host) : bool :=
  match a, b with
  | [], [] => true
  | x :: a', y :: b' => hostEqb x y && hostsEqb a' b'
  | _, _ => false
  end.
Definition phEqb (a b : partHosts) : bool :=
  (phSpace a =? phSpace b) && (phPart a =? phPart b) && hostsEqb (phHosts a) (phHosts b).

(** The parts of SpaceInfoCache used here (MetaClient.h:70-85); listeners_ : host -> (part, listener type) *)
Record spaceInfo := mkSI {
  partsOnHost : list (host * list Z);
  partsAlloc : list (Z * list host);
  listeners : list (host * list (Z * Z)) }.
Definition localCache : Type := list (Z * spaceInfo).

(** reverse, 550-559: hosts[h].emplace_back(part) over all parts and their hosts *)
Definition addPart (part : Z) (m : list (host * list Z)) (h : host) : list (host * list Z) :=
  aset hostEqb h (match aget hostEqb h m with Some l => l | None => [] end ++ [part]) m.
Definition reverse (parts : list (Z * list host)) : list (host * list Z) :=
  fold_left (fun m ph => fold_left (addPart (fst ph)) (snd ph) m) parts [].

Definition partsMap : Type := list (Z * list (Z * partHosts)).
(** partMap[space][part] = ph *)
Definition setPart (m : partsMap) (s p : Z) (ph : partHosts) : partsMap :=
  aset Z.eqb s (aset Z.eqb p ph (match aget Z.eqb s m with Some ps => ps | None => [] end)) m.
(** doGetPartsMap, 818-837. A part without allocation fails the CHECK (830). *)
Fixpoint partsOf (s : Z) (alloc : list (Z * list host)) (ps : list Z) (m : partsMap) : outcome partsMap :=
  match ps with
  | [] => Ret m
  | p :: ps' =>
      match aget Z.eqb p alloc with
      | None => Fatal
      | Some hs => partsOf s alloc ps' (setPart m s p (mkPH s p hs))
      end
  end.
Fixpoint partsMapFrom (h : host) (c : localCache) (m : partsMap) : outcome partsMap :=
  match c with
  | [] => Ret m
  | (s, si) :: c' =>
      let* m' := match aget hostEqb h (partsOnHost si) with Some ps => partsOf s (partsAlloc si) ps m | None => Ret m end in
      partsMapFrom h c' m'
  end.
Definition doGetPartsMap (h : host) (c : localCache) : outcome partsMap := partsMapFrom h c [].

(** The calls on MetaChangedListener, MetaClient.h:110-130 *)
Inductive note :=
| NSpaceAdded (s : Z)
| NSpaceRemoved (s : Z)
| NPartAdded (ph : partHosts)
| NPartUpdated (ph : partHosts)
| NPartRemoved (s p : Z).

(** First loop of diff, 849-880 *)
Definition diffNewPart (old : list (Z * partHosts)) (e : Z * partHosts) : list note :=
  match aget Z.eqb (fst e) old with
  | None => [NPartAdded (snd e)]
  | Some ph => if phEqb ph (snd e) then [] else [NPartUpdated (snd e)]
  end.
Definition diffNewSpace (old : partsMap) (e : Z * list (Z * partHosts)) : list note :=
  match aget Z.eqb (fst e) old with
  | None => NSpaceAdded (fst e) :: map (fun pe => NPartAdded (snd pe)) (snd e)
  | Some ops => flat_map (diffNewPart ops) (snd e)
  end.
(** Second loop, 881-901 *)
Definition diffOldPart (s : Z) (new : list (Z * partHosts)) (e : Z * partHosts) : list note :=
  match aget Z.eqb (fst e) new with None => [NPartRemoved s (fst e)] | Some _ => [] end.
Definition diffOldSpace (new : partsMap) (e : Z * list (Z * partHosts)) : list note :=
  match aget Z.eqb (fst e) new with
  | None => map (fun pe => NPartRemoved (fst e) (fst pe)) (snd e) ++ [NSpaceRemoved (fst e)]
  | Some nps => flat_map (diffOldPart (fst e) nps) (snd e)
  end.
(** diff, 840-902, with a listener registered *)
Definition diffMaps (old new : partsMap) : list note := flat_map (diffNewSpace old) new ++ flat_map (diffOldSpace new) old.
Definition diff (local : host) (oldCache newCache : localCache) : outcome (list note) :=
  let* new := doGetPartsMap local newCache in
  let* old := doGetPartsMap local oldCache in
  Ret (diffMaps old new).

(** * Listeners *)
(** ListenerHosts, meta/Common.h:34-53 *)
Record listenerHosts := mkLH { lhType : Z; lhPeers : list host }.
Definition lhEqb (a b : listenerHosts) : bool := (lhType a =? lhType b) && hostsEqb (lhPeers a) (lhPeers b).
(** HostAddr::operator<, datatypes/HostAddr.cpp:22-27 *)
Definition hostLt (a b : host) : bool := if strEqb (fst a) (fst b) then snd a <? snd b else strLtb (fst a) (fst b).
(** std::vector's operator<: lexicographical_compare *)
Fixpoint hostsLt (a b : list host) : bool :=
  match a, b with
  | _, [] => false
  | [], _ :: _ => true
  | x :: a', y :: b' => if hostLt x y then true else if hostLt y x then false else hostsLt a' b'
  end.
Definition lhLt (a b : listenerHosts) : bool :=
  if lhType a =? lhType b then hostsLt (lhPeers a) (lhPeers b) else lhType a <? lhType b.

Definition listenersMap : Type := list (Z * list (Z * list listenerHosts)).
(** listenersMap[s][p].emplace_back(l) *)
Definition addListener (m : listenersMap) (s p : Z) (l : listenerHosts) : listenersMap :=
  let ps := match aget Z.eqb s m with Some ps => ps | None => [] end in
  aset Z.eqb s (aset Z.eqb p (match aget Z.eqb p ps with Some ls => ls | None => [] end ++ [l]) ps) m.
(** doGetListenersMap, 3035-3058; a part without allocation is skipped *)
Definition addSpaceListeners (h : host) (m : listenersMap) (e : Z * spaceInfo) : listenersMap :=
  fold_left (fun m he =>
    if hostEqb h (fst he) then
      fold_left (fun m pt => match aget Z.eqb (fst pt) (partsAlloc (snd e)) with
                             | Some peers => addListener m (fst e) (fst pt) (mkLH (snd pt) peers)
                             | None => m
                             end) (snd he) m
    else m) (listeners (snd e)) m.
Definition doGetListenersMap (h : host) (c : localCache) : listenersMap := fold_left (addSpaceListeners h) c [].

Inductive lnote :=
| LSpaceAdded (s : Z)
| LSpaceRemoved (s : Z)
| LAdded (s p : Z) (l : listenerHosts)
| LRemoved (s p ty : Z).

(** std::sort: elements that neither precedes are equal, so the result is the sorted list *)
Fixpoint lhInsert (x : listenerHosts) (l : list listenerHosts) : list listenerHosts :=
  match l with [] => [x] | y :: l' => if lhLt y x then y :: lhInsert x l' else x :: l end.
Definition lhSort (l : list listenerHosts) : list listenerHosts := fold_right lhInsert [] l.
(** std::set_difference on sorted ranges *)
Fixpoint lhDifference (a : list listenerHosts) : list listenerHosts -> list listenerHosts :=
  fix go (b : list listenerHosts) : list listenerHosts :=
    match a, b with
    | [], _ => []
    | _, [] => a
    | x :: a', y :: b' =>
        if lhLt x y then x :: lhDifference a' b
        else if lhLt y x then go b'
        else lhDifference a' b'
    end.
(** First loop of listenerDiff, 917-957 *)
Definition ldiffNewPart (s : Z) (old : list (Z * list listenerHosts)) (e : Z * list listenerHosts) : list lnote :=
  match aget Z.eqb (fst e) old with
  | None => map (LAdded s (fst e)) (snd e)
  | Some ols => map (LAdded s (fst e)) (lhDifference (lhSort (snd e)) (lhSort ols))
  end.
Definition ldiffNewSpace (old : listenersMap) (e : Z * list (Z * list listenerHosts)) : list lnote :=
  match aget Z.eqb (fst e) old with
  | None => LSpaceAdded (fst e) :: flat_map (fun pe => map (LAdded (fst e) (fst pe)) (snd pe)) (snd e)
  | Some ops => flat_map (ldiffNewPart (fst e) ops) (snd e)
  end.
(** Second loop, 959-1005 *)
Definition ldiffOldPart (s : Z) (new : list (Z * list listenerHosts)) (e : Z * list listenerHosts) : list lnote :=
  match aget Z.eqb (fst e) new with
  | None => map (fun l => LRemoved s (fst e) (lhType l)) (snd e)
  | Some nls => map (fun l => LRemoved s (fst e) (lhType l)) (lhDifference (lhSort (snd e)) (lhSort nls))
  end.
Definition ldiffOldSpace (new : listenersMap) (e : Z * list (Z * list listenerHosts)) : list lnote :=
  match aget Z.eqb (fst e) new with
  | None => flat_map (fun pe => map (fun l => LRemoved (fst e) (fst pe) (lhType l)) (snd pe)) (snd e) ++ [LSpaceRemoved (fst e)]
  | Some nps => flat_map (ldiffOldPart (fst e) nps) (snd e)
  end.
(** unordered_map's operator==: the same keys with equal values, in any order *)
Fixpoint lhListEqb (a b : list listenerHosts) : bool :=
  match a, b with [], [] => true | x :: a', y :: b' => lhEqb x y && lhListEqb a' b' | _, _ => false end.
Definition umapEqb {V} (eqb : V -> V -> bool) (a b : list (Z * V)) : bool :=
  (length a =? length b)%nat &&
  forallb (fun e => match aget Z.eqb (fst e) b with Some v => eqb (snd e) v | None => false end) a.
Definition lmapEqb : listenersMap -> listenersMap -> bool := umapEqb (umapEqb lhListEqb).
(** listenerDiff, 904-1006, with a listener registered *)
Definition listenerDiffMaps (old new : listenersMap) : list lnote :=
  if lmapEqb new old then [] else flat_map (ldiffNewSpace old) new ++ flat_map (ldiffOldSpace new) old.
Definition listenerDiff (local : host) (oldCache newCache : localCache) : list lnote :=
  listenerDiffMaps (doGetListenersMap local oldCache) (doGetListenersMap local newCache).
