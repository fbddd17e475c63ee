(** Properties C91, C92 and C93: indexes by name, leaders, and remote listeners after a load of the metadata cache. *)
From Coq Require Import String List.
From Verif Require Import Prelude Trans ValueBase ValueProofs AssocModel LeaderModel DiffModel DiffProps SchemaModel SchemaProps SchemaLoadProps
  MetaCacheModel MetaCacheProofs MetaCacheProps.
Import ListNotations.
Open Scope Z_scope.

(** * C91: indexes by name *)
(** An index id always stands for the same name. *)
Definition idsKeepNames (sel : answers -> Z -> option (list idxItem)) (nameOf : Z -> Z -> str) (a : answers) : Prop :=
  forall s its it, sel a s = Some its -> In it its -> ixName it = nameOf s (ixId it).

Definition tracks (nameOf : Z -> Z -> str) (m : list ((Z * str) * Z)) : Prop := forall k id, aget skeyEqb k m = Some id -> snd k = nameOf (fst k) id.
Lemma load_names local c a r : loadData local c a = Ret r ->
  (forall f, idsKeepNames anTagIdx f a -> tracks f (clTagIdxNames c) -> tracks f (clTagIdxNames (ldClient r))) /\
  (forall f, idsKeepNames anEdgeIdx f a -> tracks f (clEdgeIdxNames c) -> tracks f (clEdgeIdxNames (ldClient r))).
Proof.
  unfold loadData. intros H.
  destruct (anUsers a) as [us|]; [|apply Ret_inj in H; subst; auto].
  destruct (loadUsers (anRoles a) us [] []) as [[rs ps]|]; [|apply Ret_inj in H; subst; auto].
  destruct (anFtClients a) as [fc|]; [|apply Ret_inj in H; subst; auto].
  destruct (anFtIndexes a) as [fi|]; [|apply Ret_inj in H; subst; auto].
  destruct (anSpaces a) as [sp|]; [|apply Ret_inj in H; subst; auto].
  cbn [withFtIndexes withFtClients withUsers clTagIdxNames clEdgeIdxNames] in H.
  match type of H with context [loadLoop ?x ?y ?z] => destruct (loadLoop x y z) as [[st ok]| | |] eqn:E2 end; try discriminate. cbn [obind] in H.
  destruct (loop_namesFrom _ _ _ _ _ E2) as [N1 N2]. cbn [lsTagIdxNames lsEdgeIdxNames] in N1, N2.
  assert (K : (forall f, idsKeepNames anTagIdx f a -> tracks f (clTagIdxNames c) -> tracks f (lsTagIdxNames st)) /\
    (forall f, idsKeepNames anEdgeIdx f a -> tracks f (clEdgeIdxNames c) -> tracks f (lsEdgeIdxNames st))).
  { split; intros f Hf T k id Hk; [apply N1 in Hk|apply N2 in Hk]; (destruct Hk as [Hk | (l & it & Hl & Hi & E & ->)]; [apply T; exact Hk|rewrite E; eapply Hf; eassumption]). }
  destruct ok.
  - unfold loadEnd in H. destruct (anHosts a) as [items|]; [|discriminate]. match type of H with obind ?x _ = _ => destruct x as [td| | |] end; try discriminate.
    cbn [obind] in H. apply Ret_inj in H. subst r. exact K.
  - apply Ret_inj in H. subst r. exact K.
Qed.
Lemma loads_names local l : forall c c', loads local c l = Ret c' ->
  (forall f, Forall (idsKeepNames anTagIdx f) l -> tracks f (clTagIdxNames c) -> tracks f (clTagIdxNames c')) /\
  (forall f, Forall (idsKeepNames anEdgeIdx f) l -> tracks f (clEdgeIdxNames c) -> tracks f (clEdgeIdxNames c')).
Proof.
  induction l as [|a l IH]; intros c c' H; cbn [loads] in H; [apply Ret_inj in H; subst; auto|].
  destruct (loadData local c a) as [r| | |] eqn:E; try discriminate. cbn [obind] in H. apply load_names in E. destruct E as [E1 E2]. destruct (IH _ _ H) as [I1 I2].
  split; intros f F T; inversion F as [|? ? F1 F2]; subst; auto.
Qed.

(** After any loads, failed or not, of which the last succeeded, an index is found by name exactly when it was
    listed, as long as index ids are never given to another name. *)
Theorem C91_tag_index_by_name : forall local l c a r nameOf, Forall (idsKeepNames anTagIdx nameOf) (l ++ [a]) -> tidy a ->
  loads local freshClient l = Ret c -> loadData local c a = Ret r -> ldOk r = true ->
  forall s n it, tagIndexByName (ldClient r) s n = Some it <-> hasIndex anTagIdx a s it /\ ixName it = n.
Proof.
  intros local l c a r nameOf F T Hl H O s n it. apply Forall_app in F. destruct F as [F Fa]. inversion Fa as [|? ? Fa1 _]; subst.
  assert (Tr : tracks nameOf (clTagIdxNames (ldClient r))).
  { eapply load_names; [exact H|exact Fa1|]. eapply loads_names; [exact Hl|exact F|]. intros k id X. discriminate X. }
  destruct (C89_indexes_by_id local c a r T H O) as [I _]. destruct (load_spaces local c a r T H O) as (_ & _ & _ & R).
  unfold tagIndexByName. rewrite R. split.
  - destruct (aget skeyEqb (s, n) (clTagIdxNames (ldClient r))) as [id|] eqn:E; [|discriminate]. intros Hi. apply I in Hi. destruct Hi as [Hi <-]. split; [exact Hi|].
    apply Tr in E. cbn in E. rewrite E. destruct Hi as (n' & its & _ & Hits & Hin). eapply Fa1; eassumption.
  - intros [Hi <-]. pose proof Hi as (n' & its & (sp & Hsp & Hin) & Hits & Hit).
    assert (E : aget skeyEqb (s, ixName it) (clTagIdxNames (ldClient r)) = Some (ixId it)).
    { destruct (load_inv local c a r H O) as (us & rs & ps & fc & fi & sp' & st & items & _ & _ & _ & _ & Hsp' & _ & L & Er & _). rewrite Er. cbn.
      rewrite Hsp in Hsp'. injection Hsp' as <-. destruct T as (_ & T1 & _ & T2 & _).
      apply (loop_idxNames anTagIdx lsTagIdxNames loadSpace_tagNames a sp _ _ L (proj1 (T1 _ Hsp)) s n' its it Hin Hits (proj2 (T2 _ _ Hits)) Hit). }
    rewrite E. apply I. auto.
Qed.
Theorem C91_edge_index_by_name : forall local l c a r nameOf, Forall (idsKeepNames anEdgeIdx nameOf) (l ++ [a]) -> tidy a ->
  loads local freshClient l = Ret c -> loadData local c a = Ret r -> ldOk r = true ->
  forall s n it, edgeIndexByName (ldClient r) s n = Some it <-> hasIndex anEdgeIdx a s it /\ ixName it = n.
Proof.
  intros local l c a r nameOf F T Hl H O s n it. apply Forall_app in F. destruct F as [F Fa]. inversion Fa as [|? ? Fa1 _]; subst.
  assert (Tr : tracks nameOf (clEdgeIdxNames (ldClient r))).
  { eapply load_names; [exact H|exact Fa1|]. eapply loads_names; [exact Hl|exact F|]. intros k id X. discriminate X. }
  destruct (C89_indexes_by_id local c a r T H O) as [_ [I _]]. destruct (load_spaces local c a r T H O) as (_ & _ & _ & R).
  unfold edgeIndexByName. rewrite R. split.
  - destruct (aget skeyEqb (s, n) (clEdgeIdxNames (ldClient r))) as [id|] eqn:E; [|discriminate]. intros Hi. apply I in Hi. destruct Hi as [Hi <-]. split; [exact Hi|].
    apply Tr in E. cbn in E. rewrite E. destruct Hi as (n' & its & _ & Hits & Hin). eapply Fa1; eassumption.
  - intros [Hi <-]. pose proof Hi as (n' & its & (sp & Hsp & Hin) & Hits & Hit).
    assert (E : aget skeyEqb (s, ixName it) (clEdgeIdxNames (ldClient r)) = Some (ixId it)).
    { destruct (load_inv local c a r H O) as (us & rs & ps & fc & fi & sp' & st & items & _ & _ & _ & _ & Hsp' & _ & L & Er & _). rewrite Er. cbn.
      rewrite Hsp in Hsp'. injection Hsp' as <-. destruct T as (_ & T1 & _ & _ & T2).
      apply (loop_idxNames anEdgeIdx lsEdgeIdxNames loadSpace_edgeNames a sp _ _ L (proj1 (T1 _ Hsp)) s n' its it Hin Hits (proj2 (T2 _ _ Hits)) Hit). }
    rewrite E. apply I. auto.
Qed.

(** False as stated: a load that fails after the indexes of a space were read has already redirected their names,
    so an index dropped and made again under its name, present before and after, is not found any more. *)
Definition nameI (s id : Z) : str := B "i".
Definition ix1 := exA [] (Some [(1, B "s")]) [exIdx 5 "i"] (Some []) (Some []).
Definition ix2 := exA [] (Some [(1, B "s")]) [exIdx 6 "i"] None (Some []).
Theorem C91_failed_load_refuted : exists c r, loads None freshClient [ix1] = Ret c /\ Forall (idsKeepNames anTagIdx nameI) [ix1; ix2] /\
  loadData None c ix2 = Ret r /\ ldOk r = false /\ hasIndex anTagIdx ix1 1 (exIdx 5 "i") /\ hasIndex anTagIdx ix2 1 (exIdx 6 "i") /\
  tagIndexByName c 1 (B "i") = Some (exIdx 5 "i") /\ tagIndexByName (ldClient r) 1 (B "i") = None /\ tagIndexById (ldClient r) 1 5 = Some (exIdx 5 "i").
Proof.
  do 2 eexists. split; [vm_compute; reflexivity|]. split; [|split; [vm_compute; reflexivity|]].
  - repeat constructor; intros s its it Hs Hi; cbn in Hs; injection Hs as <-; destruct Hi as [<- | []]; reflexivity.
  - splits; try (vm_compute; reflexivity).
    + exists (B "s"), [exIdx 5 "i"]. splits; [exists [(1, B "s")]; cbn; auto|reflexivity|cbn; auto].
    + exists (B "s"), [exIdx 6 "i"]. splits; [exists [(1, B "s")]; cbn; auto|reflexivity|cbn; auto].
Qed.
(** False as stated: the names of dropped indexes are never removed, so an id given again answers to its old name. *)
Definition ix3 := exA [] (Some [(1, B "s")]) [exIdx 5 "j"] (Some []) (Some []).
Theorem C91_reused_id_refuted : exists c r, loads None freshClient [ix1] = Ret c /\ loadData None c ix3 = Ret r /\ ldOk r = true /\
  tagIndexByName (ldClient r) 1 (B "i") = Some (exIdx 5 "j") /\ (forall it, hasIndex anTagIdx ix3 1 it -> ixName it <> B "i").
Proof.
  do 2 eexists. split; [vm_compute; reflexivity|]. split; [vm_compute; reflexivity|]. splits; try (vm_compute; reflexivity).
  intros it (n & l & _ & Hl & Hi). cbn in Hl. injection Hl as <-. destruct Hi as [<- | []]. discriminate.
Qed.
Example C91_ex : exists c r, loads None freshClient [ix1; ix2] = Ret c /\ loadData None c (exA [] (Some [(1, B "s")]) [exIdx 6 "i"] (Some []) (Some [])) = Ret r /\
  ldOk r = true /\ tagIndexByName (ldClient r) 1 (B "i") = Some (exIdx 6 "i").
Proof. do 2 eexists. split; [vm_compute; reflexivity|]. split; [vm_compute; reflexivity|]. splits; vm_compute; reflexivity. Qed.

(** * C92: leaders *)
(** The host says it leads part [p] of the space named [n]. *)
Definition leads (items : list hostItem) (n : str) (p : Z) (h : host) : Prop := exists l ps, In (h, l) items /\ In (n, ps) l /\ In p ps.
Definition oneLeader (items : list hostItem) : Prop := forall n p h h', leads items n p h -> leads items n p h' -> h = h'.

Section LL.
Context (cache : allocCache) (sid : str -> option Z).
Lemma loadParts_get h s ps : forall li k, aget pkeyEqb k (leaderMap (fold_left (loadPart cache h s) ps li)) =
  if (fst k =? s) && existsb (Z.eqb (snd k)) ps then Some h else aget pkeyEqb k (leaderMap li).
Proof.
  induction ps as [|p ps IH]; intros li k; cbn [fold_left existsb]; [rewrite andb_false_r; reflexivity|].
  rewrite IH. unfold loadPart. cbn [leaderMap]. rewrite (aget_aset pkeyEqb pkeyEqb_ok). unfold pkeyEqb. cbn [fst snd].
  destruct (fst k =? s); cbn [andb]; [|reflexivity]. destruct (existsb (Z.eqb (snd k)) ps); [rewrite orb_true_r; reflexivity|]. rewrite orb_false_r. reflexivity.
Qed.
(** What is stored for a key was stored before or is reported in this item; and what the item reports is stored *)
Lemma loadItem_get h l : forall li k,
  (forall x, aget pkeyEqb k (leaderMap (loadItem cache sid li (h, l))) = Some x -> aget pkeyEqb k (leaderMap li) = Some x \/
     (x = h /\ exists n ps, In (n, ps) l /\ sid n = Some (fst k) /\ In (snd k) ps)) /\
  ((exists n ps, In (n, ps) l /\ sid n = Some (fst k) /\ In (snd k) ps) -> aget pkeyEqb k (leaderMap (loadItem cache sid li (h, l))) = Some h) /\
  (aget pkeyEqb k (leaderMap li) <> None -> aget pkeyEqb k (leaderMap (loadItem cache sid li (h, l))) <> None).
Proof.
  unfold loadItem. cbn [fst snd]. induction l as [|[n ps] l IH] using rev_ind; intros li k.
  - cbn. splits; auto. intros (n & ps & [] & _).
  - rewrite fold_left_app. cbn [fold_left fst snd]. destruct (IH li k) as (I1 & I2 & I3). destruct (sid n) as [s|] eqn:E.
    + rewrite loadParts_get. destruct (Z.eqb_spec (fst k) s) as [Es|Es]; cbn [andb].
      * destruct (existsb (Z.eqb (snd k)) ps) eqn:Ex.
        -- apply existsb_exists in Ex. destruct Ex as (p & Hp & Ep). apply Z.eqb_eq in Ep. splits; try congruence.
           intros x X. injection X as <-. right. split; [reflexivity|]. exists n, ps. rewrite in_app_iff. cbn. splits; auto; congruence.
        -- splits; auto.
           ++ intros x Hx. destruct (I1 x Hx) as [|(-> & n' & ps' & Hi & Hr)]; auto. right. split; [reflexivity|]. exists n', ps'. rewrite in_app_iff. auto.
           ++ intros (n' & ps' & Hi & Hs & Hp). rewrite in_app_iff in Hi. destruct Hi as [Hi | [X | []]]; [apply I2; eauto|]. injection X as <- <-.
              exfalso. rewrite <- not_true_iff_false in Ex. apply Ex. apply existsb_exists. exists (snd k). split; [exact Hp|apply Z.eqb_refl].
      * splits; auto.
        -- intros x Hx. destruct (I1 x Hx) as [|(-> & n' & ps' & Hi & Hr)]; auto. right. split; [reflexivity|]. exists n', ps'. rewrite in_app_iff. auto.
        -- intros (n' & ps' & Hi & Hs & Hp). rewrite in_app_iff in Hi. destruct Hi as [Hi | [X | []]]; [apply I2; eauto|]. injection X as <- <-. exfalso. congruence.
    + splits; auto.
      * intros x Hx. destruct (I1 x Hx) as [|(-> & n' & ps' & Hi & Hr)]; auto. right. split; [reflexivity|]. exists n', ps'. rewrite in_app_iff. auto.
      * intros (n' & ps' & Hi & Hs & Hp). rewrite in_app_iff in Hi. destruct Hi as [Hi | [X | []]]; [apply I2; eauto|]. injection X as <- <-. exfalso. congruence.
Qed.
Lemma loadItems_get items : forall li k,
  (forall x, aget pkeyEqb k (leaderMap (fold_left (loadItem cache sid) items li)) = Some x -> aget pkeyEqb k (leaderMap li) = Some x \/
     exists n, sid n = Some (fst k) /\ leads items n (snd k) x) /\
  ((exists n x, sid n = Some (fst k) /\ leads items n (snd k) x) -> aget pkeyEqb k (leaderMap (fold_left (loadItem cache sid) items li)) <> None) /\
  (aget pkeyEqb k (leaderMap li) <> None -> aget pkeyEqb k (leaderMap (fold_left (loadItem cache sid) items li)) <> None).
Proof.
  induction items as [|[h l] items IH]; intros li k; cbn [fold_left].
  - splits; auto. intros (n & x & _ & (l & ps & [] & _)).
  - destruct (IH (loadItem cache sid li (h, l)) k) as (I1 & I2 & I3). destruct (loadItem_get h l li k) as (L1 & L2 & L3). splits.
    + intros x Hx. destruct (I1 x Hx) as [Hx' | (n & Hn & (l' & ps & Hi & Hr))].
      * destruct (L1 x Hx') as [|(-> & n & ps & Hi & Hs & Hp)]; auto. right. exists n. split; [exact Hs|]. exists l, ps. cbn. auto.
      * right. exists n. split; [exact Hn|]. exists l', ps. cbn. auto.
    + intros (n & x & Hs & (l' & ps & [Hi | Hi] & Hn & Hp)).
      * injection Hi as <- <-. apply I3. rewrite L2; [discriminate|]. eauto.
      * apply I2. exists n, x. split; [exact Hs|]. exists l', ps. auto.
    + auto.
Qed.
End LL.

(** On a ready client whose spaces are still the same, the leaders after a load are exactly those reported. *)
Theorem C92_leaders_as_reported : forall local c a r items, tidy a -> loadData local c a = Ret r -> ldOk r = true -> anHosts a = Some items -> oneLeader items ->
  clReady c = true -> (forall n, spaceIdByName (ldClient r) n = spaceIdByName c n) ->
  forall s p h, aget pkeyEqb (s, p) (leaderMap (clLeaders (ldClient r))) = Some h <-> exists n, hasSpace a s n /\ leads items n p h.
Proof.
  intros local c a r items T H O Hit One R Same s p h. destruct (C89_spaces local c a r T H O) as [S _].
  assert (N : forall n s, aget strEqb n (clNames c) = Some s <-> hasSpace a s n).
  { intros n s'. rewrite <- S, Same. unfold spaceIdByName. rewrite R. tauto. }
  destruct (load_inv local c a r H O) as (us & rs & ps & fc & fi & sp & st & items' & _ & _ & _ & _ & _ & Hit' & _ & E & _). rewrite Hit in Hit'. injection Hit' as <-.
  rewrite E. cbn [clLeaders]. unfold loadLeader. destruct (loadItems_get (allocs (clCache c)) (fun n => aget strEqb n (clNames c)) items (mkLI [] []) (s, p)) as (G1 & G2 & _).
  cbn [fst snd leaderMap] in *. split.
  - intros Hx. destruct (G1 h Hx) as [X | (n & Hn & L)]; [discriminate X|]. exists n. split; [apply N; exact Hn|exact L].
  - intros (n & Hn & L). destruct (aget pkeyEqb (s, p) (leaderMap (fold_left (loadItem (allocs (clCache c)) (fun n0 => aget strEqb n0 (clNames c))) items (mkLI [] [])))) as [x|] eqn:Ex.
    + destruct (G1 x eq_refl) as [X | (n' & Hn' & L')]; [discriminate X|]. apply N in Hn'. rewrite (hasSpace_unique a s n n' T Hn Hn') in L. f_equal. eapply One; eassumption.
    + exfalso. apply G2; [|reflexivity]. exists n, h. split; [apply N; exact Hn|exact L].
Qed.
(** The first load learns no leader at all: it looks the space names up before they are stored. *)
Theorem C92_first_load_learns_none : forall local a r, loadData local freshClient a = Ret r -> leaderMap (clLeaders (ldClient r)) = [].
Proof.
  intros local a r H. destruct (ldOk r) eqn:O.
  - destruct (load_inv local _ a r H O) as (us & rs & ps & fc & fi & sp & st & items & _ & _ & _ & _ & _ & _ & _ & E & _). rewrite E. cbn. unfold loadLeader.
    assert (K : forall items li, fold_left (loadItem [] (fun _ => None)) items li = li).
    { induction items0 as [|[h l] items0 IH]; intros li; cbn [fold_left]; [reflexivity|]. rewrite IH. unfold loadItem. cbn [fst snd]. clear. revert li. induction l as [|[n ps] l IH]; intros li; cbn; auto. }
    change (fun n : str => aget strEqb n []) with (fun n : str => @None Z). rewrite K. reflexivity.
  - destruct (load_fail_inv local _ a r H O) as (_ & _ & _ & _ & _ & _ & _ & -> & _). reflexivity.
Qed.
(** False as stated: after the first load a request for the reported leader gets the other replica ... *)
Definition ldA (spaces : list (Z * str)) := exA [] (Some spaces) [] (Some []) (Some [((B "h1", 1), [(B "s", [1])]); ((B "h2", 1), [])]).
Theorem C92_first_load_refuted : exists r li, loadData None freshClient (ldA [(1, B "s")]) = Ret r /\ ldOk r = true /\
  leads [((B "h1", 1), [(B "s", [1])]); ((B "h2", 1), [])] (B "s") 1 (B "h1", 1) /\
  getLeader (allocs (clCache (ldClient r))) true (clLeaders (ldClient r)) (1, 1) = Ret (Some (B "h2", 1), li).
Proof.
  do 2 eexists. split; [vm_compute; reflexivity|]. split; [reflexivity|]. split; [|vm_compute; reflexivity].
  exists [(B "s", [1])], [1]. cbn. auto.
Qed.
(** ... and the leaders of a space dropped and made again are stored under its old id. *)
Theorem C92_recreated_space_refuted : exists c r, loads None freshClient [ldA [(1, B "s")]] = Ret c /\ loadData None c (ldA [(2, B "s")]) = Ret r /\ ldOk r = true /\
  spaceIdByName (ldClient r) (B "s") = Some 2 /\ aget pkeyEqb (2, 1) (leaderMap (clLeaders (ldClient r))) = None /\
  aget pkeyEqb (1, 1) (leaderMap (clLeaders (ldClient r))) = Some (B "h1", 1).
Proof. do 2 eexists. split; [vm_compute; reflexivity|]. split; [vm_compute; reflexivity|]. splits; vm_compute; reflexivity. Qed.
Example C92_ex : exists c r, loads None freshClient [ldA [(1, B "s")]] = Ret c /\ clReady c = true /\ loadData None c (ldA [(1, B "s")]) = Ret r /\ ldOk r = true /\
  aget pkeyEqb (1, 1) (leaderMap (clLeaders (ldClient r))) = Some (B "h1", 1).
Proof. do 2 eexists. split; [vm_compute; reflexivity|]. split; [vm_compute; reflexivity|]. split; [vm_compute; reflexivity|]. splits; vm_compute; reflexivity. Qed.

(** * C93: remote listeners *)
Lemma pm_In m s p ph : pmOk m -> (exists ps, In (s, ps) m /\ In (p, ph) ps) <-> lookup m s p = Some ph.
Proof.
  intros [N H]. unfold lookup. split.
  - intros (ps & Hs & Hp). rewrite (In_aget Z.eqb Zeqb_ok _ _ _ N Hs). apply (In_aget Z.eqb Zeqb_ok); [apply (H _ _ Hs)|exact Hp].
  - destruct (aget Z.eqb s m) as [ps|] eqn:E; [|discriminate]. intros Hp. exists ps. split; [apply (aget_In Z.eqb Zeqb_ok); exact E|apply (aget_In Z.eqb Zeqb_ok); exact Hp].
Qed.
Lemma assigned_hasPart a local c r h s p rs : tidy a -> loadData local c a = Ret r -> ldOk r = true ->
  assigned h (infos (clCache (ldClient r))) s p rs <-> hasPart a s p rs /\ In h rs.
Proof.
  intros T H O. destruct (C89_parts local c a r T H O) as [P _]. unfold assigned. rewrite <- P. unfold getPartHosts, allocOf. cbn [fst snd]. rewrite aget_infos, aget_allocs.
  destruct (aget Z.eqb s (clCache (ldClient r))); cbn; tauto.
Qed.
(** On a ready client every local part is told exactly the hosts listed as its listeners. *)
Theorem C93_remote_listeners : forall h c a r, tidy a -> loadData (Some h) c a = Ret r -> ldOk r = true -> clReady c = true ->
  (forall s p, (exists hs, In (s, p, hs) (tdRemote (ldTold r))) <-> exists rs, hasPart a s p rs /\ In h rs) /\
  (forall s p hs, In (s, p, hs) (tdRemote (ldTold r)) -> forall x, In x hs <-> exists ty, hasListener a s x p ty).
Proof.
  intros h c a r T H O R. pose proof (fun s p rs => assigned_hasPart a (Some h) c r h s p rs T H O) as AP. destruct (C89_listeners (Some h) c a r T H O) as (_ & _ & _ & LS).
  destruct (load_inv _ c a r H O) as (us & rs & ps & fc & fi & sp & st & items & _ & _ & _ & _ & _ & _ & L & E & (d & pm & _ & Ep & Et)).
  rewrite E in AP, LS. cbn [clCache] in AP, LS. rewrite Et. cbn [tdRemote]. unfold remoteTold. rewrite R.
  pose proof (loop_cacheOk a sp T _ _ L cacheOk_nil) as C. destruct (doGetPartsMap_spec h _ C) as (pm' & Ep' & Ok & LK). rewrite Ep in Ep'. apply Ret_inj in Ep'. subst pm'.
  assert (Q : forall s p hs, In (s, p, hs) (flat_map (fun se => map (fun pe => (fst se, fst pe,
      match remoteListeners (lsCache st) (fst se) (fst pe) with Some ls => map fst ls | None => [] end)) (snd se)) pm) <->
      (exists ph, lookup pm s p = Some ph) /\ hs = match remoteListeners (lsCache st) s p with Some ls => map fst ls | None => [] end).
  { intros s p hs. rewrite in_flat_map. split.
    - intros ([s' ps'] & Hs & Hi). cbn [fst snd] in Hi. apply in_map_iff in Hi. destruct Hi as ([p' ph] & X & Hi). cbn [fst snd] in X. injection X as -> -> <-. split; [|reflexivity].
      exists ph. apply (pm_In pm s p ph Ok). eauto.
    - intros [(ph & Hl) ->]. apply (pm_In pm s p ph Ok) in Hl. destruct Hl as (ps' & Hs & Hp). exists (s, ps'). split; [exact Hs|]. cbn [fst snd]. apply in_map_iff. exists (p, ph). auto. }
  split.
  - intros s p. split.
    + intros (hs & Hi). apply Q in Hi. destruct Hi as [(ph & Hl) _]. apply LK in Hl. destruct Hl as (_ & _ & Ha). exists (phHosts ph). apply AP. exact Ha.
    + intros (rs' & Ha). eexists. apply Q. split; [|reflexivity]. exists (mkPH s p rs'). apply LK. cbn. splits; auto; apply AP; exact Ha.
  - intros s p hs Hi x. apply Q in Hi. destruct Hi as [_ ->]. split.
    + destruct (remoteListeners (lsCache st) s p) as [ls|] eqn:El; [|intros []]. intros Hx. apply in_map_iff in Hx. destruct Hx as ([x' ty] & <- & Hx). exists ty. apply LS. eauto.
    + intros (ty & Hx). apply LS in Hx. destruct Hx as (ls & -> & Hx). apply in_map_iff. exists (x, ty). auto.
Qed.
(** The first load tells every local part that it has no remote listener, because ready_ is set only afterwards. *)
Theorem C93_first_load_tells_none : forall h a r s p hs, loadData (Some h) freshClient a = Ret r -> In (s, p, hs) (tdRemote (ldTold r)) -> hs = [].
Proof.
  intros h a r s p hs H Hi. destruct (ldOk r) eqn:O.
  - destruct (load_inv _ _ a r H O) as (us & rs & ps & fc & fi & sp & st & items & _ & _ & _ & _ & _ & _ & _ & _ & (d & pm & _ & _ & Et)). rewrite Et in Hi. cbn in Hi. unfold remoteTold in Hi.
    apply in_flat_map in Hi. destruct Hi as (se & _ & Hi). apply in_map_iff in Hi. destruct Hi as (pe & X & _). injection X as _ _ <-. reflexivity.
  - destruct (load_fail_inv _ _ a r H O) as (Ht & _). rewrite Ht in Hi. destruct Hi.
Qed.
(** False as stated, therefore. *)
Theorem C93_first_load_refuted : exists r, loadData (Some (B "h1", 1)) freshClient ex2 = Ret r /\ ldOk r = true /\
  hasListener ex2 1 (B "l", 9) 1 0 /\ In (1, 1, []) (tdRemote (ldTold r)).
Proof.
  eexists. split; [vm_compute; reflexivity|]. split; [reflexivity|]. split; [|vm_compute; auto].
  exists (B "s"), [((B "l", 9), (1, 0))]. splits; [exists [(1, B "s"); (2, B "t")]; cbn; auto|reflexivity|cbn; auto].
Qed.
Example C93_ex : exists c r, loads (Some (B "h1", 1)) freshClient [ex1] = Ret c /\ clReady c = true /\ loadData (Some (B "h1", 1)) c ex2 = Ret r /\ ldOk r = true /\
  tdRemote (ldTold r) = [(1, 1, [(B "l", 9)]); (2, 1, [(B "l", 9)])].
Proof. do 2 eexists. split; [vm_compute; reflexivity|]. split; [vm_compute; reflexivity|]. split; [vm_compute; reflexivity|]. splits; vm_compute; reflexivity. Qed.

Print Assumptions C91_tag_index_by_name. Print Assumptions C91_edge_index_by_name. Print Assumptions C91_failed_load_refuted. Print Assumptions C91_reused_id_refuted.
Print Assumptions C92_leaders_as_reported. Print Assumptions C92_first_load_learns_none. Print Assumptions C92_first_load_refuted. Print Assumptions C92_recreated_space_refuted.
Print Assumptions C93_remote_listeners. Print Assumptions C93_first_load_tells_none. Print Assumptions C93_first_load_refuted.
