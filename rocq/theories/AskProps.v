(** Property C185: what a host listens to, and what an index is on. *)
From Coq Require Import String List.
From Verif Require Import Prelude Trans ValueBase ValueProofs AssocModel LeaderModel DiffModel DiffProps ListenerProps SchemaModel SchemaProps SchemaLoadProps
  MetaCacheModel MetaCacheProofs MetaCacheProps MetaIndexProps AskModel.
Import ListNotations.
Open Scope Z_scope.

(** * Specification *)
(** The answer lists a listener of type [ty] for part [p] of space [s], with the replicas [peers] of the part. *)
Definition listedIn (m : listenersMap) (s p ty : Z) (peers : list host) : Prop :=
  exists ps ls, In (s, ps) m /\ In (p, ls) ps /\ In (mkLH ty peers) ls.
Lemma lget_listed m s p ty peers : lmOk m -> (In (mkLH ty peers) (lget m s p) <-> listedIn m s p ty peers).
Proof.
  intros [N H]. unfold lget. split.
  - destruct (aget Z.eqb s m) as [ps|] eqn:E; [|intros []]. destruct (aget Z.eqb p ps) as [ls|] eqn:F; [|intros []]. intros I. exists ps, ls.
    apply (aget_In Z.eqb Zeqb_ok) in E, F. auto.
  - intros (ps & ls & I1 & I2 & I3). rewrite (In_aget Z.eqb Zeqb_ok _ _ _ N I1). destruct (H _ _ I1) as [N' _]. rewrite (In_aget Z.eqb Zeqb_ok _ _ _ N' I2). exact I3.
Qed.
Lemma lget_In h c s p l : In l (lget (doGetListenersMap h c) s p) <-> listens h c s p (lhType l) (lhPeers l).
Proof.
  rewrite doGet_triples. destruct (fold_addT (triples h c) [] lmOk_nil) as [_ L]. rewrite L. cbn [lget aget app]. rewrite in_map_iff. split.
  - intros (((s0, p0), l0) & E & Hi). cbn [snd] in E. subst l0. apply filter_In in Hi. destruct Hi as [Hi Hk]. cbn [fst snd] in Hk. apply andb_true_iff in Hk. rewrite !Z.eqb_eq in Hk.
    destruct Hk as [<- <-]. unfold triples in Hi. apply in_flat_map in Hi. destruct Hi as ((s1, si) & Hc & Hi). apply spaceTriples_In in Hi. destruct Hi as (pts & [q t] & peers & H1 & H2 & H3 & E).
    cbn [fst snd] in *. injection E as -> -> ->. exists si, pts. cbn [lhType lhPeers]. auto.
  - intros (si & pts & H1 & H2 & H3 & H4). exists (s, p, l). split; [reflexivity|]. apply filter_In. cbn [fst snd]. rewrite !Z.eqb_refl. split; [|reflexivity].
    unfold triples. apply in_flat_map. exists (s, si). split; [exact H1|]. apply spaceTriples_In. exists pts, (p, lhType l), (lhPeers l). cbn [fst snd]. splits; auto. destruct l; reflexivity.
Qed.

Section S.
Context (local : option host) (c : client) (a : answers) (r : loadRes) (T : tidy a) (H : loadData local c a = Ret r) (O : ldOk r = true).
Lemma cache_nodup : NoDup (akeys (infos (clCache (ldClient r)))).
Proof. destruct (load_inv local c a r H O) as (us & rs & ps & fc & fi & sp & st & items & _ & _ & _ & _ & _ & _ & L & E & _). rewrite E. cbn. apply (loop_cacheOk _ _ T _ _ L). apply cacheOk_nil. Qed.
Lemma listens_reported h s p ty peers : listens h (infos (clCache (ldClient r))) s p ty peers <-> hasListener a s h p ty /\ hasPart a s p peers.
Proof.
  destruct (load_spaces _ _ _ _ T H O) as (S1 & S2 & _ & _). unfold listens.
  assert (TP : forall s alloc terms, anParts a s = Some (alloc, terms) -> NoDup (map fst alloc)) by (destruct T as (_ & _ & T' & _); intros; eapply T'; eassumption). split.
  - intros (si & pts & H1 & H2 & H3 & H4). apply (In_aget Z.eqb Zeqb_ok _ _ _ cache_nodup) in H1. rewrite aget_infos in H1.
    destruct (aget Z.eqb s (clCache (ldClient r))) as [e|] eqn:E; [|discriminate]. injection H1 as <-. destruct (S2 _ _ E) as (n & Hn & (alloc & terms & ti & ei & ls & sd & Ha & _ & _ & Hl & _ & ->)).
    cbn in *. split; [|exists n, alloc, terms; splits; auto; apply (aget_In Z.eqb Zeqb_ok); exact H4].
    exists n, ls. splits; auto. apply listener_entry. exists pts. split; [|exact H3]. apply (In_aget hostEqb hostEqb_ok); [|exact H2]. apply addListenerOf_keys. constructor.
  - intros [(n & ls & Hn & Hl & Hi) (n' & alloc & terms & _ & Ha & Hp)]. destruct (S1 _ _ Hn) as (e & E & (alloc' & terms' & ti & ei & ls' & sd & Ha' & _ & _ & Hl' & _ & ->)).
    rewrite Ha in Ha'. injection Ha' as <- <-. rewrite Hl in Hl'. injection Hl' as <-. apply listener_entry in Hi. destruct Hi as (pts & Hg & Hi).
    eexists. exists pts. split; [apply (aget_In Z.eqb Zeqb_ok); rewrite aget_infos, E; reflexivity|]. cbn. splits; auto.
    + apply (aget_In hostEqb hostEqb_ok). exact Hg.
    + apply (In_aget Z.eqb Zeqb_ok); [apply (TP _ _ _ Ha)|exact Hp].
Qed.
End S.

(** After a load the client answers for a host exactly the listeners the meta server reported for it on parts that
    exist, with the replicas of each part; nothing in the answer is empty. *)
Theorem C185_listeners_of_host : forall local c a r, tidy a -> loadData local c a = Ret r -> ldOk r = true -> forall h, exists m, listenersByHost (ldClient r) h = Some m /\
  (forall s p ty peers, listedIn m s p ty peers <-> hasListener a s h p ty /\ hasPart a s p peers) /\
  (forall s ps, In (s, ps) m -> exists p ty peers, listedIn m s p ty peers) /\ NoDup (map fst m).
Proof.
  intros local c a r T H O h. unfold listenersByHost. destruct (load_spaces _ _ _ _ T H O) as (_ & _ & _ & ->). eexists. split; [reflexivity|].
  assert (K : lmOk (doGetListenersMap h (infos (clCache (ldClient r))))) by (rewrite doGet_triples; apply fold_addT, lmOk_nil). splits.
  - intros s p ty peers. rewrite <- (lget_listed _ _ _ _ _ K), lget_In. cbn [lhType lhPeers]. apply (listens_reported local c); assumption.
  - intros s ps I. destruct K as [_ K]. destruct (K _ _ I) as (_ & N & L). destruct ps as [|[p ls] ps]; [contradiction|]. specialize (L p ls (or_introl eq_refl)).
    destruct ls as [|[ty peers] ls]; [contradiction|]. exists p, ty, peers, ((p, mkLH ty peers :: ls) :: ps), (mkLH ty peers :: ls). cbn. auto.
  - apply K.
Qed.
(** The three questions about listeners agree: what is answered for the host is answered for the space and the host, and
    the part has a listener of that type. *)
Theorem C185_answers_agree : forall local c a r, tidy a -> loadData local c a = Ret r -> ldOk r = true -> forall h m, listenersByHost (ldClient r) h = Some m ->
  forall s p ty peers, listedIn m s p ty peers -> (exists l, listenersOn (ldClient r) s h = Some l /\ In (p, ty) l) /\ listenerHost (ldClient r) s p ty <> None /\
    getPartHosts (allocs (clCache (ldClient r))) (s, p) = Some peers.
Proof.
  intros local c a r T H O h m E s p ty peers I. destruct (C185_listeners_of_host local c a r T H O h) as (m' & E' & L & _). rewrite E in E'. injection E' as <-.
  apply L in I. destruct I as [I1 I2]. destruct (C89_listeners local c a r T H O) as (A1 & _ & A3 & _). splits.
  - apply A1. exact I1.
  - intros Q. exact (A3 _ _ _ Q h I1).
  - apply (C89_parts local c a r T H O). exact I2.
Qed.
(** A listener reported for a part that is not in the parts of the space is not in the answer for the host. *)
Theorem C185_every_listener_refuted : exists a r h s p ty m, tidy a /\ loadData None freshClient a = Ret r /\ ldOk r = true /\ hasListener a s h p ty /\
  listenersByHost (ldClient r) h = Some m /\ forall peers, ~ listedIn m s p ty peers.
Proof.
  pose (a := exA [(B "u", B "p")] (Some [(1, B "s"); (2, B "t")]) [] (Some [((B "l", 9), (4, 0))]) (Some [])).
  assert (T : tidy a) by (apply ex_tidy; cbn; split; constructor).
  exists a. eexists. exists (B "l", 9), 1, 4, 0. eexists. split; [exact T|]. split; [vm_compute; reflexivity|]. splits.
  - reflexivity.
  - exists (B "s"), [((B "l", 9), (4, 0))]. splits; [exists [(1, B "s"); (2, B "t")]; cbn; auto|reflexivity|cbn; auto].
  - vm_compute. reflexivity.
  - intros peers (ps & ls & [] & _).
Qed.
(** An index name leads to the tag or edge the index was reported to be on, for as long as ids keep their names (see
    C91_reused_id_refuted for what happens otherwise). *)
Theorem C185_index_owner : forall local l c a r tagName edgeName, Forall (idsKeepNames anTagIdx tagName) (l ++ [a]) -> Forall (idsKeepNames anEdgeIdx edgeName) (l ++ [a]) -> tidy a ->
  loads local freshClient l = Ret c -> loadData local c a = Ret r -> ldOk r = true ->
  (forall s n id, relatedTag (ldClient r) s n = Some id <-> exists it, hasIndex anTagIdx a s it /\ ixName it = n /\ ixSchema it = id) /\
  (forall s n id, relatedEdge (ldClient r) s n = Some id <-> exists it, hasIndex anEdgeIdx a s it /\ ixName it = n /\ ixSchema it = id).
Proof.
  intros local l c a r tn en Ft Fe T L H O. destruct (load_spaces _ _ _ _ T H O) as (_ & _ & _ & R). unfold relatedTag, relatedEdge. rewrite R. split; intros s n id.
  - pose proof (fun it => C91_tag_index_by_name local l c a r tn Ft T L H O s n it) as Q. destruct (tagIndexByName (ldClient r) s n) as [it|].
    + split; [intros [= <-]; exists it; destruct (proj1 (Q it) eq_refl); auto|]. intros (it' & I1 & I2 & <-). pose proof (proj2 (Q it') (conj I1 I2)) as Y. injection Y as ->. reflexivity.
    + split; [discriminate|]. intros (it' & I1 & I2 & <-). discriminate (proj2 (Q it') (conj I1 I2)).
  - pose proof (fun it => C91_edge_index_by_name local l c a r en Fe T L H O s n it) as Q. destruct (edgeIndexByName (ldClient r) s n) as [it|].
    + split; [intros [= <-]; exists it; destruct (proj1 (Q it) eq_refl); auto|]. intros (it' & I1 & I2 & <-). pose proof (proj2 (Q it') (conj I1 I2)) as Y. injection Y as ->. reflexivity.
    + split; [discriminate|]. intros (it' & I1 & I2 & <-). discriminate (proj2 (Q it') (conj I1 I2)).
Qed.
(** Before the first load has succeeded there is no answer to any of them. *)
Theorem C185_not_before : forall c h s n, clReady c = false -> listenersByHost c h = None /\ relatedTag c s n = None /\ relatedEdge c s n = None.
Proof. intros c h s n R. unfold listenersByHost, relatedTag, relatedEdge. rewrite R. auto. Qed.

Example C185_ex : tidy ex2 /\ exists r m, loadData None freshClient ex2 = Ret r /\ ldOk r = true /\ listenersByHost (ldClient r) (B "l", 9) = Some m /\
  listedIn m 1 1 0 [(B "h1", 1); (B "h2", 1)] /\ relatedTag (ldClient r) 1 (B "j") = Some 1 /\ relatedEdge (ldClient r) 1 (B "j") = None.
Proof.
  split; [apply ex_tidy; cbn; split; repeat constructor; cbn; intuition discriminate|]. do 2 eexists. split; [vm_compute; reflexivity|]. splits; try (vm_compute; reflexivity).
  do 2 eexists. splits; [left; reflexivity|left; reflexivity|left; reflexivity].
Qed.
Print Assumptions C185_listeners_of_host. Print Assumptions C185_answers_agree. Print Assumptions C185_every_listener_refuted. Print Assumptions C185_index_owner. Print Assumptions C185_not_before.
