(** Properties C89 and C90: what a load of the metadata cache takes over, and what a failed one leaves. *)
From Coq Require Import String List.
From Verif Require Import Prelude Trans ValueBase ValueProofs AssocModel LeaderModel DiffModel DiffProps SchemaModel SchemaProps SchemaLoadProps
  MetaCacheModel MetaCacheProofs.
Import ListNotations.
Open Scope Z_scope.

(** * Specification: what the meta server said *)
Definition hasSpace (a : answers) (s : Z) (n : str) : Prop := exists sp, anSpaces a = Some sp /\ In (s, n) sp.
Definition hasPart (a : answers) (s p : Z) (hs : list host) : Prop :=
  exists n alloc terms, hasSpace a s n /\ anParts a s = Some (alloc, terms) /\ In (p, hs) alloc.
Definition hasTerm (a : answers) (s p t : Z) : Prop :=
  exists n alloc terms, hasSpace a s n /\ anParts a s = Some (alloc, terms) /\ In (p, t) terms.
Definition hasIndex (sel : answers -> Z -> option (list idxItem)) (a : answers) (s : Z) (it : idxItem) : Prop :=
  exists n l, hasSpace a s n /\ sel a s = Some l /\ In it l.
Definition hasListener (a : answers) (s : Z) (h : host) (p ty : Z) : Prop :=
  exists n l, hasSpace a s n /\ anListeners a s = Some l /\ In (h, (p, ty)) l.
Definition hasUser (a : answers) (u pw : str) : Prop := exists us, anUsers a = Some us /\ In (u, pw) us.
(** Nothing is listed twice. *)
Definition tidy (a : answers) : Prop :=
  (forall us, anUsers a = Some us -> NoDup (map fst us)) /\
  (forall sp, anSpaces a = Some sp -> NoDup (map fst sp) /\ NoDup (map snd sp)) /\
  (forall s alloc terms, anParts a s = Some (alloc, terms) -> NoDup (map fst alloc) /\ NoDup (map fst terms)) /\
  (forall s l, anTagIdx a s = Some l -> NoDup (map ixId l) /\ NoDup (map ixName l)) /\
  (forall s l, anEdgeIdx a s = Some l -> NoDup (map ixId l) /\ NoDup (map ixName l)).
(** Every request of a load is answered. *)
Definition answered (a : answers) : Prop :=
  (exists us, anUsers a = Some us /\ forall u pw, In (u, pw) us -> anRoles a u <> None) /\
  anFtClients a <> None /\ anFtIndexes a <> None /\ anHosts a <> None /\
  exists sp, anSpaces a = Some sp /\ forall s n, In (s, n) sp -> anParts a s <> None /\ anTags a s <> None /\ anEdges a s <> None /\
    anTagIdx a s <> None /\ anEdgeIdx a s <> None /\ anListeners a s <> None /\ anSpace a n <> None.

(** * Lemmas *)
Lemma aget_map {V W} (f : V -> W) (c : list (Z * V)) s : aget Z.eqb s (map (fun e => (fst e, f (snd e))) c) = option_map f (aget Z.eqb s c).
Proof. induction c as [|[k v] c IH]; cbn; [reflexivity|]. destruct (s =? k); [reflexivity|exact IH]. Qed.

Lemma aget_allocs c s : aget Z.eqb s (allocs c) = option_map (fun e => partsAlloc (enInfo e)) (aget Z.eqb s c).
Proof. apply (aget_map (fun e => partsAlloc (enInfo e))). Qed.
Lemma aget_infos c s : aget Z.eqb s (infos c) = option_map enInfo (aget Z.eqb s c).
Proof. apply (aget_map enInfo). Qed.

Lemma load_spaces local c a r : tidy a -> loadData local c a = Ret r -> ldOk r = true ->
  (forall s n, hasSpace a s n -> exists e, aget Z.eqb s (clCache (ldClient r)) = Some e /\ entryFor a s n e) /\
  (forall s e, aget Z.eqb s (clCache (ldClient r)) = Some e -> exists n, hasSpace a s n /\ entryFor a s n e) /\
  (forall s n, aget strEqb n (clNames (ldClient r)) = Some s <-> hasSpace a s n) /\ clReady (ldClient r) = true.
Proof.
  intros T H O. destruct (load_inv local c a r H O) as (us & rs & ps & fc & fi & sp & st & items & _ & _ & _ & _ & Hsp & _ & L & E & _).
  rewrite E. cbn. destruct T as (_ & T & _). destruct (T sp Hsp) as [N1 N2].
  destruct (loop_cache _ _ _ _ L N1) as [C1 C2]; [reflexivity|]. destruct (loop_names _ _ _ _ L N2) as [D1 D2]; [reflexivity|]. cbn in C2, D2.
  splits; auto.
  - intros s n (sp' & Hsp' & Hin). rewrite Hsp in Hsp'. injection Hsp' as <-. apply C1. assumption.
  - intros s e He. destruct (in_dec Z.eq_dec s (map fst sp)) as [Hi|Hi]; [|rewrite C2 in He by assumption; discriminate].
    apply in_map_iff in Hi. destruct Hi as ([s' n] & <- & Hi). cbn in *. destruct (C1 s' n Hi) as (e' & He' & Q). rewrite He in He'. injection He' as <-.
    exists n. split; [exists sp; auto|exact Q].
  - intros s n. split.
    + intros Hn. destruct (in_dec (list_eq_dec Z.eq_dec) n (map snd sp)) as [Hi|Hi]; [|rewrite D2 in Hn by assumption; discriminate].
      apply in_map_iff in Hi. destruct Hi as ([s' n'] & <- & Hi). cbn in *. rewrite (D1 _ _ Hi) in Hn. injection Hn as <-. exists sp. auto.
    + intros (sp' & Hsp' & Hin). rewrite Hsp in Hsp'. injection Hsp' as <-. apply D1. assumption.
Qed.
Lemma hasSpace_unique a s n n' : tidy a -> hasSpace a s n -> hasSpace a s n' -> n = n'.
Proof.
  intros (_ & T & _) (sp & H & Hi) (sp' & H' & Hi'). rewrite H in H'. injection H' as <-. destruct (T sp H) as [N _].
  assert (A := In_aget Z.eqb Zeqb_ok _ _ _ N Hi). assert (B := In_aget Z.eqb Zeqb_ok _ _ _ N Hi'). congruence.
Qed.

(** * C89 *)
(** Spaces by name and by id *)
Theorem C89_spaces : forall local c a r, tidy a -> loadData local c a = Ret r -> ldOk r = true -> let c' := ldClient r in
  (forall n s, spaceIdByName c' n = Some s <-> hasSpace a s n) /\
  (forall s d, spaceNameById c' s = Some d <-> exists n sd, hasSpace a s n /\ anSpace a n = Some sd /\ sdName sd = d).
Proof.
  intros local c a r T H O c'. destruct (load_spaces _ _ _ _ T H O) as (S1 & S2 & S3 & R). subst c'. unfold spaceIdByName, spaceNameById. rewrite R. split; [intros n s; apply S3|].
  intros s d. split.
  - destruct (aget Z.eqb s (clCache (ldClient r))) as [e|] eqn:E; [|discriminate]. intros X. injection X as <-. destruct (S2 _ _ E) as (n & Hn & (alloc & terms & ti & ei & ls & sd & _ & _ & _ & _ & Hd & ->)).
    exists n, sd. auto.
  - intros (n & sd & Hn & Hd & <-). destruct (S1 _ _ Hn) as (e & -> & (alloc & terms & ti & ei & ls & sd' & _ & _ & _ & _ & Hd' & ->)). cbn. congruence.
Qed.

(** Replicas, number of parts and terms *)
Theorem C89_parts : forall local c a r, tidy a -> loadData local c a = Ret r -> ldOk r = true -> let c' := ldClient r in
  (forall s p hs, getPartHosts (allocs (clCache c')) (s, p) = Some hs <-> hasPart a s p hs) /\
  (forall s k, partsNum (allocs (clCache c')) s = Some k <-> exists n alloc terms, hasSpace a s n /\ anParts a s = Some (alloc, terms) /\ k = wrap32 (Z.of_nat (List.length alloc))) /\
  (forall s p t, hasTerm a s p t -> termOf c' s p = t) /\ (forall s p, (forall t, ~ hasTerm a s p t) -> termOf c' s p = -1).
Proof.
  intros local c a r T H O c'. destruct (load_spaces _ _ _ _ T H O) as (S1 & S2 & S3 & R). subst c'. unfold getPartHosts, partsNum, termOf. cbn [fst snd].
  assert (TP : forall s alloc terms, anParts a s = Some (alloc, terms) -> NoDup (map fst alloc) /\ NoDup (map fst terms)) by (destruct T as (_ & _ & T & _); exact T).
  splits.
  - intros s p hs. rewrite aget_allocs. split.
    + destruct (aget Z.eqb s (clCache (ldClient r))) as [e|] eqn:E; [|discriminate]. cbn. destruct (S2 _ _ E) as (n & Hn & (alloc & terms & ti & ei & ls & sd & Ha & _ & _ & _ & _ & ->)).
      cbn. intros Hg. exists n, alloc, terms. splits; auto. apply (aget_In Z.eqb Zeqb_ok). exact Hg.
    + intros (n & alloc & terms & Hn & Ha & Hi). destruct (S1 _ _ Hn) as (e & -> & (alloc' & terms' & ti & ei & ls & sd & Ha' & _ & _ & _ & _ & ->)). cbn.
      rewrite Ha in Ha'. injection Ha' as <- <-. apply (In_aget Z.eqb Zeqb_ok); [apply (TP _ _ _ Ha)|exact Hi].
  - intros s k. rewrite aget_allocs. split.
    + destruct (aget Z.eqb s (clCache (ldClient r))) as [e|] eqn:E; [|discriminate]. cbn. destruct (S2 _ _ E) as (n & Hn & (alloc & terms & ti & ei & ls & sd & Ha & _ & _ & _ & _ & ->)).
      cbn. intros X. injection X as <-. exists n, alloc, terms. auto.
    + intros (n & alloc & terms & Hn & Ha & ->). destruct (S1 _ _ Hn) as (e & -> & (alloc' & terms' & ti & ei & ls & sd & Ha' & _ & _ & _ & _ & ->)). cbn.
      rewrite Ha in Ha'. injection Ha' as <- <-. reflexivity.
  - intros s p t (n & alloc & terms & Hn & Ha & Hi). destruct (S1 _ _ Hn) as (e & -> & (alloc' & terms' & ti & ei & ls & sd & Ha' & _ & _ & _ & _ & ->)). cbn.
    rewrite Ha in Ha'. injection Ha' as <- <-. rewrite (In_aget Z.eqb Zeqb_ok p t terms); [reflexivity|apply (TP _ _ _ Ha)|exact Hi].
  - intros s p Hno. destruct (aget Z.eqb s (clCache (ldClient r))) as [e|] eqn:E; [|reflexivity].
    destruct (S2 _ _ E) as (n & Hn & (alloc & terms & ti & ei & ls & sd & Ha & _ & _ & _ & _ & ->)). cbn. destruct (aget Z.eqb p terms) as [t|] eqn:F; [|reflexivity].
    exfalso. apply (Hno t). exists n, alloc, terms. splits; auto. apply (aget_In Z.eqb Zeqb_ok). exact F.
Qed.

(** Accounts: a password is accepted exactly when it is the listed one; unknown accounts have no roles. *)
Theorem C89_accounts : forall local c a r, tidy a -> loadData local c a = Ret r -> ldOk r = true -> let c' := ldClient r in
  (forall u pw, authCheck c' u pw = true <-> hasUser a u pw) /\
  (forall u, shadowAccount c' u = true <-> exists pw, hasUser a u pw) /\
  (forall u, (exists pw, hasUser a u pw) -> anRoles a u = Some (rolesOf c' u)) /\
  (forall u, (forall pw, ~ hasUser a u pw) -> rolesOf c' u = []).
Proof.
  intros local c a r T H O c'. subst c'. destruct (load_inv local c a r H O) as (us & rs & ps & fc & fi & sp & st & items & Hus & LU & _ & _ & _ & _ & _ & E & _).
  unfold authCheck, shadowAccount, rolesOf. rewrite E. cbn. destruct T as (T & _). specialize (T us Hus).
  destruct (loadUsers_get _ _ _ _ _ _ LU T) as [U1 U2]. cbn in U2.
  assert (HU : forall u pw, hasUser a u pw <-> In (u, pw) us).
  { intros u pw. split; [intros (us' & A & B); congruence|intros B; exists us; auto]. }
  assert (D : forall u, (exists pw, In (u, pw) us) \/ ~ In u (map fst us)).
  { intros u. destruct (in_dec (list_eq_dec Z.eq_dec) u (map fst us)) as [Hi|Hi]; [|auto]. left. apply in_map_iff in Hi. destruct Hi as ([u' pw] & <- & Hi). eauto. }
  splits.
  - intros u pw. rewrite HU. split.
    + destruct (D u) as [[pw' Hi] | Hi].
      * destruct (U1 _ _ Hi) as (rr & _ & _ & ->). rewrite strEqb_eq. intros <-. exact Hi.
      * destruct (U2 _ Hi) as [_ ->]. discriminate.
    + intros Hi. destruct (U1 _ _ Hi) as (rr & _ & _ & ->). apply strEqb_refl.
  - intros u. split.
    + destruct (D u) as [[pw' Hi] | Hi]; [intros _; exists pw'; apply HU; exact Hi|]. destruct (U2 _ Hi) as [_ ->]. discriminate.
    + intros [pw Hi]. apply HU in Hi. destruct (U1 _ _ Hi) as (rr & _ & _ & ->). reflexivity.
  - intros u [pw Hi]. apply HU in Hi. destruct (U1 _ _ Hi) as (rr & -> & -> & _). reflexivity.
  - intros u Hno. destruct (D u) as [[pw' Hi] | Hi]; [exfalso; apply (Hno pw'); apply HU; exact Hi|]. destruct (U2 _ Hi) as [-> _]. reflexivity.
Qed.

(** Indexes by id *)
Theorem C89_indexes_by_id : forall local c a r, tidy a -> loadData local c a = Ret r -> ldOk r = true -> let c' := ldClient r in
  (forall s id it, tagIndexById c' s id = Some it <-> hasIndex anTagIdx a s it /\ ixId it = id) /\
  (forall s id it, edgeIndexById c' s id = Some it <-> hasIndex anEdgeIdx a s it /\ ixId it = id) /\
  (forall s id, indexed c' enTagIdx s id = true <-> exists it, hasIndex anTagIdx a s it /\ ixId it = id) /\
  (forall s id, indexed c' enEdgeIdx s id = true <-> exists it, hasIndex anEdgeIdx a s it /\ ixId it = id).
Proof.
  intros local c a r T H O c'. destruct (load_spaces _ _ _ _ T H O) as (S1 & S2 & S3 & R). subst c'.
  destruct T as (_ & _ & _ & T1 & T2).
  assert (A : forall s id it, tagIndexById (ldClient r) s id = Some it <-> hasIndex anTagIdx a s it /\ ixId it = id).
  { intros s id it. unfold tagIndexById, indexById. rewrite R. split.
    - destruct (aget Z.eqb s (clCache (ldClient r))) as [e|] eqn:E; [|discriminate]. destruct (S2 _ _ E) as (n & Hn & (alloc & terms & ti & ei & ls & sd & _ & Ht & _ & _ & _ & ->)).
      cbn. rewrite (addIdx_In ti id it (proj1 (T1 _ _ Ht))). intros [Hi <-]. split; [exists n, ti; auto|reflexivity].
    - intros [(n & l & Hn & Hl & Hi) <-]. destruct (S1 _ _ Hn) as (e & -> & (alloc & terms & ti & ei & ls & sd & _ & Ht & _ & _ & _ & ->)). cbn.
      rewrite Hl in Ht. injection Ht as <-. apply addIdx_In; [apply (T1 _ _ Hl)|auto]. }
  assert (B : forall s id it, edgeIndexById (ldClient r) s id = Some it <-> hasIndex anEdgeIdx a s it /\ ixId it = id).
  { intros s id it. unfold edgeIndexById, indexById. rewrite R. split.
    - destruct (aget Z.eqb s (clCache (ldClient r))) as [e|] eqn:E; [|discriminate]. destruct (S2 _ _ E) as (n & Hn & (alloc & terms & ti & ei & ls & sd & _ & _ & Ht & _ & _ & ->)).
      cbn. rewrite (addIdx_In ei id it (proj1 (T2 _ _ Ht))). intros [Hi <-]. split; [exists n, ei; auto|reflexivity].
    - intros [(n & l & Hn & Hl & Hi) <-]. destruct (S1 _ _ Hn) as (e & -> & (alloc & terms & ti & ei & ls & sd & _ & _ & Ht & _ & _ & ->)). cbn.
      rewrite Hl in Ht. injection Ht as <-. apply addIdx_In; [apply (T2 _ _ Hl)|auto]. }
  splits; auto; intros s id; unfold indexed.
  - split.
    + intros X. specialize (A s id). unfold tagIndexById, indexById in A. rewrite R in A. destruct (aget Z.eqb s (clCache (ldClient r))) as [e|]; [|discriminate].
      destruct (aget Z.eqb id (enTagIdx e)) as [it|]; [|discriminate]. exists it. apply A. reflexivity.
    + intros [it X]. apply A in X. unfold tagIndexById, indexById in X. rewrite R in X. destruct (aget Z.eqb s (clCache (ldClient r))) as [e|]; [|discriminate]. rewrite X. reflexivity.
  - split.
    + intros X. specialize (B s id). unfold edgeIndexById, indexById in B. rewrite R in B. destruct (aget Z.eqb s (clCache (ldClient r))) as [e|]; [|discriminate].
      destruct (aget Z.eqb id (enEdgeIdx e)) as [it|]; [|discriminate]. exists it. apply B. reflexivity.
    + intros [it X]. apply B in X. unfold edgeIndexById, indexById in X. rewrite R in X. destruct (aget Z.eqb s (clCache (ldClient r))) as [e|]; [|discriminate]. rewrite X. reflexivity.
Qed.

(** Listeners of a space, by host and by part *)
Lemma listener_entry ls h p ty : (exists l, aget hostEqb h (fold_left addListenerOf ls []) = Some l /\ In (p, ty) l) <-> In (h, (p, ty)) ls.
Proof.
  pose proof (addListenerOf_get ls [] h) as G. cbn [aget app] in G. rewrite <- (app_nil_l (map snd _)) in G. split.
  - intros (l & Hl & Hi). rewrite Hl in G. cbn in G. subst l. apply in_map_iff in Hi. destruct Hi as ([h' pt] & E & Hi). apply filter_In in Hi. destruct Hi as [Hi Hh].
    apply hostEqb_ok in Hh. cbn in *. subst. exact Hi.
  - intros Hi. assert (X : In (p, ty) (map snd (filter (fun l => hostEqb h (fst l)) ls))).
    { apply in_map_iff. exists (h, (p, ty)). split; [reflexivity|]. apply filter_In. split; [exact Hi|]. apply hostEqb_ok. reflexivity. }
    cbn in G. rewrite <- G in X. destruct (aget hostEqb h (fold_left addListenerOf ls [])) as [l|]; [eauto|destruct X].
Qed.
Theorem C89_listeners : forall local c a r, tidy a -> loadData local c a = Ret r -> ldOk r = true -> let c' := ldClient r in
  (forall s h p ty, (exists l, listenersOn c' s h = Some l /\ In (p, ty) l) <-> hasListener a s h p ty) /\
  (forall s p ty h, listenerHost c' s p ty = Some h -> hasListener a s h p ty) /\
  (forall s p ty, listenerHost c' s p ty = None -> forall h, ~ hasListener a s h p ty) /\
  (forall s p h ty, (exists l, remoteListeners (clCache c') s p = Some l /\ In (h, ty) l) <-> hasListener a s h p ty).
Proof.
  intros local c a r T H O c'. destruct (load_spaces _ _ _ _ T H O) as (S1 & S2 & S3 & R). subst c'. unfold listenersOn, listenerHost, remoteListeners. rewrite R.
  assert (K : forall ls h p ty l, In (h, l) (fold_left addListenerOf ls []) -> In (p, ty) l -> In (h, (p, ty)) ls).
  { intros ls h p ty l Hl Hi. apply listener_entry. exists l. split; [|exact Hi]. apply (In_aget hostEqb hostEqb_ok); [|exact Hl]. apply addListenerOf_keys. constructor. }
  assert (K' : forall ls h p ty, In (h, (p, ty)) ls -> exists l, In (h, l) (fold_left addListenerOf ls []) /\ In (p, ty) l).
  { intros ls h p ty Hi. apply listener_entry in Hi. destruct Hi as (l & Hl & Hi). exists l. split; [|exact Hi]. apply (aget_In hostEqb hostEqb_ok). exact Hl. }
  splits.
  - intros s h p ty. split.
    + intros (l & Hl & Hi). destruct (aget Z.eqb s (clCache (ldClient r))) as [e|] eqn:E; [|discriminate].
      destruct (S2 _ _ E) as (n & Hn & (alloc & terms & ti & ei & ls & sd & _ & _ & _ & Ht & _ & ->)). cbn in Hl. exists n, ls. splits; auto. apply listener_entry. eauto.
    + intros (n & ls & Hn & Hls & Hi). destruct (S1 _ _ Hn) as (e & -> & (alloc & terms & ti & ei & ls' & sd & _ & _ & _ & Ht & _ & ->)). cbn.
      rewrite Hls in Ht. injection Ht as <-. apply listener_entry. exact Hi.
  - intros s p ty h. destruct (aget Z.eqb s (clCache (ldClient r))) as [e|] eqn:E; [|discriminate].
    destruct (S2 _ _ E) as (n & Hn & (alloc & terms & ti & ei & ls & sd & _ & _ & _ & Ht & _ & ->)). cbn.
    destruct (find _ _) as [[h' l]|] eqn:F; [|discriminate]. cbn. intros X. injection X as ->. apply find_some in F. destruct F as [F1 F2]. cbn in F2.
    apply existsb_exists in F2. destruct F2 as ([p' ty'] & Hi & F2). cbn in F2. apply andb_true_iff in F2. rewrite !Z.eqb_eq in F2. destruct F2 as [-> ->].
    exists n, ls. splits; auto. eapply K; eassumption.
  - intros s p ty Hnone h (n & ls & Hn & Hls & Hi). destruct (S1 _ _ Hn) as (e & E & (alloc & terms & ti & ei & ls' & sd & _ & _ & _ & Ht & _ & ->)). rewrite E in Hnone. cbn in Hnone.
    rewrite Hls in Ht. injection Ht as <-. destruct (find _ _) as [x|] eqn:F; [discriminate|]. destruct (K' _ _ _ _ Hi) as (l & Hl & Hi').
    pose proof (find_none _ _ F _ Hl) as X. cbn in X. rewrite <- not_true_iff_false in X. apply X. apply existsb_exists. exists (p, ty). split; [exact Hi'|]. cbn. rewrite !Z.eqb_refl. reflexivity.
  - intros s p h ty.
    assert (Q : forall ls, In (h, ty) (flat_map (fun h => map (fun l => (fst h, snd l)) (filter (fun l => fst l =? p) (snd h))) (fold_left addListenerOf ls [])) <-> In (h, (p, ty)) ls).
    { intros ls. rewrite in_flat_map. split.
      - intros ([h' l] & Hl & Hi). cbn in Hi. apply in_map_iff in Hi. destruct Hi as ([p' ty'] & X & Hi). cbn in X. injection X as -> ->. apply filter_In in Hi. destruct Hi as [Hi Hp].
        cbn in Hp. apply Z.eqb_eq in Hp. subst p'. eapply K; eassumption.
      - intros Hi. destruct (K' _ _ _ _ Hi) as (l & Hl & Hi'). exists (h, l). split; [exact Hl|]. cbn. apply in_map_iff. exists (p, ty). split; [reflexivity|]. apply filter_In. split; [exact Hi'|]. cbn. apply Z.eqb_refl. }
    split.
    + intros (l & Hl & Hi). destruct (aget Z.eqb s (clCache (ldClient r))) as [e|] eqn:E; [|discriminate].
      destruct (S2 _ _ E) as (n & Hn & (alloc & terms & ti & ei & ls & sd & _ & _ & _ & Ht & _ & ->)). cbn in Hl. exists n, ls. splits; auto. apply Q.
      destruct (flat_map _ _) as [|x xs]; [discriminate|]. injection Hl as <-. exact Hi.
    + intros (n & ls & Hn & Hls & Hi). destruct (S1 _ _ Hn) as (e & -> & (alloc & terms & ti & ei & ls' & sd & _ & _ & _ & Ht & _ & ->)). cbn.
      rewrite Hls in Ht. injection Ht as <-. apply Q in Hi. destruct (flat_map _ _) as [|x xs]; [destruct Hi|]. eauto.
Qed.

(** Schemas: the cache answers as C60, C70 and C71 say for the items listed for each space. *)
Theorem C89_schemas : forall local c a r, tidy a -> loadData local c a = Ret r -> ldOk r = true -> let sc := clSchemas (ldClient r) in
  forall s n, hasSpace a s n -> exists ts es, anTags a s = Some ts /\ anEdges a s = Some es /\
    (newToOld ts -> usable ts -> looksUp ts (schemaFromCache (scTags sc) s)) /\
    (newToOld es -> usable es -> looksUp es (schemaFromCache (scEdges sc) s)) /\
    (oneToOne ts -> inverseMaps ts (idByName (scTagMaps sc) s) (nameById (scTagMaps sc) s)) /\
    (oneToOne es -> inverseMaps es (idByName (scEdgeMaps sc) s) (nameById (scEdgeMaps sc) s)) /\
    (forall id v, latestVersion (scTagMaps sc) s id = Some v <-> maxVersion ts id v).
Proof.
  intros local c a r T H O sc s n Hn. subst sc. destruct (load_inv local c a r H O) as (us & rs & ps & fc & fi & sp & st & items & _ & _ & _ & _ & Hsp & _ & L & E & _).
  rewrite E. cbn. destruct (loop_schemas _ _ _ _ L) as (l & [L1 L2] & L3). cbn [lsSchemas] in L3. fold (loadAll l) in L3.
  destruct Hn as (sp' & Hsp' & Hi). rewrite Hsp in Hsp'. injection Hsp' as <-. destruct T as (_ & T & _). destruct (T _ Hsp) as [N _]. rewrite <- L1 in N.
  assert (Hl : In s (map fst l)) by (rewrite L1; apply in_map_iff; exists (s, n); auto). apply in_map_iff in Hl. destruct Hl as ([s' [ts es]] & Es & Hl). cbn in Es. subst s'.
  destruct (L2 _ _ _ Hl) as [Ht He]. exists ts, es. splits; auto.
  - intros A B. apply (C70_tag_schemas l _ N L3 s ts es Hl A B).
  - intros A B. apply (C70_edge_schemas l _ N L3 s ts es Hl A B).
  - intros A. apply (C71_names_and_ids l _ N L3 s ts es Hl). exact A.
  - intros A. apply (C71_names_and_ids l _ N L3 s ts es Hl). exact A.
  - intros id v. apply (C60_tag_latest_is_max l _ N L3 s ts es Hl).
Qed.

(** The storage hosts *)
Theorem C89_hosts : forall local c a r items, loadData local c a = Ret r -> ldOk r = true -> anHosts a = Some items ->
  storageHosts (ldClient r) = Some (map fst items).
Proof.
  intros local c a r items H O Hi. destruct (load_inv local c a r H O) as (us & rs & ps & fc & fi & sp & st & items' & _ & _ & _ & _ & _ & Hi' & _ & E & _).
  rewrite E. unfold storageHosts. cbn. congruence.
Qed.

(** * Histories of loads, and who succeeds *)
Definition goodSchemas (a : answers) : Prop := forall s ts, anTags a s = Some ts \/ anEdges a s = Some ts -> newToOld ts /\ usable ts.
Definition cacheOk (c : list (Z * entry)) : Prop := DiffProps.loaded (infos c).
Lemma cacheOk_nil : cacheOk [].
Proof. split; [constructor|intros ? ? []]. Qed.
Lemma aadd_infos s e c : infos (aadd Z.eqb s e c) = aadd Z.eqb s (enInfo e) (infos c).
Proof.
  unfold aadd. rewrite aget_infos. destruct (aget Z.eqb s c); [reflexivity|]. cbn. unfold infos. rewrite map_app. reflexivity.
Qed.
Lemma aadd_loaded s si c : DiffProps.loaded c -> NoDup (akeys (partsAlloc si)) -> partsOnHost si = reverse (partsAlloc si) -> DiffProps.loaded (aadd Z.eqb s si c).
Proof.
  intros [N H] Hn Hr. unfold aadd. destruct (aget Z.eqb s c) eqn:E; [split; assumption|]. apply (aget_None Z.eqb Zeqb_ok) in E. split.
  - unfold akeys in *. rewrite map_app. apply NoDup_app_disj; [exact N|repeat constructor; intros []|]. intros x Hx [<- | []]. contradiction.
  - intros s' si' Hin. apply in_app_or in Hin. destruct Hin as [Hin | [X | []]]; [eauto|]. injection X as <- <-. auto.
Qed.
Lemma loop_cacheOk a sp : tidy a -> forall st st', loadLoop a st sp = Ret (st', true) -> cacheOk (lsCache st) -> cacheOk (lsCache st').
Proof.
  intros T. induction sp as [|[s n] rest IH]; intros st st' H C; apply loop_inv in H; [subst; exact C|].
  destruct H as (st1 & H1 & H2). apply loadSpace_inv in H1. destruct H1 as (e & ts & es & ti & ei & He & _ & _ & _ & _ & Hc & _).
  apply (IH _ _ H2). unfold cacheOk. rewrite Hc, aadd_infos. destruct He as (alloc & terms & ti' & ei' & ls & d & Ha & _ & _ & _ & _ & ->).
  apply aadd_loaded; [exact C| |reflexivity]. cbn. destruct T as (_ & _ & T & _). apply (T _ _ _ Ha).
Qed.
Lemma load_cacheOk local c a r : tidy a -> loadData local c a = Ret r -> cacheOk (clCache c) -> cacheOk (clCache (ldClient r)).
Proof.
  intros T H C. destruct (ldOk r) eqn:O.
  - destruct (load_inv local c a r H O) as (us & rs & ps & fc & fi & sp & st & items & _ & _ & _ & _ & _ & _ & L & E & _). rewrite E. cbn. apply (loop_cacheOk _ _ T _ _ L). apply cacheOk_nil.
  - destruct (load_fail_inv local c a r H O) as (_ & _ & _ & _ & -> & _). exact C.
Qed.
Lemma loads_cacheOk local l : forall c c', Forall tidy l -> loads local c l = Ret c' -> cacheOk (clCache c) -> cacheOk (clCache c').
Proof.
  induction l as [|a l IH]; intros c c' T H C; cbn [loads] in H; [apply Ret_inj in H; subst; exact C|].
  inversion T as [|? ? T1 T2]; subst. destruct (loadData local c a) as [r| | |] eqn:E; try discriminate. cbn [obind] in H.
  apply (IH _ _ T2 H). eapply load_cacheOk; eassumption.
Qed.

Lemma loadUsers_total roles us : (forall u pw, In (u, pw) us -> roles u <> None) -> forall rs ps, exists x, loadUsers roles us rs ps = Some x.
Proof.
  induction us as [|[u pw] us IH]; intros H rs ps; cbn [loadUsers]; [eauto|]. destruct (roles u) eqn:E; [|exfalso; apply (H u pw); cbn; auto].
  apply IH. intros u' pw' Hi. apply (H u' pw'). cbn. auto.
Qed.
Lemma loop_total a sp : goodSchemas a ->
  (forall s n, In (s, n) sp -> anParts a s <> None /\ anTags a s <> None /\ anEdges a s <> None /\ anTagIdx a s <> None /\ anEdgeIdx a s <> None /\ anListeners a s <> None /\ anSpace a n <> None) ->
  forall st, exists st', loadLoop a st sp = Ret (st', true).
Proof.
  intros G. induction sp as [|[s n] rest IH]; intros H st; cbn [loadLoop]; [eauto|].
  destruct (H s n) as (H1 & H2 & H3 & H4 & H5 & H6 & H7); [cbn; auto|]. unfold loadSpace at 1. cbn [fst snd].
  destruct (anParts a s) as [[alloc terms]|]; [|congruence]. destruct (anTags a s) as [ts|] eqn:Et; [|congruence]. destruct (anEdges a s) as [es|] eqn:Ee; [|congruence].
  destruct (G s ts (or_introl Et)) as [T1 T2]. destruct (G s es (or_intror Ee)) as [E1 E2].
  assert (L : exists sc, loadSchemas (lsSchemas st) s ts es = Ret sc).
  { unfold loadSchemas. rewrite loadTags_split, loadEdges_split. destruct (storeAll_items ts T1 T2) as (mt & -> & _). destruct (storeAll_items es E1 E2) as (me & -> & _). cbn [obind]. eauto. }
  destruct L as (sc & ->). cbn [obind].
  destruct (anTagIdx a s); [|congruence]. destruct (anEdgeIdx a s); [|congruence]. destruct (anListeners a s); [|congruence]. destruct (anSpace a n); [|congruence].
  cbn [obind]. apply IH. intros s' n' Hi. apply H. cbn. auto.
Qed.
(** A load whose requests are all answered succeeds, whatever was loaded before; and only such a load does. *)
Theorem C89_load_succeeds : forall local l c a, Forall tidy l -> loads local freshClient l = Ret c -> tidy a -> goodSchemas a -> answered a ->
  exists r, loadData local c a = Ret r /\ ldOk r = true.
Proof.
  intros local l c a Tl Hl T G ((us & Hus & Hr) & Hfc & Hfi & Hh & (sp & Hsp & Hs)).
  assert (C : cacheOk (clCache c)) by (eapply loads_cacheOk; [exact Tl|exact Hl|apply cacheOk_nil]).
  unfold loadData. rewrite Hus. destruct (loadUsers_total (anRoles a) us Hr [] []) as ([rs ps] & ->).
  destruct (anFtClients a) as [fc|]; [|congruence]. destruct (anFtIndexes a) as [fi|]; [|congruence]. rewrite Hsp.
  destruct (loop_total a sp G Hs (mkLS [] [] emptySchemaCache (clTagIdxNames c) (clEdgeIdxNames c))) as (st & L).
  cbn [withFtIndexes withFtClients withUsers clTagIdxNames clEdgeIdxNames]. rewrite L. cbn [obind]. unfold loadEnd. destruct (anHosts a) as [items|]; [|congruence].
  pose proof (loop_cacheOk a sp T _ _ L cacheOk_nil) as C'.
  destruct local as [h|]; [|eexists; split; [reflexivity|reflexivity]]. cbn [clCache withFtIndexes withFtClients withUsers]. unfold diff.
  destruct (doGetPartsMap_spec h _ C') as (pm & -> & _). destruct (doGetPartsMap_spec h _ C) as (pm' & -> & _). cbn [obind]. eexists. split; reflexivity.
Qed.
Theorem C89_success_needs_answers : forall local c a r, loadData local c a = Ret r -> ldOk r = true -> answered a.
Proof.
  intros local c a r H O. destruct (load_inv local c a r H O) as (us & rs & ps & fc & fi & sp & st & items & H1 & H2 & H3 & H4 & H5 & H6 & L & _ & _).
  unfold answered. splits; try congruence.
  - exists us. split; [exact H1|]. assert (U : forall us rs ps x, loadUsers (anRoles a) us rs ps = Some x -> forall u pw, In (u, pw) us -> anRoles a u <> None).
    { clear. induction us as [|[u pw] us IH]; intros rs ps x Hx u' pw' Hin; [destruct Hin|]. cbn [loadUsers] in Hx. destruct (anRoles a u) eqn:E; [|discriminate].
      destruct Hin as [X | Hin]; [injection X as <- <-; congruence|eapply IH; eassumption]. }
    eapply U. exact H2.
  - exists sp. split; [exact H5|]. clear -L. revert L. generalize (mkLS [] [] emptySchemaCache (clTagIdxNames c) (clEdgeIdxNames c)). induction sp as [|[s n] rest IH]; intros st0 L; [intros ? ? []|].
    apply loop_inv in L. destruct L as (st1 & L1 & L2). intros s' n' [X | X]; [|eapply IH; eassumption]. injection X as <- <-.
    apply loadSpace_inv in L1. destruct L1 as (e & ts & es & ti & ei & (alloc & terms & ti' & ei' & ls & d & A & B & C & D & E & _) & F & G & _). splits; congruence.
Qed.

(** What the registered listener is told over all loads takes it from nothing to the current assignment (C52). *)
Fixpoint loadsTold (local : host) (c : client) (l : list answers) : outcome (client * list note) :=
  match l with
  | [] => Ret (c, [])
  | a :: l' => let* r := loadData (Some local) c a in let* (c', ns) := loadsTold local (ldClient r) l' in Ret (c', tdParts (ldTold r) ++ ns)
  end.
Theorem C89_listener_follows : forall h l c ns, Forall tidy l -> loadsTold h freshClient l = Ret (c, ns) ->
  exists m, followsAll (mkM (fun _ => false) (fun _ _ => None)) ns m /\ describes h (infos (clCache c)) m.
Proof.
  intros h l c ns T H.
  assert (K : forall l c0 c ns m0, Forall tidy l -> loadsTold h c0 l = Ret (c, ns) -> cacheOk (clCache c0) -> describes h (infos (clCache c0)) m0 ->
    exists m, followsAll m0 ns m /\ describes h (infos (clCache c)) m).
  { clear. induction l as [|a l IH]; intros c0 c ns m0 T H C D; cbn [loadsTold] in H.
    - apply Ret_inj in H. injection H as <- <-. exists m0. split; [split; auto|exact D].
    - inversion T as [|? ? T1 T2]; subst. destruct (loadData (Some h) c0 a) as [r| | |] eqn:E; try discriminate. cbn [obind] in H.
      destruct (loadsTold h (ldClient r) l) as [[c1 ns1]| | |] eqn:E1; try discriminate. cbn [obind] in H. apply Ret_inj in H. injection H as <- <-.
      pose proof (load_cacheOk _ _ _ _ T1 E C) as C1. destruct (ldOk r) eqn:O.
      + destruct (load_inv _ _ _ _ E O) as (us & rs & ps & fc & fi & sp & st & items & _ & _ & _ & _ & _ & _ & L & Er & (d & pm & Ed & _ & Et)).
        rewrite Et. cbn [tdParts]. rewrite Er in C1. cbn [clCache] in C1.
        destruct (C52_notifications_reproduce h _ _ m0 C C1 D) as (ns' & mn & En & F & D').
        rewrite Ed in En. apply Ret_inj in En. subst ns'. destruct (IH (ldClient r) c1 ns1 mn T2 E1) as (m & Fm & Dm); [rewrite Er; exact C1|rewrite Er; exact D'|].
        exists m. split; [eapply followsAll_app; eassumption|exact Dm].
      + destruct (load_fail_inv _ _ _ _ E O) as (Ht & _ & _ & _ & Ec & _). rewrite Ht. cbn [nothingTold tdParts app]. apply (IH (ldClient r)); auto. rewrite Ec. exact D. }
  eapply K; [exact T|exact H|apply cacheOk_nil|]. cbn. split.
  - intros s p hs. cbn. split; [discriminate|]. intros [X _]. discriminate X.
  - intros s. cbn. split; [discriminate|]. intros (p & hs & X & _). discriminate X.
Qed.

(** * C90 *)
(** A failed load keeps spaces, parts, terms, schemas, indexes by id, listeners, leaders and hosts, and tells the
    listener nothing. *)
Theorem C90_failed_load_keeps : forall local c a r, loadData local c a = Ret r -> ldOk r = false -> let c' := ldClient r in
  (forall n, spaceIdByName c' n = spaceIdByName c n) /\ (forall s, spaceNameById c' s = spaceNameById c s) /\
  (forall k, getPartHosts (allocs (clCache c')) k = getPartHosts (allocs (clCache c)) k) /\ (forall s p, termOf c' s p = termOf c s p) /\
  (forall s id, tagIndexById c' s id = tagIndexById c s id) /\ (forall s id, edgeIndexById c' s id = edgeIndexById c s id) /\
  (forall s h, listenersOn c' s h = listenersOn c s h) /\ (forall s p ty, listenerHost c' s p ty = listenerHost c s p ty) /\
  clSchemas c' = clSchemas c /\ clLeaders c' = clLeaders c /\ storageHosts c' = storageHosts c /\ clReady c' = clReady c /\ ldTold r = nothingTold.
Proof.
  intros local c a r H O. cbn zeta. destruct (load_fail_inv local c a r H O) as (A & B & _ & _ & C & D & E & F & G).
  unfold spaceIdByName, spaceNameById, termOf, tagIndexById, edgeIndexById, indexById, listenersOn, listenerHost, storageHosts. rewrite B, C, D, E, F, G. splits; auto.
Qed.

(** False as stated: a failed load may already have replaced the accounts. *)
Definition exIdx (id : Z) (n : string) : idxItem := mkIdx id (B n) 1.
Definition exA (users : list (str * str)) (spaces : option (list (Z * str))) (ti : list idxItem) (ls : option (list (host * (Z * Z)))) (hosts : option (list hostItem)) : answers :=
  mkAns (Some users) (fun _ => Some [(1, 1)]) (Some []) (Some []) spaces
    (fun _ => Some ([(1, [(B "h1", 1); (B "h2", 1)])], [(1, 7)])) (fun _ => Some []) (fun _ => Some []) (fun _ => Some ti) (fun _ => Some [])
    (fun _ => ls) (fun n => Some (mkSD n 1 2)) hosts.
Theorem C90_accounts_refuted : exists l c a r, loads None freshClient l = Ret c /\ clReady c = true /\ loadData None c a = Ret r /\ ldOk r = false /\
  authCheck c (B "u") (B "old") = true /\ authCheck (ldClient r) (B "u") (B "old") = false /\ authCheck (ldClient r) (B "u") (B "new") = true.
Proof.
  exists [exA [(B "u", B "old")] (Some [(1, B "s")]) [] (Some []) (Some [])]. eexists. exists (exA [(B "u", B "new")] None [] (Some []) (Some [])). eexists.
  split; [vm_compute; reflexivity|]. split; [vm_compute; reflexivity|]. split; [vm_compute; reflexivity|]. splits; vm_compute; reflexivity.
Qed.
(** False as stated: when only listHosts fails, the load does not return false but reads the missing answer. *)
Theorem C90_hosts_failure_refuted : exists a, tidy a /\ goodSchemas a /\ answered (exA [] (Some [(1, B "s")]) [] (Some []) (Some [])) /\
  a = exA [] (Some [(1, B "s")]) [] (Some []) None /\ forall local, loadData local freshClient a = UB.
Proof.
  exists (exA [] (Some [(1, B "s")]) [] (Some []) None). splits; try reflexivity.
  - unfold tidy. cbn. splits; intros; repeat match goal with H : Some _ = Some _ |- _ => injection H as ?; subst end; cbn; try split; repeat constructor; intros [].
  - intros s ts H. assert (ts = []) as -> by (cbn in H; destruct H; congruence). split; [|constructor]. split; intros i j; destruct i; intros; discriminate.
  - unfold answered, exA. cbn. splits; try discriminate; [exists []; split; [reflexivity|intros ? ? []]|]. exists [(1, B "s")]. split; [reflexivity|]. intros. splits; discriminate.
Qed.

(** The hypotheses are met: two loads, a space appears, then a failed one. *)
Definition ex1 := exA [(B "u", B "p")] (Some []) [] (Some []) (Some []).
Definition ex2 := exA [(B "u", B "p")] (Some [(1, B "s"); (2, B "t")]) [exIdx 5 "i"; exIdx 6 "j"] (Some [((B "l", 9), (1, 0))]) (Some [((B "h1", 1), [(B "s", [1])])]).
Lemma ex_tidy ti ls hosts : NoDup (map ixId ti) /\ NoDup (map ixName ti) -> tidy (exA [(B "u", B "p")] (Some [(1, B "s"); (2, B "t")]) ti ls hosts).
Proof.
  intros N. unfold tidy. cbn. splits; intros; repeat match goal with H : Some _ = Some _ |- _ => injection H as ?; subst end; cbn; auto; try split; repeat constructor;
    try (intros []; fail); intros [X | []]; discriminate X.
Qed.
Example C89_ex : tidy ex2 /\ exists r, loadData (Some (B "h1", 1)) freshClient ex2 = Ret r /\ ldOk r = true /\
  spaceIdByName (ldClient r) (B "t") = Some 2 /\ termOf (ldClient r) 2 1 = 7 /\ authCheck (ldClient r) (B "u") (B "p") = true /\
  tagIndexById (ldClient r) 1 6 = Some (exIdx 6 "j") /\ listenerHost (ldClient r) 1 1 0 = Some (B "l", 9) /\ List.length (tdParts (ldTold r)) = 4%nat.
Proof.
  split; [apply ex_tidy; cbn; split; repeat constructor; cbn; intuition discriminate|]. eexists. split; [vm_compute; reflexivity|]. splits; vm_compute; reflexivity.
Qed.
Example C90_ex : exists c r, loads (Some (B "h1", 1)) freshClient [ex1; ex2] = Ret c /\
  loadData (Some (B "h1", 1)) c (exA [] (Some [(3, B "w")]) [] None (Some [])) = Ret r /\ ldOk r = false /\
  spaceIdByName (ldClient r) (B "t") = Some 2 /\ spaceIdByName (ldClient r) (B "w") = None.
Proof. do 2 eexists. split; [vm_compute; reflexivity|]. split; [vm_compute; reflexivity|]. splits; vm_compute; reflexivity. Qed.

Print Assumptions C89_spaces. Print Assumptions C89_parts. Print Assumptions C89_accounts. Print Assumptions C89_indexes_by_id. Print Assumptions C89_listeners.
Print Assumptions C89_schemas. Print Assumptions C89_hosts. Print Assumptions C89_load_succeeds. Print Assumptions C89_success_needs_answers. Print Assumptions C89_listener_follows.
Print Assumptions C90_failed_load_keeps. Print Assumptions C90_accounts_refuted. Print Assumptions C90_hosts_failure_refuted.
