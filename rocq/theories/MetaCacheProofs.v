(** Lemmas about loading the metadata cache. *)
From Coq Require Import String List.
From Verif Require Import Prelude Trans ValueBase ValueProofs AssocModel LeaderModel DiffModel DiffProps SchemaModel SchemaProps SchemaLoadProps MetaCacheModel.
Import ListNotations.
Open Scope Z_scope.

(** The entry loadData builds for a space *)
Definition entryFor (a : answers) (s : Z) (n : str) (e : entry) : Prop :=
  exists alloc terms ti ei ls d, anParts a s = Some (alloc, terms) /\ anTagIdx a s = Some ti /\ anEdgeIdx a s = Some ei /\
    anListeners a s = Some ls /\ anSpace a n = Some d /\
    e = mkEntry (mkSI (reverse alloc) alloc (fold_left addListenerOf ls [])) terms (fold_left addIdx ti []) (fold_left addIdx ei []) d.

Lemma loadSpace_inv a st s n st' : loadSpace a st (s, n) = Ret (st', true) ->
  exists e ts es ti ei, entryFor a s n e /\ anTags a s = Some ts /\ anEdges a s = Some es /\ anTagIdx a s = Some ti /\ anEdgeIdx a s = Some ei /\
     lsCache st' = aadd Z.eqb s e (lsCache st) /\ lsNames st' = aadd strEqb n s (lsNames st) /\
     loadSchemas (lsSchemas st) s ts es = Ret (lsSchemas st') /\
     lsTagIdxNames st' = fold_left (addIdxName s) ti (lsTagIdxNames st) /\ lsEdgeIdxNames st' = fold_left (addIdxName s) ei (lsEdgeIdxNames st).
Proof.
  unfold loadSpace. cbn [fst snd]. intros H.
  destruct (anParts a s) as [[alloc terms]|] eqn:E1; [|apply Ret_inj in H; discriminate].
  destruct (anTags a s) as [ts|] eqn:E2; [|apply Ret_inj in H; discriminate].
  destruct (anEdges a s) as [es|] eqn:E3; [|apply Ret_inj in H; discriminate].
  destruct (loadSchemas (lsSchemas st) s ts es) as [sc| | |] eqn:E4; try discriminate. cbn [obind] in H.
  destruct (anTagIdx a s) as [ti|] eqn:E5; [|apply Ret_inj in H; discriminate].
  destruct (anEdgeIdx a s) as [ei|] eqn:E6; [|apply Ret_inj in H; discriminate].
  destruct (anListeners a s) as [ls|] eqn:E7; [|apply Ret_inj in H; discriminate].
  destruct (anSpace a n) as [d|] eqn:E8; [|apply Ret_inj in H; discriminate].
  apply Ret_inj in H. injection H as <-. cbn. eexists _, ts, es, ti, ei. split; [|splits; (reflexivity || assumption)].
  exists alloc, terms, ti, ei, ls, d. splits; auto.
Qed.

Lemma loop_inv a sp : forall st st', loadLoop a st sp = Ret (st', true) ->
  match sp with
  | [] => st' = st
  | (s, n) :: rest => exists st1, loadSpace a st (s, n) = Ret (st1, true) /\ loadLoop a st1 rest = Ret (st', true)
  end.
Proof.
  intros st st'. destruct sp as [|[s n] rest]; cbn [loadLoop]; intros H.
  - apply Ret_inj in H. injection H as <-. reflexivity.
  - destruct (loadSpace a st (s, n)) as [[st1 ok]| | |] eqn:E; try discriminate. cbn [obind] in H.
    destruct ok; [eauto|]. apply Ret_inj in H. discriminate.
Qed.

Lemma Zeqb_ok a b : (a =? b) = true <-> a = b.
Proof. apply Z.eqb_eq. Qed.

Lemma loop_cache a sp : forall st st', loadLoop a st sp = Ret (st', true) -> NoDup (map fst sp) ->
  (forall s, In s (map fst sp) -> aget Z.eqb s (lsCache st) = None) ->
  (forall s n, In (s, n) sp -> exists e, aget Z.eqb s (lsCache st') = Some e /\ entryFor a s n e) /\
  (forall s, ~ In s (map fst sp) -> aget Z.eqb s (lsCache st') = aget Z.eqb s (lsCache st)).
Proof.
  induction sp as [|[s n] rest IH]; intros st st' H N Hn; apply loop_inv in H.
  - subst. split; [intros ? ? []|reflexivity].
  - destruct H as (st1 & H1 & H2). cbn in N. inversion N as [|? ? N1 N2]; subst.
    apply loadSpace_inv in H1. destruct H1 as (e & ts & es & ti & ei & He & _ & _ & _ & _ & Hc & _).
    assert (G : forall s', aget Z.eqb s' (lsCache st1) = if s' =? s then Some e else aget Z.eqb s' (lsCache st)).
    { intros s'. rewrite Hc, (aget_aadd Z.eqb Zeqb_ok), (Hn s) by (cbn; auto). reflexivity. }
    destruct (IH st1 st' H2 N2) as [I1 I2].
    { intros s' Hs'. rewrite G. destruct (Z.eqb_spec s' s) as [->|]; [contradiction|]. apply Hn. cbn. auto. }
    split.
    + intros s' n' [X | X]; [|eauto]. injection X as <- <-. exists e. split; [|assumption]. rewrite I2 by assumption. rewrite G, Z.eqb_refl. reflexivity.
    + intros s' Hs'. cbn in Hs'. rewrite I2 by tauto. rewrite G. destruct (Z.eqb_spec s' s) as [->|]; [exfalso; tauto|reflexivity].
Qed.

Lemma loop_names a sp : forall st st', loadLoop a st sp = Ret (st', true) -> NoDup (map snd sp) ->
  (forall n, In n (map snd sp) -> aget strEqb n (lsNames st) = None) ->
  (forall s n, In (s, n) sp -> aget strEqb n (lsNames st') = Some s) /\
  (forall n, ~ In n (map snd sp) -> aget strEqb n (lsNames st') = aget strEqb n (lsNames st)).
Proof.
  induction sp as [|[s n] rest IH]; intros st st' H N Hn; apply loop_inv in H.
  - subst. split; [intros ? ? []|reflexivity].
  - destruct H as (st1 & H1 & H2). cbn in N. inversion N as [|? ? N1 N2]; subst.
    apply loadSpace_inv in H1. destruct H1 as (e & ts & es & ti & ei & He & _ & _ & _ & _ & _ & Hc & _).
    assert (G : forall n', aget strEqb n' (lsNames st1) = if strEqb n' n then Some s else aget strEqb n' (lsNames st)).
    { intros n'. rewrite Hc, (aget_aadd strEqb strEqb_eq), (Hn n) by (cbn; auto). reflexivity. }
    destruct (IH st1 st' H2 N2) as [I1 I2].
    { intros n' Hn'. rewrite G. destruct (strEqb n' n) eqn:E; [apply strEqb_eq in E; subst; contradiction|]. apply Hn. cbn. auto. }
    split.
    + intros s' n' [X | X]; [|eauto]. injection X as <- <-. rewrite I2 by assumption. rewrite G, strEqb_refl. reflexivity.
    + intros n' Hn'. cbn in Hn'. rewrite I2 by tauto. rewrite G. destruct (strEqb n' n) eqn:E; [apply strEqb_eq in E; subst; exfalso; tauto|reflexivity].
Qed.

(** The schema lists answered for the spaces *)
Definition schemaLists (a : answers) (sp : list (Z * str)) (l : list spaceSchemas) : Prop :=
  map fst l = map fst sp /\ forall s ts es, In (s, (ts, es)) l -> anTags a s = Some ts /\ anEdges a s = Some es.
Lemma loop_schemas a sp : forall st st', loadLoop a st sp = Ret (st', true) ->
  exists l, schemaLists a sp l /\ loadSpaces (lsSchemas st) l = Ret (lsSchemas st').
Proof.
  induction sp as [|[s n] rest IH]; intros st st' H; apply loop_inv in H.
  - subst. exists []. split; [split; [reflexivity|intros ? ? ? []]|reflexivity].
  - destruct H as (st1 & H1 & H2). apply loadSpace_inv in H1. destruct H1 as (e & ts & es & ti & ei & He & Ht & Hes & _ & _ & _ & _ & Hs & _).
    destruct (IH _ _ H2) as (l & [L1 L2] & L3). exists ((s, (ts, es)) :: l). split.
    + split; [cbn; f_equal; exact L1|]. intros s' ts' es' [X | X]; [injection X as <- <- <-; auto|eauto].
    + cbn [loadSpaces]. rewrite Hs. exact L3.
Qed.

(** * The name maps of indexes *)
Lemma idxNames_get s l : forall m k, aget skeyEqb k (fold_left (addIdxName s) l m) =
  match find (fun it => skeyEqb k (s, ixName it)) (rev l) with Some it => Some (ixId it) | None => aget skeyEqb k m end.
Proof.
  induction l as [|it l IH] using rev_ind; intros m k; [reflexivity|].
  rewrite fold_left_app, rev_app_distr. cbn [fold_left rev app find]. unfold addIdxName at 1. rewrite (aget_aset skeyEqb skeyEqb_ok).
  destruct (skeyEqb k (s, ixName it)); [reflexivity|apply IH].
Qed.
Lemma idxNames_other s s' n l m : s <> s' -> aget skeyEqb (s, n) (fold_left (addIdxName s') l m) = aget skeyEqb (s, n) m.
Proof.
  intros Hs. rewrite idxNames_get. destruct (find _ (rev l)) as [it|] eqn:E; [|reflexivity].
  apply find_some in E. destruct E as [_ E]. apply skeyEqb_ok in E. injection E as -> _. congruence.
Qed.
(** A name in the map was there before or is the name of a listed index *)
Lemma idxNames_or s l m k id : aget skeyEqb k (fold_left (addIdxName s) l m) = Some id ->
  aget skeyEqb k m = Some id \/ exists it, In it l /\ k = (s, ixName it) /\ id = ixId it.
Proof.
  rewrite idxNames_get. destruct (find _ (rev l)) as [it|] eqn:E; [|auto].
  apply find_some in E. destruct E as [H E]. apply skeyEqb_ok in E. intros X. injection X as <-. right. exists it. splits; auto.
  rewrite in_rev. exact H.
Qed.
Lemma idxNames_listed s l m it : NoDup (map ixName l) -> In it l -> aget skeyEqb (s, ixName it) (fold_left (addIdxName s) l m) = Some (ixId it).
Proof.
  intros N H. rewrite idxNames_get. destruct (find _ (rev l)) as [it'|] eqn:E.
  - apply find_some in E. destruct E as [H' E]. rewrite <- in_rev in H'. apply skeyEqb_ok in E. injection E as E.
    assert (it' = it) as ->; [|reflexivity]. clear -N H H' E. induction l as [|x l IH]; [destruct H|]. cbn in N. inversion N as [|? ? N1 N2]; subst.
    destruct H as [-> | H], H' as [-> | H']; auto.
    + exfalso. apply N1. rewrite E. apply in_map. assumption.
    + exfalso. apply N1. rewrite <- E. apply in_map. assumption.
  - exfalso. assert (X : skeyEqb (s, ixName it) (s, ixName it) = false) by (apply (find_none _ _ E it); rewrite <- in_rev; exact H).
    rewrite (proj2 (skeyEqb_ok _ _) eq_refl) in X. discriminate.
Qed.

Section Names.
Context (sel : answers -> Z -> option (list idxItem)) (names : loadSt -> list ((Z * str) * Z)).
Context (Hsel : forall a st s n st' , loadSpace a st (s, n) = Ret (st', true) -> exists l, sel a s = Some l /\ names st' = fold_left (addIdxName s) l (names st)).
Lemma loop_idxNames a sp : forall st st', loadLoop a st sp = Ret (st', true) -> NoDup (map fst sp) ->
  (forall s n l it, In (s, n) sp -> sel a s = Some l -> NoDup (map ixName l) -> In it l -> aget skeyEqb (s, ixName it) (names st') = Some (ixId it)).
Proof using Hsel.
  induction sp as [|[s n] rest IH]; intros st st' H N; apply loop_inv in H; [intros ? ? ? ? []|].
  destruct H as (st1 & H1 & H2). cbn in N. inversion N as [|? ? N1 N2]; subst.
  intros s' n' l it [X | X] Hl Nl Hit; [|eapply IH; eauto]. injection X as <- <-.
  destruct (Hsel _ _ _ _ _ H1) as (l' & Hl' & En). rewrite Hl' in Hl. injection Hl as ->.
  assert (K : forall sp st st', loadLoop a st sp = Ret (st', true) -> ~ In s (map fst sp) -> forall n, aget skeyEqb (s, n) (names st') = aget skeyEqb (s, n) (names st)).
  { clear -Hsel. induction sp as [|[s0 n0] sp IH]; intros st st' H N n; apply loop_inv in H; [subst; reflexivity|].
    destruct H as (st1 & H1 & H2). cbn in N. rewrite (IH st1 st' H2) by tauto. destruct (Hsel _ _ _ _ _ H1) as (l & _ & ->). apply idxNames_other. intuition congruence. }
  rewrite (K rest st1 st' H2 N1), En. apply idxNames_listed; assumption.
Qed.
End Names.
Lemma loadSpace_tagNames a st s n st' : loadSpace a st (s, n) = Ret (st', true) ->
  exists l, anTagIdx a s = Some l /\ lsTagIdxNames st' = fold_left (addIdxName s) l (lsTagIdxNames st).
Proof. intros H. apply loadSpace_inv in H. destruct H as (e & ts & es & ti & ei & _ & _ & _ & A & _ & _ & _ & _ & B & _). eauto. Qed.
Lemma loadSpace_edgeNames a st s n st' : loadSpace a st (s, n) = Ret (st', true) ->
  exists l, anEdgeIdx a s = Some l /\ lsEdgeIdxNames st' = fold_left (addIdxName s) l (lsEdgeIdxNames st).
Proof. intros H. apply loadSpace_inv in H. destruct H as (e & ts & es & ti & ei & _ & _ & _ & _ & A & _ & _ & _ & _ & B). eauto. Qed.

(** Whatever the load ends with, a name in the maps was there before or is that of an answered index *)
Lemma loadSpace_names a st s n st' ok : loadSpace a st (s, n) = Ret (st', ok) ->
  (forall k id, aget skeyEqb k (lsTagIdxNames st') = Some id -> aget skeyEqb k (lsTagIdxNames st) = Some id \/
     exists l it, anTagIdx a s = Some l /\ In it l /\ k = (s, ixName it) /\ id = ixId it) /\
  (forall k id, aget skeyEqb k (lsEdgeIdxNames st') = Some id -> aget skeyEqb k (lsEdgeIdxNames st) = Some id \/
     exists l it, anEdgeIdx a s = Some l /\ In it l /\ k = (s, ixName it) /\ id = ixId it).
Proof.
  unfold loadSpace. cbn [fst snd]. intros H.
  destruct (anParts a s) as [[alloc terms]|]; [|apply Ret_inj in H; injection H as <- <-; auto].
  destruct (anTags a s) as [ts|]; [|apply Ret_inj in H; injection H as <- <-; auto].
  destruct (anEdges a s) as [es|]; [|apply Ret_inj in H; injection H as <- <-; auto].
  destruct (loadSchemas (lsSchemas st) s ts es) as [sc| | |]; try discriminate. cbn [obind] in H.
  destruct (anTagIdx a s) as [ti|]; [|apply Ret_inj in H; injection H as <- <-; auto].
  destruct (anEdgeIdx a s) as [ei|]; [|apply Ret_inj in H; injection H as <- <-; auto].
  assert (K : forall x y z, (forall k id, aget skeyEqb k (lsTagIdxNames (mkLS x y z (fold_left (addIdxName s) ti (lsTagIdxNames st)) (fold_left (addIdxName s) ei (lsEdgeIdxNames st)))) = Some id ->
     aget skeyEqb k (lsTagIdxNames st) = Some id \/ exists l it, Some ti = Some l /\ In it l /\ k = (s, ixName it) /\ id = ixId it) /\
    (forall k id, aget skeyEqb k (lsEdgeIdxNames (mkLS x y z (fold_left (addIdxName s) ti (lsTagIdxNames st)) (fold_left (addIdxName s) ei (lsEdgeIdxNames st)))) = Some id ->
     aget skeyEqb k (lsEdgeIdxNames st) = Some id \/ exists l it, Some ei = Some l /\ In it l /\ k = (s, ixName it) /\ id = ixId it)).
  { intros x y z. cbn. split; intros k id Hk; apply idxNames_or in Hk; destruct Hk as [Hk | (it & H1 & H2 & H3)]; auto; right; eauto 8. }
  destruct (anListeners a s) as [ls|]; [|apply Ret_inj in H; injection H as <- <-; apply K].
  destruct (anSpace a n) as [d|]; apply Ret_inj in H; injection H as <- <-; apply K.
Qed.
Lemma loop_namesFrom a sp : forall st st' ok, loadLoop a st sp = Ret (st', ok) ->
  (forall k id, aget skeyEqb k (lsTagIdxNames st') = Some id -> aget skeyEqb k (lsTagIdxNames st) = Some id \/
     exists l it, anTagIdx a (fst k) = Some l /\ In it l /\ snd k = ixName it /\ id = ixId it) /\
  (forall k id, aget skeyEqb k (lsEdgeIdxNames st') = Some id -> aget skeyEqb k (lsEdgeIdxNames st) = Some id \/
     exists l it, anEdgeIdx a (fst k) = Some l /\ In it l /\ snd k = ixName it /\ id = ixId it).
Proof.
  induction sp as [|[s n] rest IH]; intros st st' ok H; cbn [loadLoop] in H.
  - apply Ret_inj in H. injection H as <- <-. auto.
  - destruct (loadSpace a st (s, n)) as [[st1 ok1]| | |] eqn:E; try discriminate. cbn [obind] in H. apply loadSpace_names in E. destruct E as [E1 E2].
    assert (F : (forall k id, aget skeyEqb k (lsTagIdxNames st1) = Some id -> aget skeyEqb k (lsTagIdxNames st) = Some id \/
       exists l it, anTagIdx a (fst k) = Some l /\ In it l /\ snd k = ixName it /\ id = ixId it) /\
      (forall k id, aget skeyEqb k (lsEdgeIdxNames st1) = Some id -> aget skeyEqb k (lsEdgeIdxNames st) = Some id \/
       exists l it, anEdgeIdx a (fst k) = Some l /\ In it l /\ snd k = ixName it /\ id = ixId it)).
    { split; intros k id Hk; [apply E1 in Hk|apply E2 in Hk]; destruct Hk as [Hk | (l & it & H1 & H2 & -> & H4)]; auto; right; exists l, it; cbn; auto. }
    destruct ok1; [|apply Ret_inj in H; injection H as <- <-; exact F]. destruct F as [F1 F2]. destruct (IH _ _ _ H) as [I1 I2].
    split; intros k id Hk; [apply I1 in Hk|apply I2 in Hk]; destruct Hk; auto.
Qed.

(** * The index items *)
Lemma addIdx_get l : forall m id, aget Z.eqb id (fold_left addIdx l m) =
  match aget Z.eqb id m with Some x => Some x | None => find (fun it => id =? ixId it) l end.
Proof.
  induction l as [|it l IH]; intros m id; cbn [fold_left find]; [destruct (aget Z.eqb id m); reflexivity|].
  rewrite IH. unfold addIdx at 1. rewrite (aget_aadd Z.eqb Zeqb_ok). destruct (aget Z.eqb (ixId it) m) as [y|] eqn:E.
  - destruct (aget Z.eqb id m) eqn:F; [reflexivity|]. destruct (Z.eqb_spec id (ixId it)) as [->|]; [congruence|reflexivity].
  - destruct (Z.eqb_spec id (ixId it)) as [->|]; [rewrite E; reflexivity|reflexivity].
Qed.
Lemma addIdx_In l id it : NoDup (map ixId l) -> aget Z.eqb id (fold_left addIdx l []) = Some it <-> In it l /\ ixId it = id.
Proof.
  intros N. rewrite addIdx_get. cbn [aget]. split.
  - intros H. apply find_some in H. destruct H as [H E]. apply Z.eqb_eq in E. auto.
  - intros [H <-]. induction l as [|x l IH]; [destruct H|]. cbn in *. inversion N as [|? ? N1 N2]; subst. destruct (Z.eqb_spec (ixId it) (ixId x)) as [E|E].
    + destruct H as [-> | H]; [reflexivity|]. exfalso. apply N1. rewrite <- E. apply in_map. assumption.
    + destruct H as [-> | H]; [congruence|]. auto.
Qed.

(** * Listeners *)
Lemma addListenerOf_get ls : forall m h, match aget hostEqb h (fold_left addListenerOf ls m) with Some x => x | None => [] end =
  match aget hostEqb h m with Some x => x | None => [] end ++ map snd (filter (fun l => hostEqb h (fst l)) ls).
Proof.
  induction ls as [|l ls IH]; intros m h; cbn [fold_left filter map]; [rewrite app_nil_r; reflexivity|].
  rewrite IH. unfold addListenerOf at 1. rewrite (aget_aset hostEqb hostEqb_ok). destruct (hostEqb h (fst l)) eqn:E.
  - apply hostEqb_ok in E. subst h. cbn [map]. rewrite <- app_assoc. reflexivity.
  - reflexivity.
Qed.
Lemma addListenerOf_nonempty ls : forall m, (forall h x, aget hostEqb h m = Some x -> x <> []) ->
  forall h x, aget hostEqb h (fold_left addListenerOf ls m) = Some x -> x <> [].
Proof.
  induction ls as [|l ls IH]; intros m Hm h x; cbn [fold_left]; [apply Hm|]. apply IH. intros h' x'. unfold addListenerOf. rewrite (aget_aset hostEqb hostEqb_ok).
  destruct (hostEqb h' (fst l)); [|apply Hm]. intros X. injection X as <-. intros X. apply app_eq_nil in X. destruct X; discriminate.
Qed.
Lemma addListenerOf_keys ls : forall m, NoDup (akeys m) -> NoDup (akeys (fold_left addListenerOf ls m)).
Proof. induction ls as [|l ls IH]; intros m N; cbn [fold_left]; [exact N|]. apply IH. apply (aset_keys hostEqb hostEqb_ok). exact N. Qed.

(** * Users *)
Lemma loadUsers_get roles us : forall rs ps rs' ps', loadUsers roles us rs ps = Some (rs', ps') -> NoDup (map fst us) ->
  (forall u p, In (u, p) us -> exists r, roles u = Some r /\ aget strEqb u rs' = Some r /\ aget strEqb u ps' = Some p) /\
  (forall u, ~ In u (map fst us) -> aget strEqb u rs' = aget strEqb u rs /\ aget strEqb u ps' = aget strEqb u ps).
Proof.
  induction us as [|[u p] us IH]; intros rs ps rs' ps' H N; cbn [loadUsers] in H.
  - injection H as <- <-. split; [intros ? ? []|auto].
  - destruct (roles u) as [r|] eqn:E; [|discriminate]. cbn in N. inversion N as [|? ? N1 N2]; subst. destruct (IH _ _ _ _ H N2) as [I1 I2]. split.
    + intros u' p' [X | X]; [|auto]. injection X as <- <-. exists r. destruct (I2 u N1) as [-> ->]. rewrite !(aget_aset strEqb strEqb_eq), strEqb_refl. auto.
    + intros u' Hu. cbn in Hu. destruct (I2 u') as [-> ->]; [tauto|]. rewrite !(aget_aset strEqb strEqb_eq).
      destruct (strEqb u' u) eqn:F; [|auto]. apply strEqb_eq in F. subst. exfalso. tauto.
Qed.

(** * A successful load *)
Lemma load_inv local c a r : loadData local c a = Ret r -> ldOk r = true ->
  exists us rs ps fc fi sp st items, anUsers a = Some us /\ loadUsers (anRoles a) us [] [] = Some (rs, ps) /\ anFtClients a = Some fc /\
    anFtIndexes a = Some fi /\ anSpaces a = Some sp /\ anHosts a = Some items /\
    loadLoop a (mkLS [] [] emptySchemaCache (clTagIdxNames c) (clEdgeIdxNames c)) sp = Ret (st, true) /\
    ldClient r = mkCl true (clLocalTime c) (clMetaTime c) rs ps fc fi (lsCache st) (lsNames st) (lsSchemas st) (lsTagIdxNames st) (lsEdgeIdxNames st)
      (loadLeader (allocs (clCache c)) (fun n => aget strEqb n (clNames c)) items) (map fst items) /\
    match local with
    | None => ldTold r = nothingTold
    | Some h => exists d pm, diff h (infos (clCache c)) (infos (lsCache st)) = Ret d /\ doGetPartsMap h (infos (lsCache st)) = Ret pm /\
        ldTold r = mkTold d (listenerDiff h (infos (clCache c)) (infos (lsCache st))) (remoteTold (clReady c) (lsCache st) pm)
    end.
Proof.
  unfold loadData. intros H O.
  destruct (anUsers a) as [us|]; [|apply Ret_inj in H; subst; discriminate].
  destruct (loadUsers (anRoles a) us [] []) as [[rs ps]|] eqn:E1; [|apply Ret_inj in H; subst; discriminate].
  destruct (anFtClients a) as [fc|]; [|apply Ret_inj in H; subst; discriminate].
  destruct (anFtIndexes a) as [fi|]; [|apply Ret_inj in H; subst; discriminate].
  destruct (anSpaces a) as [sp|]; [|apply Ret_inj in H; subst; discriminate].
  cbn [withFtIndexes withFtClients withUsers clTagIdxNames clEdgeIdxNames] in H.
  destruct (loadLoop a (mkLS [] [] emptySchemaCache (clTagIdxNames c) (clEdgeIdxNames c)) sp) as [[st ok]| | |] eqn:E2; try discriminate. cbn [obind] in H.
  destruct ok; [|apply Ret_inj in H; subst; discriminate]. unfold loadEnd in H. destruct (anHosts a) as [items|]; [|discriminate].
  exists us, rs, ps, fc, fi, sp, st, items. cbn [withFtIndexes withFtClients withUsers clCache clNames clReady clLocalTime clMetaTime clRoles clPwds clFtClients clFtIndexes] in H.
  destruct local as [h|].
  - destruct (diff h (infos (clCache c)) (infos (lsCache st))) as [d| | |] eqn:E3; try discriminate. cbn [obind] in H.
    destruct (doGetPartsMap h (infos (lsCache st))) as [pm| | |] eqn:E4; try discriminate. cbn [obind] in H. apply Ret_inj in H. subst r. splits; auto. exists d, pm. splits; auto.
  - cbn [obind] in H. apply Ret_inj in H. subst r. splits; auto.
Qed.

(** A load that returns false, or true, leaves these alone *)
Lemma load_fail_inv local c a r : loadData local c a = Ret r -> ldOk r = false ->
  let c' := ldClient r in ldTold r = nothingTold /\ clReady c' = clReady c /\ clLocalTime c' = clLocalTime c /\ clMetaTime c' = clMetaTime c /\
    clCache c' = clCache c /\ clNames c' = clNames c /\ clSchemas c' = clSchemas c /\ clLeaders c' = clLeaders c /\ clHosts c' = clHosts c.
Proof.
  unfold loadData. intros H O.
  destruct (anUsers a) as [us|]; [|apply Ret_inj in H; subst; cbn; splits; reflexivity].
  destruct (loadUsers (anRoles a) us [] []) as [[rs ps]|] eqn:E1; [|apply Ret_inj in H; subst; cbn; splits; reflexivity].
  destruct (anFtClients a) as [fc|]; [|apply Ret_inj in H; subst; cbn; splits; reflexivity].
  destruct (anFtIndexes a) as [fi|]; [|apply Ret_inj in H; subst; cbn; splits; reflexivity].
  destruct (anSpaces a) as [sp|]; [|apply Ret_inj in H; subst; cbn; splits; reflexivity].
  match type of H with context [loadLoop ?x ?y ?z] => destruct (loadLoop x y z) as [[st ok]| | |] eqn:E2 end; try discriminate. cbn [obind] in H.
  destruct ok; [|apply Ret_inj in H; subst; cbn; splits; reflexivity].
  unfold loadEnd in H. destruct (anHosts a) as [items|]; [|discriminate].
  match type of H with obind ?x _ = _ => destruct x as [td| | |] eqn:E3 end; try discriminate. cbn [obind] in H. apply Ret_inj in H. subst r. discriminate.
Qed.
