(** Property C53: notifications about changed listeners. *)
From Coq Require Import String List Permutation Sorted.
From Verif Require Import Prelude Trans ValueBase ValueModel ValueProofs ValueLtProofs LeaderModel AssocModel DiffModel.
Import ListNotations.
Open Scope list_scope.
Open Scope Z_scope.

(** * Specification *)
(** What a follower of the notifications knows: the spaces with listeners and the peers of each listener. *)
Record lmirror := mkLM { lspaces : Z -> bool; peersOf : Z -> Z -> Z -> option (list host) }.
Definition sameL (a b : lmirror) : Prop := (forall s, lspaces a s = lspaces b s) /\ (forall s p t, peersOf a s p t = peersOf b s p t).
Definition at3 (s p t s' p' t' : Z) : bool := (s' =? s) && (p' =? p) && (t' =? t).
Inductive lfollows : lmirror -> lnote -> lmirror -> Prop :=
| lf_space_added m m' s : lspaces m s = false ->
    (forall s', lspaces m' s' = (s' =? s) || lspaces m s') -> (forall s' p t, peersOf m' s' p t = peersOf m s' p t) ->
    lfollows m (LSpaceAdded s) m'
| lf_space_removed m m' s : lspaces m s = true -> (forall p t, peersOf m s p t = None) ->
    (forall s', lspaces m' s' = negb (s' =? s) && lspaces m s') -> (forall s' p t, peersOf m' s' p t = peersOf m s' p t) ->
    lfollows m (LSpaceRemoved s) m'
| lf_added m m' s p l : lspaces m s = true -> peersOf m s p (lhType l) = None -> (forall s', lspaces m' s' = lspaces m s') ->
    (forall s' p' t', peersOf m' s' p' t' = if at3 s p (lhType l) s' p' t' then Some (lhPeers l) else peersOf m s' p' t') ->
    lfollows m (LAdded s p l) m'
| lf_removed m m' s p t : peersOf m s p t <> None -> (forall s', lspaces m' s' = lspaces m s') ->
    (forall s' p' t', peersOf m' s' p' t' = if at3 s p t s' p' t' then None else peersOf m s' p' t') ->
    lfollows m (LRemoved s p t) m'.
Fixpoint lfollowsAll (m : lmirror) (ns : list lnote) (m' : lmirror) : Prop :=
  match ns with [] => sameL m m' | n :: ns' => exists m1, lfollows m n m1 /\ lfollowsAll m1 ns' m' end.

(** The host listens to part [p] of space [s] with type [t], the replicas being [hs]. *)
Definition listens (h : host) (c : localCache) (s p t : Z) (hs : list host) : Prop :=
  exists si pts, In (s, si) c /\ In (h, pts) (listeners si) /\ In (p, t) pts /\ aget Z.eqb p (partsAlloc si) = Some hs.
Definition ldescribes (h : host) (c : localCache) (m : lmirror) : Prop :=
  (forall s p t hs, peersOf m s p t = Some hs <-> listens h c s p t hs) /\
  (forall s, lspaces m s = true <-> exists p t hs, listens h c s p t hs).
(** unordered maps have distinct keys, and a host has one listener of a type for a part *)
Definition lloaded (c : localCache) : Prop :=
  NoDup (akeys c) /\ forall s si, In (s, si) c -> NoDup (akeys (listeners si)) /\ forall h pts, In (h, pts) (listeners si) -> NoDup pts.

(** * The order on ListenerHosts is a strict total order *)
Definition hostLt2 (a b : host) : lt2 := lexc (zs (fst a) (fst b)) (ltZ2 (snd a) (snd b)).
Definition hostsLt2 (a b : list host) : lt2 := listLt2 hostLt2 a b.
Definition lhLt2 (a b : listenerHosts) : lt2 := lexc (ltZ2 (lhType a) (lhType b)) (hostsLt2 (lhPeers a) (lhPeers b)).
Lemma hostLt2_tri a b : tri (hostLt2 a b).
Proof. apply lexc_tri; [apply zs_tri|intros _; apply ltZ2_tri]. Qed.
Lemma hostLt2_swap a b : hostLt2 b a = swap (hostLt2 a b).
Proof. unfold hostLt2. rewrite lexc_swap by apply zs_tri. rewrite <- zs_swap. reflexivity. Qed.
Lemma hostLt2_tab a b c : tab (hostLt2 a b) (hostLt2 b c) (hostLt2 a c).
Proof. apply lexc_tab; try apply zs_tri; [apply zs_tab|]. intros _ _. apply ltZ2_tab. Qed.
Lemma hostLt2_eq a b : isEq (hostLt2 a b) <-> a = b.
Proof.
  destruct a as [a1 a2], b as [b1 b2]. unfold hostLt2. rewrite lexc_eq. cbn [fst snd]. split.
  - unfold isEq. destruct (zs a1 b1) as [[] []] eqn:E; cbn; try discriminate. intros H. apply ltZ2_eq in H. apply zs_eq in E. subst. reflexivity.
  - intros H. injection H as -> ->. assert (zs b1 b1 = (false, false)) as -> by (apply zs_eq; reflexivity). cbn. apply ltZ2_eq. reflexivity.
Qed.
Lemma hostLt_fst a b : (hostLt a b, hostLt b a) = hostLt2 a b.
Proof.
  unfold hostLt, hostLt2. rewrite lexc_eq. pose proof (strLtb_zs (fst a) (fst b)) as E.
  destruct (strEqb (fst a) (fst b)) eqn:Q.
  - apply strEqb_eq in Q. assert (Z0 : isEq (zs (fst a) (fst b))) by (apply zs_eq; assumption). unfold isEq in Z0. rewrite Z0. cbn [fst snd].
    rewrite <- Q, strEqb_refl. reflexivity.
  - assert (Q' : strEqb (fst b) (fst a) = false).
    { destruct (strEqb (fst b) (fst a)) eqn:Q'; [|reflexivity]. apply strEqb_eq in Q'. rewrite Q', strEqb_refl in Q. discriminate. }
    rewrite Q', E. pose proof (zs_tri (fst a) (fst b)) as T. unfold tri in T.
    destruct (zs (fst a) (fst b)) as [[] []] eqn:Z1; cbn; try reflexivity; try congruence.
    exfalso. apply zs_eq in Z1. rewrite Z1, strEqb_refl in Q. discriminate.
Qed.
Lemma hostsLt_fst a : forall b, (hostsLt a b, hostsLt b a) = hostsLt2 a b.
Proof.
  induction a as [|x a IH]; intros [|y b]; try reflexivity. unfold hostsLt2. rewrite listLt2_cons. fold (hostsLt2 a b). rewrite <- IH, <- hostLt_fst.
  unfold lexc. cbn [hostsLt fst snd]. reflexivity.
Qed.
Lemma hostsLt2_tri a b : tri (hostsLt2 a b).
Proof. apply listLt2_tri. intros. apply hostLt2_tri. Qed.
Lemma lhLt_fst a b : (lhLt a b, lhLt b a) = lhLt2 a b.
Proof.
  unfold lhLt, lhLt2. rewrite <- hostsLt_fst, lexc_eq. unfold ltZ2. cbn [fst snd]. rewrite (Z.eqb_sym (lhType b)).
  destruct (Z.eqb_spec (lhType a) (lhType b)) as [-> |]; [rewrite Z.ltb_irrefl; reflexivity|].
  destruct (Z.ltb_spec (lhType a) (lhType b)), (Z.ltb_spec (lhType b) (lhType a)); try reflexivity; lia.
Qed.
Lemma lhLt2_tri a b : tri (lhLt2 a b).
Proof. apply lexc_tri; [apply ltZ2_tri|intros _; apply hostsLt2_tri]. Qed.
Lemma lhLt2_tab a b c : tab (lhLt2 a b) (lhLt2 b c) (lhLt2 a c).
Proof.
  apply lexc_tab; try apply ltZ2_tri; [apply ltZ2_tab|]. intros _ _. apply listLt2_tab. intros. splits; try apply hostLt2_tri. apply hostLt2_tab.
Qed.
Lemma lhLt2_eq a b : isEq (lhLt2 a b) -> a = b.
Proof.
  destruct a as [a1 a2], b as [b1 b2]. unfold lhLt2. rewrite lexc_eq. cbn [lhType lhPeers]. unfold isEq.
  destruct (ltZ2 a1 b1) as [[] []] eqn:E; cbn; try discriminate. intros H. apply ltZ2_eq in E. f_equal; [assumption|].
  eapply (listLt2_eq hostLt2); [|exact H]. intros a b _ _ X. apply hostLt2_eq. exact X.
Qed.
Lemma lhLt_irrefl a : lhLt a a = false.
Proof. pose proof (lhLt_fst a a) as E. pose proof (lhLt2_tri a a) as T. unfold tri in T. rewrite <- E in T. destruct (lhLt a a); [congruence|reflexivity]. Qed.
Lemma lhLt_trans a b c : lhLt a b = true -> lhLt b c = true -> lhLt a c = true.
Proof.
  intros H1 H2. pose proof (lhLt_fst a b) as E1. pose proof (lhLt_fst b c) as E2. pose proof (lhLt_fst a c) as E3.
  pose proof (lhLt2_tri a b) as T1. pose proof (lhLt2_tri b c) as T2. destruct (lhLt2_tab a b c) as (_ & _ & K).
  unfold tri in *. rewrite <- E1, <- E2, <- E3 in *. rewrite H1, H2 in *.
  destruct (lhLt b a); [congruence|]. destruct (lhLt c b); [congruence|]. specialize (K eq_refl). congruence.
Qed.
Lemma lhLt_total a b : lhLt a b = false -> lhLt b a = false -> a = b.
Proof. intros H1 H2. apply lhLt2_eq. unfold isEq. rewrite <- lhLt_fst, H1, H2. reflexivity. Qed.

(** * sort and set_difference *)
Definition lhltP (a b : listenerHosts) : Prop := lhLt a b = true.
Lemma insert_perm x l : Permutation (lhInsert x l) (x :: l).
Proof. induction l as [|y l IH]; cbn; [reflexivity|]. destruct (lhLt y x); [|reflexivity]. rewrite IH. apply perm_swap. Qed.
Lemma sort_perm l : Permutation (lhSort l) l.
Proof. induction l as [|x l IH]; cbn; [reflexivity|]. rewrite insert_perm. apply perm_skip, IH. Qed.
Lemma insert_sorted x l : StronglySorted lhltP l -> ~ In x l -> StronglySorted lhltP (lhInsert x l).
Proof.
  induction l as [|y l IH]; cbn; intros S Hn; [repeat constructor|]. apply StronglySorted_inv in S. destruct S as [S1 S2].
  destruct (lhLt y x) eqn:E.
  - constructor; [apply IH; tauto|]. rewrite Forall_forall in *. intros z Hz. apply (Permutation_in _ (insert_perm x l)) in Hz.
    destruct Hz as [<- | Hz]; [exact E|apply S2, Hz].
  - assert (Hxy : lhLt x y = true).
    { destruct (lhLt x y) eqn:E2; [reflexivity|]. exfalso. apply Hn. left. symmetry. apply lhLt_total; assumption. }
    constructor; [constructor; assumption|]. constructor; [exact Hxy|]. rewrite Forall_forall in *. intros z Hz. eapply lhLt_trans; [exact Hxy|apply S2, Hz].
Qed.
Lemma sort_sorted l : NoDup l -> StronglySorted lhltP (lhSort l).
Proof.
  induction l as [|x l IH]; cbn; intros N; [constructor|]. inversion N; subst. apply insert_sorted; auto.
  intros Hin. apply (Permutation_in _ (sort_perm l)) in Hin. contradiction.
Qed.
Lemma lhEqb_ok a b : lhEqb a b = true <-> a = b.
Proof.
  destruct a as [a1 a2], b as [b1 b2]. unfold lhEqb. cbn. rewrite andb_true_iff, Z.eqb_eq.
  assert (H : hostsEqb a2 b2 = true <-> a2 = b2).
  { revert b2. induction a2 as [|x a IH]; intros [|y b]; cbn; try (split; congruence).
    rewrite andb_true_iff, hostEqb_ok, IH. split; [intros [-> ->]; reflexivity|intros H; injection H; auto]. }
  rewrite H. split; [intros [-> ->]; reflexivity|intros E; injection E; auto].
Qed.
Definition inb (x : listenerHosts) (b : list listenerHosts) : bool := existsb (lhEqb x) b.
Lemma inb_In x b : inb x b = true <-> In x b.
Proof. unfold inb. rewrite existsb_exists. split; [intros (y & H & E); apply lhEqb_ok in E; subst; auto|intros H; exists x; split; [assumption|apply lhEqb_ok; reflexivity]]. Qed.
Lemma inb_false x b : inb x b = false <-> ~ In x b.
Proof. rewrite <- inb_In. destruct (inb x b); split; try congruence; tauto. Qed.
Lemma difference_filter a : forall b, StronglySorted lhltP a -> StronglySorted lhltP b ->
  lhDifference a b = filter (fun x => negb (inb x b)) a.
Proof.
  induction a as [|x a IHa]; intros b Sa; [destruct b; reflexivity|].
  induction b as [|y b IHb]; intros Sb.
  - cbn. f_equal. clear. induction a; cbn; congruence.
  - pose proof Sa as Sa0. pose proof Sb as Sb0. apply StronglySorted_inv in Sa, Sb. destruct Sa as [Sa Fa], Sb as [Sb Fb]. rewrite Forall_forall in Fa, Fb.
    cbn [lhDifference]. destruct (lhLt x y) eqn:E1; [|destruct (lhLt y x) eqn:E2].
    + cbn [filter]. assert (Hn : inb x (y :: b) = false).
      { apply inb_false. intros [-> | H]; [rewrite lhLt_irrefl in E1; discriminate|]. apply Fb in H. unfold lhltP in H.
        pose proof (lhLt_trans _ _ _ E1 H). rewrite lhLt_irrefl in *. discriminate. }
      rewrite Hn. cbn [negb]. f_equal. apply IHa; assumption.
    + change ((fix go (b0 : list listenerHosts) : list listenerHosts :=
         match b0 with
         | [] => x :: a
         | y0 :: b' => if lhLt x y0 then x :: lhDifference a b0 else if lhLt y0 x then go b' else lhDifference a b'
         end) b) with (lhDifference (x :: a) b).
      rewrite IHb by assumption. apply filter_ext_in. intros z Hz. f_equal.
      assert (z <> y).
      { intros ->. destruct Hz as [-> | Hz]; [rewrite lhLt_irrefl in E2; discriminate|]. apply Fa in Hz. unfold lhltP in Hz.
        pose proof (lhLt_trans _ _ _ E2 Hz). rewrite lhLt_irrefl in *. discriminate. }
      unfold inb. cbn [existsb]. destruct (lhEqb z y) eqn:Q; [apply lhEqb_ok in Q; congruence|reflexivity].
    + assert (x = y) by (apply lhLt_total; assumption). subst y. cbn [filter].
      assert (inb x (x :: b) = true) as -> by (apply inb_In; left; reflexivity). cbn [negb].
      rewrite IHa by assumption. apply filter_ext_in. intros z Hz. f_equal.
      assert (z <> x) by (intros ->; apply Fa in Hz; unfold lhltP in Hz; rewrite lhLt_irrefl in Hz; discriminate).
      unfold inb. cbn [existsb]. destruct (lhEqb z x) eqn:Q; [apply lhEqb_ok in Q; congruence|reflexivity].
Qed.
Lemma sort_In l x : In x (lhSort l) <-> In x l.
Proof. split; apply Permutation_in; [apply sort_perm|apply Permutation_sym, sort_perm]. Qed.
Lemma sortdiff_In a b x : NoDup a -> NoDup b -> In x (lhDifference (lhSort a) (lhSort b)) <-> In x a /\ ~ In x b.
Proof.
  intros Na Nb. rewrite difference_filter by (apply sort_sorted; assumption). rewrite filter_In, negb_true_iff, inb_false, !sort_In. tauto.
Qed.
Lemma NoDup_filter_map {A B} (g : A -> B) (f : A -> bool) l : NoDup (map g l) -> NoDup (map g (filter f l)).
Proof.
  induction l as [|x l IH]; cbn; intros N; auto. inversion N as [|? ? N1 N2]; subst. destruct (f x); cbn; auto. constructor; auto.
  intros H. apply N1. apply in_map_iff in H. destruct H as (y & E & Hy). apply filter_In in Hy. apply in_map_iff. exists y. tauto.
Qed.
Lemma sortdiff_types a b : NoDup (map lhType a) -> NoDup b -> NoDup (map lhType (lhDifference (lhSort a) (lhSort b))).
Proof.
  intros Na Nb. rewrite difference_filter; [|apply sort_sorted, (NoDup_map_inv _ _ Na)|apply sort_sorted, Nb].
  apply NoDup_filter_map. eapply Permutation_NoDup; [apply Permutation_map, Permutation_sym, sort_perm|assumption].
Qed.

(** * doGetListenersMap *)
Definition partTriples (s : Z) (si : spaceInfo) (pt : Z * Z) : list (Z * Z * listenerHosts) :=
  match aget Z.eqb (fst pt) (partsAlloc si) with Some peers => [(s, fst pt, mkLH (snd pt) peers)] | None => [] end.
Definition hostTriples (h : host) (s : Z) (si : spaceInfo) (he : host * list (Z * Z)) : list (Z * Z * listenerHosts) :=
  if hostEqb h (fst he) then flat_map (partTriples s si) (snd he) else [].
Definition spaceTriples (h : host) (e : Z * spaceInfo) : list (Z * Z * listenerHosts) :=
  flat_map (hostTriples h (fst e) (snd e)) (listeners (snd e)).
Definition triples (h : host) (c : localCache) : list (Z * Z * listenerHosts) := flat_map (spaceTriples h) c.
Definition tkey (t : Z * Z * listenerHosts) : Z * Z * Z := (fst t, lhType (snd t)).
Definition addT (m : listenersMap) (t : Z * Z * listenerHosts) : listenersMap := addListener m (fst (fst t)) (snd (fst t)) (snd t).
Lemma fold_left_flat {A B C} (f : C -> B -> C) (g : A -> list B) l : forall m, fold_left f (flat_map g l) m = fold_left (fun m x => fold_left f (g x) m) l m.
Proof. induction l as [|x l IH]; intros m; cbn; auto. rewrite fold_left_app. apply IH. Qed.
Lemma fold_left_ext {A B} (f g : A -> B -> A) l : (forall a b, f a b = g a b) -> forall a, fold_left f l a = fold_left g l a.
Proof. intros H. induction l as [|x l IH]; intros a; cbn; auto. rewrite H. apply IH. Qed.
Lemma doGet_triples h c : doGetListenersMap h c = fold_left addT (triples h c) [].
Proof.
  unfold doGetListenersMap, triples. rewrite fold_left_flat. apply fold_left_ext. intros m e. unfold addSpaceListeners, spaceTriples.
  rewrite fold_left_flat. apply fold_left_ext. intros m' he. unfold hostTriples. destruct (hostEqb h (fst he)); [|reflexivity].
  rewrite fold_left_flat. apply fold_left_ext. intros m2 pt. unfold partTriples. destruct (aget Z.eqb (fst pt) (partsAlloc (snd e))); reflexivity.
Qed.

Definition lget (m : listenersMap) (s p : Z) : list listenerHosts :=
  match aget Z.eqb s m with Some ps => match aget Z.eqb p ps with Some ls => ls | None => [] end | None => [] end.
(** distinct keys, nothing empty *)
Definition lmOk (m : listenersMap) : Prop :=
  NoDup (akeys m) /\ forall s ps, In (s, ps) m -> NoDup (akeys ps) /\ ps <> [] /\ forall p ls, In (p, ls) ps -> ls <> [].
Lemma aset_In_inv {V} k (v : V) l x : In x (aset Z.eqb k v l) -> x = (k, v) \/ In x l.
Proof.
  induction l as [|[k' v'] l IH]; cbn; [intros [H | []]; auto|].
  destruct (k =? k'); cbn; intros [H | H]; auto. destruct (IH H); auto.
Qed.
Lemma aset_nonnil {V} k (v : V) l : aset Z.eqb k v l <> [].
Proof. destruct l as [|[k' v'] l]; cbn; [discriminate|]. destruct (k =? k'); discriminate. Qed.
Lemma addListener_get m s p l s' p' : lget (addListener m s p l) s' p' = lget m s' p' ++ (if (s' =? s) && (p' =? p) then [l] else []).
Proof.
  unfold lget, addListener. rewrite (aget_aset Z.eqb Z.eqb_eq). destruct (Z.eqb_spec s' s) as [-> |]; cbn [andb]; [|rewrite app_nil_r; reflexivity].
  rewrite (aget_aset Z.eqb Z.eqb_eq). destruct (Z.eqb_spec p' p) as [-> |].
  - destruct (aget Z.eqb s m); reflexivity.
  - rewrite app_nil_r. destruct (aget Z.eqb s m); reflexivity.
Qed.
Lemma addListener_ok m s p l : lmOk m -> lmOk (addListener m s p l).
Proof.
  intros [N H]. unfold addListener. split; [apply (aset_keys Z.eqb Z.eqb_eq), N|].
  intros s' ps Hin. apply aset_In_inv in Hin. destruct Hin as [E | Hin]; [|exact (H s' ps Hin)]. injection E as -> ->.
  assert (G : NoDup (akeys (match aget Z.eqb s m with Some ps => ps | None => [] end)) /\
    forall p ls, In (p, ls) (match aget Z.eqb s m with Some ps => ps | None => [] end) -> ls <> []).
  { destruct (aget Z.eqb s m) as [ps|] eqn:E; [|split; [constructor|intros ? ? []]].
    apply (aget_In Z.eqb Z.eqb_eq) in E. destruct (H s ps E) as (H1 & _ & H3). auto. }
  destruct G as [G1 G2]. split; [apply (aset_keys Z.eqb Z.eqb_eq), G1|]. split; [apply aset_nonnil|].
  intros q ls Hq. apply aset_In_inv in Hq. destruct Hq as [E | Hq]; [|eapply G2; eassumption].
  injection E as -> ->. intros X. apply app_eq_nil in X. destruct X as [_ X]. discriminate X.
Qed.
Lemma fold_addT ts : forall m, lmOk m -> lmOk (fold_left addT ts m) /\
  forall s p, lget (fold_left addT ts m) s p = lget m s p ++ map snd (filter (fun t => (s =? fst (fst t)) && (p =? snd (fst t))) ts).
Proof.
  induction ts as [|[[s0 p0] l] ts IH]; intros m Hm; cbn [fold_left].
  - split; [assumption|]. intros. cbn. rewrite app_nil_r. reflexivity.
  - destruct (IH (addT m (s0, p0, l))) as [O L]. { apply addListener_ok, Hm. }
    split; [assumption|]. intros s p. rewrite L. unfold addT. cbn [fst snd]. rewrite addListener_get, <- app_assoc. f_equal.
    cbn [filter fst snd]. destruct ((s =? s0) && (p =? p0)); reflexivity.
Qed.
Lemma lmOk_nil : lmOk [].
Proof. split; [constructor|intros ? ? []]. Qed.

Lemma partTriples_In s si pt t : In t (partTriples s si pt) <-> exists peers, aget Z.eqb (fst pt) (partsAlloc si) = Some peers /\ t = (s, fst pt, mkLH (snd pt) peers).
Proof.
  unfold partTriples. destruct (aget Z.eqb (fst pt) (partsAlloc si)) as [peers|]; cbn.
  - split; [intros [<- | []]; eauto|intros (q & E & ->); injection E as ->; auto].
  - split; [intros []|intros (q & E & _); discriminate E].
Qed.
Lemma spaceTriples_In h e t : In t (spaceTriples h e) <->
  exists pts pt peers, In (h, pts) (listeners (snd e)) /\ In pt pts /\ aget Z.eqb (fst pt) (partsAlloc (snd e)) = Some peers /\ t = (fst e, fst pt, mkLH (snd pt) peers).
Proof.
  unfold spaceTriples. rewrite in_flat_map. split.
  - intros ([h1 pts] & Hl & Hin). unfold hostTriples in Hin. cbn [fst snd] in Hin. destruct (hostEqb h h1) eqn:Eh; [|destruct Hin]. apply hostEqb_ok in Eh. subst h1.
    apply in_flat_map in Hin. destruct Hin as (pt & Hp & Hin). apply partTriples_In in Hin. destruct Hin as (peers & E & ->). exists pts, pt, peers. auto.
  - intros (pts & pt & peers & Hl & Hp & E & ->). exists (h, pts). split; [assumption|]. unfold hostTriples. cbn [fst snd]. rewrite (eqb_self hostEqb hostEqb_ok).
    apply in_flat_map. exists pt. split; [assumption|]. apply partTriples_In. eauto.
Qed.
Lemma partTriples_nodup s si pts : NoDup pts -> NoDup (map tkey (flat_map (partTriples s si) pts)).
Proof.
  induction pts as [|[p t] pts IH]; intros N; cbn [flat_map map]; [constructor|]. inversion N as [|? ? N1 N2]; subst. rewrite map_app.
  apply NoDup_app_disj; [unfold partTriples; cbn [fst snd]; destruct (aget Z.eqb p (partsAlloc si)); repeat constructor; intros []|apply IH, N2|].
  intros x Hx Hx2. apply N1. apply in_map_iff in Hx, Hx2. destruct Hx as (a & <- & Ha), Hx2 as (b & E & Hb).
  apply partTriples_In in Ha. apply in_flat_map in Hb. destruct Hb as ([p2 t2] & Hp2 & Hb). apply partTriples_In in Hb.
  destruct Ha as (? & _ & ->), Hb as (? & _ & ->). cbn in E. injection E as -> ->. exact Hp2.
Qed.
Lemma spaceTriples_nodup h e : NoDup (akeys (listeners (snd e))) -> (forall h pts, In (h, pts) (listeners (snd e)) -> NoDup pts) ->
  NoDup (map tkey (spaceTriples h e)).
Proof.
  unfold spaceTriples. destruct e as [s si]. cbn [fst snd]. induction (listeners si) as [|[h1 pts] ls IH]; intros N H; cbn [flat_map map]; [constructor|].
  inversion N as [|? ? N1 N2]; subst. assert (IH' := IH N2 (fun h pts Hin => H h pts (or_intror Hin))). rewrite map_app.
  unfold hostTriples at 1. cbn [fst snd]. destruct (hostEqb h h1) eqn:Eh; [|exact IH']. apply hostEqb_ok in Eh. subst h1.
  assert (E0 : flat_map (hostTriples h s si) ls = []).
  { clear - N1. induction ls as [|[h2 pts] ls IH]; cbn [flat_map]; auto. cbn in N1. unfold hostTriples at 1. cbn [fst].
    rewrite (eqb_no hostEqb hostEqb_ok h h2) by (intros ->; apply N1; left; reflexivity). rewrite IH by tauto. reflexivity. }
  rewrite E0. cbn [map]. rewrite app_nil_r. apply partTriples_nodup, (H h pts). left. reflexivity.
Qed.
Lemma triples_nodup h c : lloaded c -> NoDup (map tkey (triples h c)).
Proof.
  intros [N H]. unfold triples. induction c as [|[s0 si] c IH]; cbn [flat_map map]; [constructor|]. inversion N as [|? ? N1 N2]; subst. rewrite map_app.
  apply NoDup_app_disj.
  - destruct (H s0 si (or_introl eq_refl)). apply spaceTriples_nodup; assumption.
  - apply IH; auto. intros s si' Hin. exact (H s si' (or_intror Hin)).
  - intros x Hx Hx2. apply N1. apply in_map_iff in Hx, Hx2. destruct Hx as (a & <- & Ha), Hx2 as (b & E & Hb).
    apply spaceTriples_In in Ha. apply in_flat_map in Hb. destruct Hb as ([s2 si2] & Hin & Hb). apply spaceTriples_In in Hb.
    destruct Ha as (? & ? & ? & _ & _ & _ & ->), Hb as (? & ? & ? & _ & _ & _ & ->). cbn in E. injection E as -> _ _. apply (in_map fst) in Hin. exact Hin.
Qed.

Definition typesOk (m : listenersMap) : Prop := forall s p, NoDup (map lhType (lget m s p)).
Lemma doGet_spec h c : lloaded c -> let m := doGetListenersMap h c in lmOk m /\ typesOk m /\
  forall s p l, In l (lget m s p) <-> listens h c s p (lhType l) (lhPeers l).
Proof.
  intros Hload. pose proof (triples_nodup h c Hload) as K. cbv zeta. rewrite doGet_triples. destruct (fold_addT (triples h c) [] lmOk_nil) as [O L].
  splits; [exact O| |].
  - (* a type occurs once for a part *)
    intros s p. rewrite L. cbn [lget aget app]. rewrite map_map.
    clear - K. induction (triples h c) as [|[[s1 p1] l] ts IH]; cbn [filter map fst snd]; [constructor|]. cbn [map] in K. inversion K as [|? ? K1 K2]; subst.
    destruct (Z.eqb_spec s s1) as [<- |]; cbn [andb]; [|apply IH, K2]. destruct (Z.eqb_spec p p1) as [<- |]; [|apply IH, K2].
    cbn [map snd]. constructor; [|apply IH, K2]. intros Hin. apply K1. apply in_map_iff in Hin. destruct Hin as ([[s2 p2] l2] & E & Hin). apply filter_In in Hin.
    destruct Hin as [Hin F]. cbn [fst snd] in *. apply andb_true_iff in F. rewrite !Z.eqb_eq in F. destruct F as [<- <-].
    apply in_map_iff. exists (s, p, l2). unfold tkey. cbn. split; [congruence|assumption].
  - intros s p l. rewrite L. cbn [lget aget app].
    assert (T : In (s, p, l) (triples h c) <-> listens h c s p (lhType l) (lhPeers l)).
    { unfold triples. rewrite in_flat_map. unfold listens. split.
      - intros ([s1 si] & Hc & Hin). apply spaceTriples_In in Hin. destruct Hin as (pts & [p1 t1] & peers & Hl & Hp & E & X). cbn [fst snd] in *.
        injection X as -> -> ->. exists si, pts. cbn. auto.
      - intros (si & pts & Hc & Hl & Hp & E). exists (s, si). split; [assumption|]. apply spaceTriples_In. exists pts, (p, lhType l), (lhPeers l). cbn. destruct l. auto. }
    rewrite <- T. rewrite in_map_iff. split.
    + intros ([[s1 p1] l1] & <- & Hin). apply filter_In in Hin. destruct Hin as [Hin F]. cbn in F. apply andb_true_iff in F. rewrite !Z.eqb_eq in F. destruct F as [-> ->]. exact Hin.
    + intros Hin. exists (s, p, l). split; [reflexivity|]. apply filter_In. split; [assumption|]. cbn. rewrite !Z.eqb_refl. reflexivity.
Qed.

(** * Following the notifications *)
Lemma lfollows_start a a' ns b : sameL a a' -> lfollowsAll a ns b -> lfollowsAll a' ns b.
Proof.
  intros [S1 S2]. destruct ns as [|n ns]; cbn.
  - intros [T1 T2]. split; intros; rewrite <- ?S1, <- ?S2; auto.
  - intros (m1 & F & R). exists m1. split; [|assumption]. inversion F; subst.
    + apply lf_space_added; intros; rewrite <- ?S1, <- ?S2; auto.
    + apply lf_space_removed; intros; rewrite <- ?S1, <- ?S2; auto.
    + apply lf_added; intros; rewrite <- ?S1, <- ?S2; auto.
    + apply lf_removed; intros; rewrite <- ?S1, <- ?S2; auto.
Qed.
Lemma lfollows_app l1 : forall l2 a b c, lfollowsAll a l1 b -> lfollowsAll b l2 c -> lfollowsAll a (l1 ++ l2) c.
Proof.
  induction l1 as [|n l1 IH]; intros l2 a b c; cbn.
  - intros S H. eapply lfollows_start; [|exact H]. destruct S. split; auto.
  - intros (m1 & F & R) H. exists m1. split; [assumption|]. eapply IH; eassumption.
Qed.
Lemma lfollows_end ns : forall a b b', lfollowsAll a ns b -> sameL b b' -> lfollowsAll a ns b'.
Proof.
  induction ns as [|n ns IH]; intros a b b'; cbn.
  - intros [S1 S2] [T1 T2]. split; intros; rewrite ?S1, ?S2; auto.
  - intros (m1 & F & R) S. exists m1. split; [assumption|]. eapply IH; eassumption.
Qed.

Definition pairs := list (Z * listenerHosts).
Definition pkey2 (x : Z * listenerHosts) : Z * Z := (fst x, lhType (snd x)).
Definition pfind (ps : pairs) (p t : Z) : option (list host) :=
  option_map (fun x => lhPeers (snd x)) (find (fun x => (p =? fst x) && (t =? lhType (snd x))) ps).
Definition lover (m : lmirror) (s : Z) (f : Z -> Z -> option (list host)) : lmirror :=
  mkLM (lspaces m) (fun s' p t => if s' =? s then f p t else peersOf m s' p t).
Lemma pfind_None ps p t : pfind ps p t = None <-> ~ In (p, t) (map pkey2 ps).
Proof.
  unfold pfind. destruct (find _ ps) as [x|] eqn:E; cbn.
  - apply find_some in E. destruct E as [Hx E]. apply andb_true_iff in E. rewrite !Z.eqb_eq in E. destruct E as [-> ->].
    split; [discriminate|]. intros Hn. exfalso. apply Hn. apply (in_map pkey2) in Hx. exact Hx.
  - split; [|reflexivity]. intros _ Hin. apply in_map_iff in Hin. destruct Hin as (x & Ex & Hx). pose proof (find_none _ _ E x Hx) as F. cbn in F.
    unfold pkey2 in Ex. injection Ex as <- <-. rewrite !Z.eqb_refl in F. discriminate F.
Qed.
Lemma pfind_cons p l ps p' t' : pfind ((p, l) :: ps) p' t' = if (p' =? p) && (t' =? lhType l) then Some (lhPeers l) else pfind ps p' t'.
Proof. unfold pfind. cbn [find fst snd]. destruct ((p' =? p) && (t' =? lhType l)); reflexivity. Qed.
Lemma pfind_In ps p t hs : NoDup (map pkey2 ps) -> pfind ps p t = Some hs <-> In (p, mkLH t hs) ps.
Proof.
  intros N. unfold pfind. split.
  - destruct (find _ ps) as [[p' l]|] eqn:E; cbn; [|discriminate]. apply find_some in E. destruct E as [Hx E]. cbn [fst snd] in E. apply andb_true_iff in E. rewrite !Z.eqb_eq in E.
    destruct E as [-> ->]. intros X. injection X as <-. destruct l. exact Hx.
  - intros Hin. destruct (find _ ps) as [[p' l]|] eqn:E.
    + apply find_some in E. destruct E as [Hx E]. cbn [fst snd] in E. apply andb_true_iff in E. rewrite !Z.eqb_eq in E. destruct E as [-> ->]. cbn.
      f_equal. assert (G : forall ps, NoDup (map pkey2 ps) -> forall x y, In x ps -> In y ps -> pkey2 x = pkey2 y -> x = y).
      { clear. induction ps as [|a ps IH]; cbn; intros N x y Hx Hy E; [contradiction|]. inversion N as [|? ? N1 N2]; subst.
        destruct Hx as [-> | Hx], Hy as [-> | Hy]; auto; exfalso; apply N1.
        - rewrite E. apply in_map, Hy.
        - rewrite <- E. apply in_map, Hx. }
      assert (X : (p', l) = (p', mkLH (lhType l) hs)) by (apply (G ps N); auto). injection X as X. rewrite X. reflexivity.
    + pose proof (find_none _ _ E _ Hin) as F. cbn in F. rewrite !Z.eqb_refl in F. discriminate F.
Qed.

Lemma adds_ok s adds : forall m, NoDup (map pkey2 adds) -> lspaces m s = true ->
  (forall p t, In (p, t) (map pkey2 adds) -> peersOf m s p t = None) ->
  lfollowsAll m (map (fun x => LAdded s (fst x) (snd x)) adds)
    (lover m s (fun p t => match pfind adds p t with Some hs => Some hs | None => peersOf m s p t end)).
Proof.
  induction adds as [|[p l] adds IH]; intros m N Hs Hn; cbn [map lfollowsAll].
  - split; intros; cbn; auto. destruct (Z.eqb_spec s0 s) as [-> |]; auto.
  - cbn [map] in N. inversion N as [|? ? N1 N2]; subst. cbn [fst snd].
    exists (lover m s (fun p' t' => if (p' =? p) && (t' =? lhType l) then Some (lhPeers l) else peersOf m s p' t')). split.
    + apply lf_added; auto; [apply Hn; left; reflexivity|]. intros s' p' t'. cbn. unfold at3. destruct (Z.eqb_spec s' s) as [-> |]; reflexivity.
    + eapply lfollows_end; [apply IH; auto|].
      * intros p' t' Hin. cbn. rewrite Z.eqb_refl. destruct (Z.eqb_spec p' p) as [-> |]; cbn [andb]; [|apply Hn; right; assumption].
        destruct (Z.eqb_spec t' (lhType l)) as [-> |]; [contradiction|]. apply Hn. right. assumption.
      * split; intros; cbn; auto. destruct (Z.eqb_spec s0 s) as [-> |]; [|reflexivity]. rewrite Z.eqb_refl.
        rewrite pfind_cons. destruct (Z.eqb_spec p0 p) as [-> |]; cbn [andb]; [|reflexivity]. destruct (Z.eqb_spec t (lhType l)) as [-> |]; [|reflexivity].
        apply (pfind_None adds p (lhType l)) in N1. rewrite N1. reflexivity.
Qed.
Lemma removes_ok s rems : forall m, NoDup (map pkey2 rems) ->
  (forall p t, In (p, t) (map pkey2 rems) -> peersOf m s p t <> None) ->
  lfollowsAll m (map (fun x => LRemoved s (fst x) (lhType (snd x))) rems)
    (lover m s (fun p t => match pfind rems p t with Some _ => None | None => peersOf m s p t end)).
Proof.
  induction rems as [|[p l] rems IH]; intros m N Hn; cbn [map lfollowsAll].
  - split; intros; cbn; auto. destruct (Z.eqb_spec s0 s) as [-> |]; auto.
  - cbn [map] in N. inversion N as [|? ? N1 N2]; subst. cbn [fst snd].
    exists (lover m s (fun p' t' => if (p' =? p) && (t' =? lhType l) then None else peersOf m s p' t')). split.
    + apply lf_removed; auto; [apply Hn; left; reflexivity|]. intros s' p' t'. cbn. unfold at3. destruct (Z.eqb_spec s' s) as [-> |]; reflexivity.
    + eapply lfollows_end; [apply IH; auto|].
      * intros p' t' Hin. cbn. rewrite Z.eqb_refl. destruct (Z.eqb_spec p' p) as [-> |]; cbn [andb]; [|apply Hn; right; assumption].
        destruct (Z.eqb_spec t' (lhType l)) as [-> |]; [contradiction|]. apply Hn. right. assumption.
      * split; intros; cbn; auto. destruct (Z.eqb_spec s0 s) as [-> |]; [|reflexivity]. rewrite Z.eqb_refl.
        rewrite pfind_cons. destruct (Z.eqb_spec p0 p) as [-> |]; cbn [andb]; [|reflexivity]. destruct (Z.eqb_spec t (lhType l)) as [-> |]; [|reflexivity].
        destruct (pfind rems p (lhType l)); reflexivity.
Qed.

(** The listeners of one space, flattened. *)
Definition flat (g : Z * list listenerHosts -> list listenerHosts) (ps : list (Z * list listenerHosts)) : pairs :=
  flat_map (fun pe => map (pair (fst pe)) (g pe)) ps.
Lemma flat_In g ps p l : In (p, l) (flat g ps) <-> exists ls, In (p, ls) ps /\ In l (g (p, ls)).
Proof.
  unfold flat. rewrite in_flat_map. split.
  - intros ([q ls] & Hin & H). apply in_map_iff in H. destruct H as (l' & E & H). cbn [fst] in E. injection E as -> ->. eauto.
  - intros (ls & H1 & H2). exists (p, ls). split; [assumption|]. apply in_map_iff. eauto.
Qed.
Lemma flat_nodup g ps : NoDup (akeys ps) -> (forall e, In e ps -> NoDup (map lhType (g e))) -> NoDup (map pkey2 (flat g ps)).
Proof.
  induction ps as [|[p ls] ps IH]; intros N H; cbn; [constructor|]. inversion N as [|? ? N1 N2]; subst. rewrite map_app. apply NoDup_app_disj.
  - rewrite map_map. cbn. specialize (H (p, ls) (or_introl eq_refl)). revert H. clear. generalize (g (p, ls)). induction l as [|a l IH]; cbn; intros N; [constructor|].
    inversion N as [|? ? N1 N2]; subst. constructor; auto. intros Hin. apply N1. apply in_map_iff in Hin. destruct Hin as (x & E & Hx). unfold pkey2 in E. cbn in E. injection E as E.
    apply in_map_iff. eauto.
  - apply IH; auto. intros e He. apply H. right. assumption.
  - intros x Hx Hx2. apply N1. apply in_map_iff in Hx, Hx2. destruct Hx as (a & <- & Ha), Hx2 as (b & E & Hb). apply in_map_iff in Ha. destruct Ha as (l & <- & _).
    destruct b as [q l']. apply (flat_In g ps q l') in Hb. destruct Hb as (ls' & Hb & _). unfold pkey2 in E. cbn in E. injection E as -> _. apply (in_map fst) in Hb. exact Hb.
Qed.

Definition sget (ps : list (Z * list listenerHosts)) (p : Z) : list listenerHosts := match aget Z.eqb p ps with Some ls => ls | None => [] end.
(** peers of the listener of a type for a part *)
Definition speers (ps : list (Z * list listenerHosts)) (p t : Z) : option (list host) := pfind (flat snd ps) p t.
Definition spaceOk (ps : list (Z * list listenerHosts)) : Prop := NoDup (akeys ps) /\ forall p ls, In (p, ls) ps -> NoDup (map lhType ls).
Definition agree (a b : list (Z * list listenerHosts)) : Prop := forall p t x y, speers a p t = Some x -> speers b p t = Some y -> x = y.
Lemma spaceOk_flat ps : spaceOk ps -> NoDup (map pkey2 (flat snd ps)).
Proof. intros [N H]. apply flat_nodup; auto. intros [p ls] Hin. apply (H p ls Hin). Qed.
Lemma speers_In ps p t hs : spaceOk ps -> speers ps p t = Some hs <-> In (mkLH t hs) (sget ps p).
Proof.
  intros O. unfold speers. rewrite pfind_In by (apply spaceOk_flat, O). rewrite flat_In. cbn [snd]. unfold sget. destruct O as [N _]. split.
  - intros (ls & H1 & H2). rewrite (In_aget Z.eqb Z.eqb_eq p ls ps N H1). exact H2.
  - destruct (aget Z.eqb p ps) as [ls|] eqn:E; [|intros []]. intros H. exists ls. split; [apply (aget_In Z.eqb Z.eqb_eq), E|exact H].
Qed.
Lemma types_nodup l : NoDup (map lhType l) -> NoDup l.
Proof. apply NoDup_map_inv. Qed.

(** what the first loop reports for a space known before, as pairs *)
Definition gNew (other : list (Z * list listenerHosts)) (pe : Z * list listenerHosts) : list listenerHosts :=
  match aget Z.eqb (fst pe) other with None => snd pe | Some ls => lhDifference (lhSort (snd pe)) (lhSort ls) end.
Lemma gNew_spec a b : spaceOk a -> spaceOk b -> NoDup (map pkey2 (flat (gNew b) a)) /\
  forall p l, In (p, l) (flat (gNew b) a) <-> In l (sget a p) /\ ~ In l (sget b p).
Proof.
  intros [Na Ha] [Nb Hb]. assert (Hb' : forall p ls, aget Z.eqb p b = Some ls -> NoDup (map lhType ls)) by (intros p ls E; apply (Hb p), (aget_In Z.eqb Z.eqb_eq), E).
  split.
  - apply flat_nodup; auto. intros [p ls] Hin. unfold gNew. cbn [fst snd]. destruct (aget Z.eqb p b) as [ols|] eqn:E; [|apply (Ha p ls Hin)].
    apply sortdiff_types; [apply (Ha p ls Hin)|apply types_nodup, (Hb' p ols E)].
  - intros p l. rewrite flat_In. unfold sget, gNew. cbn [fst snd]. split.
    + intros (ls & H1 & H2). rewrite (In_aget Z.eqb Z.eqb_eq p ls a Na H1). destruct (aget Z.eqb p b) as [ols|] eqn:E; [|split; [assumption|intros []]].
      apply sortdiff_In in H2; [assumption|apply types_nodup, (Ha p ls H1)|apply types_nodup, (Hb' p ols E)].
    + destruct (aget Z.eqb p a) as [ls|] eqn:Ea; [|intros [[] _]]. apply (aget_In Z.eqb Z.eqb_eq) in Ea. intros [H1 H2]. exists ls. split; [assumption|].
      destruct (aget Z.eqb p b) as [ols|] eqn:E; [|assumption]. apply sortdiff_In; [apply types_nodup, (Ha p ls Ea)|apply types_nodup, (Hb' p ols E)|]. split; assumption.
Qed.
Lemma gNew_find a b p t : spaceOk a -> spaceOk b -> agree a b ->
  pfind (flat (gNew b) a) p t = match speers a p t with Some hs => match speers b p t with Some _ => None | None => Some hs end | None => None end.
Proof.
  intros Oa Ob Ag. destruct (gNew_spec a b Oa Ob) as [N S].
  destruct (pfind (flat (gNew b) a) p t) as [hs|] eqn:E.
  - apply pfind_In in E; [|assumption]. apply S in E. destruct E as [E1 E2]. apply (speers_In a p t hs Oa) in E1. rewrite E1.
    destruct (speers b p t) as [hs'|] eqn:Eb; [|reflexivity]. exfalso. apply E2. apply (speers_In b p t hs Ob). rewrite Eb. f_equal. symmetry. eapply Ag; eassumption.
  - destruct (speers a p t) as [hs|] eqn:Ea; [|reflexivity]. destruct (speers b p t) as [hs'|] eqn:Eb; [reflexivity|]. exfalso.
    apply pfind_None in E. apply E. apply in_map_iff. exists (p, mkLH t hs). split; [reflexivity|]. apply S. split; [apply (speers_In a p t hs Oa), Ea|].
    intros Hin. apply (speers_In b p t hs Ob) in Hin. congruence.
Qed.
Lemma pfind_key ps p t : In (p, t) (map pkey2 ps) <-> pfind ps p t <> None.
Proof.
  rewrite pfind_None. split; [tauto|]. intros H. destruct (In_dec (fun a b : Z * Z => ltac:(decide equality; apply Z.eq_dec)) (p, t) (map pkey2 ps)) as [Hi | Hi]; [assumption|contradiction].
Qed.

Lemma map_flat_LAdded s g ps : flat_map (fun pe => map (LAdded s (fst pe)) (g pe)) ps = map (fun x => LAdded s (fst x) (snd x)) (flat g ps).
Proof.
  unfold flat. induction ps as [|[p ls] ps IH]; cbn [flat_map]; [reflexivity|]. rewrite map_app, <- IH, map_map. reflexivity.
Qed.
Lemma map_flat_LRemoved s g ps : flat_map (fun pe => map (fun l => LRemoved s (fst pe) (lhType l)) (g pe)) ps = map (fun x => LRemoved s (fst x) (lhType (snd x))) (flat g ps).
Proof.
  unfold flat. induction ps as [|[p ls] ps IH]; cbn [flat_map]; [reflexivity|]. rewrite map_app, <- IH, map_map. reflexivity.
Qed.
Lemma ldiffNewPart_g s old ps : flat_map (ldiffNewPart s old) ps = map (fun x => LAdded s (fst x) (snd x)) (flat (gNew old) ps).
Proof.
  rewrite <- map_flat_LAdded. rewrite !flat_map_concat_map. f_equal. apply map_ext. intros [p ls]. unfold ldiffNewPart, gNew. cbn [fst snd]. destruct (aget Z.eqb p old); reflexivity.
Qed.
Lemma ldiffOldPart_g s new ps : flat_map (ldiffOldPart s new) ps = map (fun x => LRemoved s (fst x) (lhType (snd x))) (flat (gNew new) ps).
Proof.
  rewrite <- map_flat_LRemoved. rewrite !flat_map_concat_map. f_equal. apply map_ext. intros [p ls]. unfold ldiffOldPart, gNew. cbn [fst snd]. destruct (aget Z.eqb p new); reflexivity.
Qed.

(** * Whole maps *)
Definition lhas (m : listenersMap) (s : Z) : bool := match aget Z.eqb s m with Some _ => true | None => false end.
Definition lpeers (m : listenersMap) (s p t : Z) : option (list host) := match aget Z.eqb s m with Some ps => speers ps p t | None => None end.
Definition mapOk (m : listenersMap) : Prop := NoDup (akeys m) /\ forall s ps, In (s, ps) m -> spaceOk ps.
Definition mapsAgree (a b : listenersMap) : Prop := forall s p t x y, lpeers a s p t = Some x -> lpeers b s p t = Some y -> x = y.
Lemma mapOk_tail e m : mapOk (e :: m) -> mapOk m.
Proof. intros [N H]. inversion N; subst. split; [assumption|]. intros s ps Hin. apply (H s ps). right. assumption. Qed.
Lemma mapOk_get m s ps : mapOk m -> aget Z.eqb s m = Some ps -> spaceOk ps.
Proof. intros [_ H] E. apply (H s ps), (aget_In Z.eqb Z.eqb_eq), E. Qed.
Lemma speers_nil p t : speers [] p t = None.
Proof. reflexivity. Qed.

Lemma lphase1 old : mapOk old -> forall new m, mapOk new -> mapsAgree new old ->
  (forall s, In s (akeys new) -> lspaces m s = lhas old s /\ forall p t, peersOf m s p t = lpeers old s p t) ->
  lfollowsAll m (flat_map (ldiffNewSpace old) new)
    (mkLM (fun s => lhas new s || lspaces m s) (fun s p t => match lpeers new s p t with Some hs => Some hs | None => peersOf m s p t end)).
Proof.
  intros Hold. induction new as [|[s ps] new IH]; intros m Hnew Hag Hm; cbn [flat_map].
  - cbn. split; reflexivity.
  - assert (G0 : aget Z.eqb s ((s, ps) :: new) = Some ps) by (cbn; rewrite Z.eqb_refl; reflexivity).
    pose proof (mapOk_get _ s ps Hnew G0) as Hps.
    pose proof (proj1 Hnew) as N. inversion N as [|? ? N1 N2]; subst. destruct (Hm s (or_introl eq_refl)) as [Hs Hp].
    assert (Gn : aget Z.eqb s new = None) by (apply (aget_None Z.eqb Z.eqb_eq); assumption).
    set (m1 := mkLM (fun s' => (s' =? s) || lspaces m s') (peersOf m)).
    set (m2 := lover m1 s (fun p t => match speers ps p t with Some hs => Some hs | None => peersOf m1 s p t end)).
    apply lfollows_app with (b := m2).
    + unfold ldiffNewSpace. cbn [fst snd]. unfold lhas in Hs. destruct (aget Z.eqb s old) as [ops|] eqn:G; cbn in Hs.
      * eapply lfollows_start with (a := m1).
        { split; intros; cbn; auto. destruct (Z.eqb_spec s0 s) as [-> |]; auto. }
        pose proof (mapOk_get old s ops Hold G) as Hops.
        assert (Ag : agree ps ops).
        { intros p t x y Hx Hy. apply (Hag s p t x y); unfold lpeers; [rewrite G0|rewrite G]; assumption. }
        assert (Hp' : forall p t, peersOf m s p t = speers ops p t) by (intros p t; rewrite Hp; unfold lpeers; rewrite G; reflexivity).
        rewrite ldiffNewPart_g. eapply lfollows_end; [apply adds_ok; [apply gNew_spec; assumption|cbn; rewrite Z.eqb_refl; reflexivity|]|].
        -- intros p t Hin. apply pfind_key in Hin. rewrite gNew_find in Hin by assumption. cbn. rewrite Hp'.
           destruct (speers ps p t); [|congruence]. destruct (speers ops p t); [congruence|reflexivity].
        -- split; intros; cbn; auto. destruct (Z.eqb_spec s0 s) as [-> |]; [|reflexivity]. rewrite gNew_find by assumption. rewrite Hp'.
           destruct (speers ps p t) as [hs|] eqn:E1; [|reflexivity]. destruct (speers ops p t) as [hs'|] eqn:E2; [|reflexivity]. f_equal. symmetry. eapply Ag; eassumption.
      * cbn [lfollowsAll]. exists m1. split.
        -- apply lf_space_added; auto.
        -- rewrite (map_flat_LAdded s snd ps). eapply lfollows_end; [apply adds_ok; [apply spaceOk_flat, Hps|cbn; rewrite Z.eqb_refl; reflexivity|]|].
           ++ intros p t _. cbn. rewrite Hp. unfold lpeers. rewrite G. reflexivity.
           ++ split; intros; cbn; reflexivity.
    + eapply lfollows_end; [apply IH; [eapply mapOk_tail; eassumption| |]|].
      * intros s' p t x y Hx Hy. apply (Hag s' p t x y); [|assumption]. unfold lpeers in *. cbn [aget]. destruct (Z.eqb_spec s' s) as [-> |]; [|assumption]. rewrite Gn in Hx. discriminate Hx.
      * intros s' Hs'. assert (s' <> s) by (intros ->; contradiction). cbn.
        destruct (Z.eqb_spec s' s); [congruence|]. cbn. apply Hm. right. exact Hs'.
      * split; intros; cbn; unfold lhas, lpeers; cbn [aget]; destruct (Z.eqb_spec s0 s) as [-> |]; auto.
        -- rewrite Gn. reflexivity.
        -- rewrite Gn. cbn. reflexivity.
Qed.

Lemma lphase2 new : mapOk new -> forall old m, mapOk old -> mapsAgree old new ->
  (forall s, In s (akeys old) -> lspaces m s = true /\ (forall p t, lpeers old s p t <> None -> peersOf m s p t <> None) /\
     (lhas new s = false -> forall p t, lpeers old s p t = None -> peersOf m s p t = None)) ->
  lfollowsAll m (flat_map (ldiffOldSpace new) old)
    (mkLM (fun s => if lhas old s && negb (lhas new s) then false else lspaces m s)
          (fun s p t => match lpeers old s p t, lpeers new s p t with Some _, None => None | _, _ => peersOf m s p t end)).
Proof.
  intros Hnew. induction old as [|[s ps] old IH]; intros m Hold Hag Hm; cbn [flat_map].
  - cbn. split; reflexivity.
  - assert (G0 : aget Z.eqb s ((s, ps) :: old) = Some ps) by (cbn; rewrite Z.eqb_refl; reflexivity).
    pose proof (mapOk_get _ s ps Hold G0) as Hps.
    pose proof (proj1 Hold) as N. inversion N as [|? ? N1 N2]; subst. destruct (Hm s (or_introl eq_refl)) as (Hs & Hp & Hq).
    assert (Gn : aget Z.eqb s old = None) by (apply (aget_None Z.eqb Z.eqb_eq); assumption).
    assert (HpP : forall p t, speers ps p t <> None -> peersOf m s p t <> None) by (intros p t H; apply Hp; unfold lpeers; rewrite G0; exact H).
    set (m1 := lover m s (fun p t => match speers ps p t, lpeers new s p t with Some _, None => None | _, _ => peersOf m s p t end)).
    set (m2 := mkLM (fun s' => if (s' =? s) && negb (lhas new s) then false else lspaces m s') (peersOf m1)).
    apply lfollows_app with (b := m2).
    + unfold ldiffOldSpace. cbn [fst snd]. destruct (aget Z.eqb s new) as [nps|] eqn:G.
      * pose proof (mapOk_get new s nps Hnew G) as Hnps.
        assert (Ag : agree ps nps).
        { intros p t x y Hx Hy. apply (Hag s p t x y); unfold lpeers; [rewrite G0|rewrite G]; assumption. }
        rewrite ldiffOldPart_g. eapply lfollows_end; [apply removes_ok; [apply gNew_spec; assumption|]|].
        -- intros p t Hin. apply pfind_key in Hin. rewrite gNew_find in Hin by assumption. apply HpP. destruct (speers ps p t); congruence.
        -- split; intros; cbn; unfold lhas, lpeers; rewrite G.
           ++ cbn. rewrite andb_false_r. reflexivity.
           ++ destruct (Z.eqb_spec s0 s) as [-> |]; [|reflexivity]. rewrite gNew_find by assumption. destruct (speers ps p t), (speers nps p t); reflexivity.
      * apply lfollows_app with (b := m1).
        -- rewrite (map_flat_LRemoved s snd ps). eapply lfollows_end; [apply removes_ok; [apply spaceOk_flat, Hps|]|].
           ++ intros p t Hin. apply pfind_key in Hin. apply HpP. exact Hin.
           ++ split; intros; cbn; auto. unfold lpeers. rewrite G. fold (speers ps p t). reflexivity.
        -- cbn. exists m2. split; [|split; auto]. apply lf_space_removed; auto.
           ++ intros p t. cbn. rewrite Z.eqb_refl. unfold lpeers. rewrite G. destruct (speers ps p t) eqn:E; [reflexivity|].
              apply Hq; unfold lhas, lpeers; [rewrite G; reflexivity|rewrite G0; exact E].
           ++ intros s'. cbn. unfold lhas. rewrite G. cbn. rewrite andb_true_r. destruct (s' =? s); reflexivity.
    + eapply lfollows_end; [apply IH; [eapply mapOk_tail; eassumption| |]|].
      * intros s' p t x y Hx Hy. apply (Hag s' p t x y); [|assumption]. unfold lpeers in *. cbn [aget]. destruct (Z.eqb_spec s' s) as [-> |]; [|assumption]. rewrite Gn in Hx. discriminate Hx.
      * intros s' Hs'. assert (Hne : s' <> s) by (intros ->; contradiction). cbn.
        destruct (Z.eqb_spec s' s); [congruence|]. cbn. destruct (Hm s' (or_intror Hs')) as (A1 & A2 & A3). splits; auto.
        -- intros p t Hl. apply A2. unfold lpeers in *. cbn [aget]. destruct (Z.eqb_spec s' s); [congruence|assumption].
        -- intros Hn p t Hl. apply A3; auto. unfold lpeers in *. cbn [aget]. destruct (Z.eqb_spec s' s); [congruence|assumption].
      * split; intros; cbn; unfold lhas, lpeers; cbn [aget]; destruct (Z.eqb_spec s0 s) as [-> |]; auto.
        -- rewrite Gn. reflexivity.
        -- rewrite Gn. cbn. reflexivity.
Qed.

Definition lmirrorOf (m : listenersMap) : lmirror := mkLM (lhas m) (lpeers m).

(** unordered_map equality *)
Lemma umapEqb_get {V} (eqb : V -> V -> bool) (a b : list (Z * V)) : NoDup (akeys a) -> NoDup (akeys b) -> umapEqb eqb a b = true ->
  forall k, match aget Z.eqb k a, aget Z.eqb k b with Some x, Some y => eqb x y = true | None, None => True | _, _ => False end.
Proof.
  intros Na Nb H k. unfold umapEqb in H. apply andb_true_iff in H. destruct H as [Hl Hf]. apply Nat.eqb_eq in Hl. rewrite forallb_forall in Hf.
  destruct (aget Z.eqb k a) as [x|] eqn:Ea.
  - apply (aget_In Z.eqb Z.eqb_eq) in Ea. specialize (Hf _ Ea). cbn in Hf. destruct (aget Z.eqb k b); [exact Hf|discriminate Hf].
  - destruct (aget Z.eqb k b) as [y|] eqn:Eb; [|exact I]. apply (aget_None Z.eqb Z.eqb_eq) in Ea. apply Ea.
    assert (Hi : incl (akeys a) (akeys b)).
    { intros q Hq. apply in_map_iff in Hq. destruct Hq as ([q' v] & <- & Hq). specialize (Hf _ Hq). cbn in Hf. cbn.
      destruct (aget Z.eqb q' b) as [w|] eqn:E; [|discriminate Hf]. apply (aget_In Z.eqb Z.eqb_eq) in E. apply (in_map fst) in E. exact E. }
    assert (Hi2 : incl (akeys b) (akeys a)) by (apply NoDup_length_incl; auto; unfold akeys; rewrite !map_length; lia).
    apply Hi2. apply (aget_In Z.eqb Z.eqb_eq) in Eb. apply (in_map fst) in Eb. exact Eb.
Qed.
Lemma lhListEqb_ok a : forall b, lhListEqb a b = true -> a = b.
Proof. induction a as [|x a IH]; intros [|y b]; cbn; try discriminate; auto. rewrite andb_true_iff. intros [H1 H2]. apply lhEqb_ok in H1. rewrite H1, (IH b H2). reflexivity. Qed.
Lemma lmapEqb_same new old : mapOk new -> mapOk old -> lmapEqb new old = true -> sameL (lmirrorOf old) (lmirrorOf new).
Proof.
  intros On Oo H. pose proof (umapEqb_get _ new old (proj1 On) (proj1 Oo) H) as K.
  assert (P : forall s ps ops, aget Z.eqb s new = Some ps -> aget Z.eqb s old = Some ops -> umapEqb lhListEqb ps ops = true ->
    forall p t, speers ops p t = speers ps p t).
  { intros s ps ops E1 E2 E p t. pose proof (mapOk_get new s ps On E1) as O1. pose proof (mapOk_get old s ops Oo E2) as O2.
    pose proof (umapEqb_get _ ps ops (proj1 O1) (proj1 O2) E p) as Kp.
    assert (Es : sget ps p = sget ops p).
    { unfold sget. destruct (aget Z.eqb p ps), (aget Z.eqb p ops); try contradiction; auto. apply lhListEqb_ok, Kp. }
    destruct (speers ops p t) as [hs|] eqn:F.
    - symmetry. apply (speers_In ps p t hs O1). rewrite Es. apply (speers_In ops p t hs O2), F.
    - destruct (speers ps p t) as [hs|] eqn:F2; [|reflexivity]. apply (speers_In ps p t hs O1) in F2. rewrite Es in F2. apply (speers_In ops p t hs O2) in F2. congruence. }
  split; intros; cbn; unfold lhas, lpeers; specialize (K s).
  - destruct (aget Z.eqb s new), (aget Z.eqb s old); try contradiction; reflexivity.
  - destruct (aget Z.eqb s new) as [ps|] eqn:E1, (aget Z.eqb s old) as [ops|] eqn:E2; try contradiction; [|reflexivity]. exact (P s ps ops E1 E2 K p t).
Qed.

Lemma listenerDiffMaps_follows old new : mapOk old -> mapOk new -> mapsAgree old new ->
  lfollowsAll (lmirrorOf old) (listenerDiffMaps old new) (lmirrorOf new).
Proof.
  intros Ho Hn Hag. unfold listenerDiffMaps. destruct (lmapEqb new old) eqn:E; [apply lmapEqb_same; assumption|].
  assert (Hag' : mapsAgree new old) by (intros s p t x y Hx Hy; symmetry; exact (Hag s p t y x Hy Hx)).
  eapply lfollows_app; [apply lphase1; auto|]. eapply lfollows_end; [apply lphase2; auto|].
  - intros s Hs. cbn. assert (lhas old s = true) as Es.
    { unfold lhas. destruct (aget Z.eqb s old) eqn:G; [reflexivity|]. apply (aget_None Z.eqb Z.eqb_eq) in G. contradiction. }
    rewrite Es, orb_true_r. splits; auto.
    + intros p t Hl. destruct (lpeers new s p t); [discriminate|exact Hl].
    + intros Hns p t Hl. unfold lhas in Hns. unfold lpeers at 1. destruct (aget Z.eqb s new); [discriminate Hns|]. exact Hl.
  - split; intros; cbn.
    + destruct (lhas old s), (lhas new s); reflexivity.
    + destruct (lpeers old s p t), (lpeers new s p t); reflexivity.
Qed.

Lemma loaded_map h c : lloaded c -> mapOk (doGetListenersMap h c) /\
  (forall s p t hs, lpeers (doGetListenersMap h c) s p t = Some hs <-> listens h c s p t hs) /\
  (forall s, lhas (doGetListenersMap h c) s = true <-> exists p t hs, listens h c s p t hs).
Proof.
  intros Hl. destruct (doGet_spec h c Hl) as (O & T & S). set (m := doGetListenersMap h c) in *.
  assert (Om : mapOk m).
  { destruct O as [N O]. split; [assumption|]. intros s ps Hin. destruct (O s ps Hin) as (O1 & _ & _). split; [assumption|].
    intros p ls Hp. specialize (T s p). unfold lget in T. rewrite (In_aget Z.eqb Z.eqb_eq s ps m N Hin), (In_aget Z.eqb Z.eqb_eq p ls ps O1 Hp) in T. exact T. }
  assert (P : forall s p t hs, lpeers m s p t = Some hs <-> listens h c s p t hs).
  { intros s p t hs. change t with (lhType (mkLH t hs)) at 2. change hs with (lhPeers (mkLH t hs)) at 2. rewrite <- S. unfold lpeers, lget.
    destruct (aget Z.eqb s m) as [ps|] eqn:E; [|split; [discriminate|intros []]]. apply (speers_In ps p t hs (mapOk_get m s ps Om E)). }
  splits; auto. intros s. unfold lhas. split.
  - destruct (aget Z.eqb s m) as [ps|] eqn:E; [|discriminate]. intros _. pose proof (aget_In Z.eqb Z.eqb_eq _ _ _ E) as Hin. destruct O as [N O].
    destruct (O s ps Hin) as (O1 & O2 & O3). destruct ps as [|[p ls] ps]; [congruence|]. destruct ls as [|l ls]; [exfalso; apply (O3 p []); [left; reflexivity|reflexivity]|].
    exists p, (lhType l), (lhPeers l). apply S. unfold lget. rewrite E. cbn. rewrite Z.eqb_refl. left. reflexivity.
  - intros (p & t & hs & A). apply P in A. unfold lpeers in A. destruct (aget Z.eqb s m); [reflexivity|discriminate A].
Qed.

(** * C53 *)

(** Following the notifications turns a mirror of the old listeners into one of the new listeners, provided no
    listener that stays has its peers changed. *)
Theorem C53_notifications_reproduce : forall local old new mo, lloaded old -> lloaded new -> ldescribes local old mo ->
  (forall s p t hs hs', listens local old s p t hs -> listens local new s p t hs' -> hs = hs') ->
  exists mn, lfollowsAll mo (listenerDiff local old new) mn /\ ldescribes local new mn.
Proof.
  intros local old new mo Lo Ln [D1 D2] Hag. destruct (loaded_map local old Lo) as (Oo & Po & Ho). destruct (loaded_map local new Ln) as (On & Pn & Hn).
  exists (lmirrorOf (doGetListenersMap local new)). split.
  - eapply lfollows_start with (a := lmirrorOf (doGetListenersMap local old)).
    + split; intros; cbn.
      * apply eq_true_iff_eq. rewrite Ho, D2. reflexivity.
      * destruct (peersOf mo s p t) as [hs|] eqn:E; [apply Po, D1, E|]. destruct (lpeers (doGetListenersMap local old) s p t) as [hs|] eqn:F; [|reflexivity].
        apply Po, D1 in F. congruence.
    + apply listenerDiffMaps_follows; auto. intros s p t x y Hx Hy. apply Po in Hx. apply Pn in Hy. exact (Hag s p t x y Hx Hy).
  - split; cbn; [exact Pn|exact Hn].
Qed.

(** Two spaces: one appears, one goes, and in the third a part gets a listener and another part loses one. *)
Definition la : host := (B "a", 1).
Definition lb : host := (B "b", 2).
Definition lSpace (alloc : list (Z * list host)) (ls : list (host * list (Z * Z))) : spaceInfo := mkSI (reverse alloc) alloc ls.
Definition exLOld : localCache := [(1, lSpace [(1, [lb]); (2, [lb]); (3, [lb])] [(la, [(1, 1); (2, 1)])]); (2, lSpace [(1, [lb])] [(la, [(1, 1)])])].
Definition exLNew : localCache := [(1, lSpace [(1, [lb]); (2, [lb]); (3, [lb])] [(lb, [(1, 0)]); (la, [(2, 1); (3, 1); (2, 0)])]); (3, lSpace [(1, [lb])] [(la, [(1, 1)])])].
Example C53_ex : listenerDiff la exLOld exLNew =
  [LAdded 1 2 (mkLH 0 [lb]); LAdded 1 3 (mkLH 1 [lb]); LSpaceAdded 3; LAdded 3 1 (mkLH 1 [lb]); LRemoved 1 1 1; LRemoved 2 1 1; LSpaceRemoved 2].
Proof. vm_compute. reflexivity. Qed.
Ltac nodup := vm_compute; repeat (first [apply NoDup_nil | apply NoDup_cons; [cbn; intuition congruence|]]).
Example C53_ex_loaded : lloaded exLOld /\ lloaded exLNew.
Proof.
  split; (split; [nodup|]); intros s si [H | [H | []]]; injection H as <- <-; (split; [nodup|]);
    intros h pts Hin; cbn in Hin; repeat destruct Hin as [Hin | Hin]; try contradiction; injection Hin as <- <-; nodup.
Qed.

(** False as stated: when the replicas of a listened part change, the listener is reported as added (with the new
    peers) and then, by its type alone, as removed, so whoever follows the notifications ends without it; the
    strict reading fails already at the first notification, for a listener that is still there. *)
Definition exPOld : localCache := [(1, lSpace [(1, [lb])] [(la, [(1, 1)])])].
Definition exPNew : localCache := [(1, lSpace [(1, [lb; (B "c", 3)])] [(la, [(1, 1)])])].
Theorem C53_peers_changed_refuted :
  lloaded exPOld /\ lloaded exPNew /\ listens la exPNew 1 1 1 [lb; (B "c", 3)] /\
  listenerDiff la exPOld exPNew = [LAdded 1 1 (mkLH 1 [lb; (B "c", 3)]); LRemoved 1 1 1] /\
  forall mo mn, ldescribes la exPOld mo -> ~ (lfollowsAll mo (listenerDiff la exPOld exPNew) mn).
Proof.
  assert (L : lloaded exPOld /\ lloaded exPNew).
  { split; (split; [nodup|]); intros s si [H | []]; injection H as <- <-; (split; [nodup|]);
      intros h pts Hin; cbn in Hin; repeat destruct Hin as [Hin | Hin]; try contradiction; injection Hin as <- <-; nodup. }
  destruct L as [L1 L2]. split; [assumption|]. split; [assumption|]. split; [|split].
  - exists (lSpace [(1, [lb; (B "c", 3)])] [(la, [(1, 1)])]), [(1, 1)]. cbn. splits; auto.
  - vm_compute. reflexivity.
  - intros mo mn [D1 _] H. assert (E : listenerDiff la exPOld exPNew = [LAdded 1 1 (mkLH 1 [lb; (B "c", 3)]); LRemoved 1 1 1]) by (vm_compute; reflexivity).
    rewrite E in H. cbn in H. destruct H as (m1 & F & _). inversion F; subst. cbn in *.
    assert (X : peersOf mo 1 1 1 = Some [lb]). { apply D1. exists (lSpace [(1, [lb])] [(la, [(1, 1)])]), [(1, 1)]. cbn. splits; auto. }
    congruence.
Qed.

Print Assumptions C53_notifications_reproduce.
Print Assumptions C53_peers_changed_refuted.
