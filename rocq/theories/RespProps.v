(** Property C50: the response collected from many hosts. *)
From Coq Require Import Permutation.
From Verif Require Import Prelude Trans AssocModel RespModel.
Open Scope Z_scope.

(** * Specification of the collected response *)
Section Spec.
Context (n : nat) (ans : nat -> answer).
Definition responded (h : nat) : bool := match ans h with AResp _ _ => true | AExc _ => false end.
Definition failing (h : nat) : bool := match ans h with AResp [] _ => false | _ => true end.
(** host [h] reports part [p] as failed with [code] *)
Definition reports (h : nat) (p code : Z) : Prop :=
  match ans h with AResp failed _ => In (p, code) failed | AExc parts => In p parts /\ code = E_RPC_FAILURE end.
Definition latencyOf (h : nat) : Z := match ans h with AResp _ l => l | AExc _ => 0 end.

(** One entry per host: every host that responded has one response and one latency, every failing host counts
    once, and the failed parts are exactly those reported. *)
Definition complete (r : rpcResp) : Prop :=
  let all := seq 0 n in
  Permutation (responses r) (filter responded all) /\
  Permutation (hostLatency r) (map (fun h => (h, latencyOf h)) (filter responded all)) /\
  failedReqs r = Z.of_nat (length (filter failing all)) /\
  allOk r = forallb (fun h => negb (failing h)) all /\
  (forall p, In p (map fst (failedParts r)) <-> exists h code, (h < n)%nat /\ reports h p code) /\
  (forall p code, In (p, code) (failedParts r) -> exists h, (h < n)%nat /\ reports h p code) /\
  NoDup (map fst (failedParts r)) /\
  maxLatency r = fold_right Z.max 0 (map latencyOf (filter responded all)).
End Spec.

(** * What a sequence of updates leaves *)
Definition uAdds (u : update) : list nat := match u with UAdd h => [h] | _ => [] end.
Definition uLats (u : update) : list (nat * Z) := match u with ULatency h l => [(h, l)] | _ => [] end.
Definition uMarks (u : update) : list unit := match u with UMark => [tt] | _ => [] end.
Definition uParts (u : update) : list (Z * Z) :=
  match u with UFailedParts ps c => map (fun p => (p, c)) ps | UFailedPart p c => [(p, c)] | _ => [] end.

Definition applyAll (us : list update) : rpcResp := fold_left applyUpd us respInit.

Lemma fold_parts (ps : list Z) (c : Z) (m : list (Z * Z)) : fold_left (fun m p => aadd Z.eqb p c m) ps m = fold_left (fun m pc => aadd Z.eqb (fst pc) (snd pc) m) (map (fun p => (p, c)) ps) m.
Proof. revert m. induction ps as [|p ps IH]; intros m; cbn; auto. Qed.

Lemma applyAll_fields us : forall r, let r' := fold_left applyUpd us r in
  responses r' = responses r ++ flat_map uAdds us /\
  hostLatency r' = hostLatency r ++ flat_map uLats us /\
  failedReqs r' = failedReqs r + Z.of_nat (length (flat_map uMarks us)) /\
  allOk r' = allOk r && (match flat_map uMarks us with [] => true | _ => false end) /\
  failedParts r' = fold_left (fun m pc => aadd Z.eqb (fst pc) (snd pc) m) (flat_map uParts us) (failedParts r) /\
  maxLatency r' = fold_left Z.max (map snd (flat_map uLats us)) (maxLatency r).
Proof.
  induction us as [|u us IH]; intros r; cbn [fold_left flat_map].
  - cbn. rewrite !app_nil_r, andb_true_r. splits; auto. lia.
  - specialize (IH (applyUpd r u)). cbv zeta in *. destruct IH as (H1 & H2 & H3 & H4 & H5 & H6).
    rewrite H1, H2, H3, H4, H5, H6.
    destruct u; cbn [applyUpd responses hostLatency failedReqs allOk failedParts maxLatency uAdds uLats uMarks uParts app].
    + rewrite fold_left_app, fold_parts. splits; auto.
    + splits; auto.
    + splits; auto. * cbn [length]. lia. * rewrite andb_false_r. reflexivity.
    + rewrite <- app_assoc. splits; auto. cbn [map snd fold_left]. f_equal. destruct (Z.ltb_spec (maxLatency r) lat); lia.
    + rewrite <- app_assoc. splits; auto.
Qed.

Lemma aadd_In {V} k (v : V) m x : In x (aadd Z.eqb k v m) -> In x m \/ x = (k, v).
Proof. unfold aadd. destruct (aget Z.eqb k m); auto. intros H. apply in_app_iff in H. destruct H as [H | [H | []]]; auto. Qed.
Lemma aadd_keys {V} k (v : V) m p : In p (map fst (aadd Z.eqb k v m)) <-> In p (map fst m) \/ p = k.
Proof.
  unfold aadd. destruct (aget Z.eqb k m) eqn:E.
  - split; auto. intros [H | ->]; auto. apply (aget_In Z.eqb Z.eqb_eq) in E. apply (in_map fst) in E. exact E.
  - rewrite map_app, in_app_iff. cbn. intuition.
Qed.
Lemma aadd_nodup {V} k (v : V) m : NoDup (map fst m) -> NoDup (map fst (aadd Z.eqb k v m)).
Proof.
  intros N. unfold aadd. destruct (aget Z.eqb k m) eqn:E; auto. rewrite map_app. cbn.
  apply (aget_None Z.eqb Z.eqb_eq) in E. apply Permutation_NoDup with (l := k :: map fst m); [apply Permutation_cons_append|constructor; auto].
Qed.
Lemma fold_aadd (pcs : list (Z * Z)) : forall m : list (Z * Z), let m' := fold_left (fun m pc => aadd Z.eqb (fst pc) (snd pc) m) pcs m in
  (forall p, In p (map fst m') <-> In p (map fst m) \/ In p (map fst pcs)) /\
  (forall x, In x m' -> In x m \/ In x pcs) /\ (NoDup (map fst m) -> NoDup (map fst m')).
Proof.
  induction pcs as [|[p c] pcs IH]; intros m; cbn [fold_left].
  - cbn. splits; auto; intros; tauto.
  - specialize (IH (aadd Z.eqb p c m)). cbv zeta in *. cbn [fst snd]. destruct IH as (H1 & H2 & H3). splits.
    + intros q. rewrite H1, aadd_keys. cbn [map fst In]. intuition.
    + intros x Hx. destruct (H2 x Hx) as [H | H]; [|right; right; assumption]. apply aadd_In in H. destruct H as [H | ->]; auto. right. left. reflexivity.
    + intros N. apply H3, aadd_nodup, N.
Qed.

Lemma fold_max_perm l l' a : Permutation l l' -> fold_left Z.max l a = fold_left Z.max l' a.
Proof. intros P. revert a. induction P; intros a; cbn; auto. - rewrite <- !Z.max_assoc, (Z.max_comm y x). reflexivity. - congruence. Qed.
Lemma fold_max_right l : forall a, 0 <= a -> fold_left Z.max l a = Z.max a (fold_right Z.max 0 l).
Proof. induction l as [|x l IH]; intros a Ha; cbn; [lia|]. rewrite IH by lia. lia. Qed.

(** Grouping a trace by host. *)
Lemma filter_flat_nodup {A} (f : nat -> list A) (g : nat -> bool) l :
  flat_map (fun h => if g h then f h else []) l = flat_map f (filter g l).
Proof. induction l as [|h l IH]; cbn; auto. destruct (g h); cbn; rewrite IH; reflexivity. Qed.

Lemma by_host {A} (l : list (nat * A)) n : (forall x, In x l -> (fst x < n)%nat) ->
  Permutation l (flat_map (fun h => filter (fun x => Nat.eqb (fst x) h) l) (seq 0 n)).
Proof.
  induction l as [|[k a] l IH]; intros H.
  - cbn. rewrite flat_map_concat_map. clear. induction (seq 0 n); cbn; auto.
  - assert (Hk : (k < n)%nat) by (apply (H (k, a)); left; reflexivity).
    assert (S0 : seq 0 n = seq 0 k ++ k :: seq (S k) (n - S k)).
    { replace n with (k + S (n - S k))%nat at 1 by lia. rewrite seq_app. reflexivity. }
    rewrite S0 in *. rewrite flat_map_app. cbn [flat_map filter fst]. rewrite Nat.eqb_refl.
    assert (E : forall s, ~ In k s -> flat_map (fun h => if Nat.eqb k h then (k, a) :: filter (fun x => Nat.eqb (fst x) h) l else filter (fun x => Nat.eqb (fst x) h) l) s
              = flat_map (fun h => filter (fun x => Nat.eqb (fst x) h) l) s).
    { clear. induction s as [|h s IHs]; cbn; auto. intros Hn. destruct (Nat.eqb_spec k h); [subst; tauto|]. rewrite IHs by tauto. reflexivity. }
    rewrite !E by (rewrite in_seq; lia). cbn [app].
    rewrite flat_map_app in IH. cbn [flat_map] in IH.
    eapply perm_trans; [|apply Permutation_middle]. apply perm_skip. apply IH. intros x Hx. apply H. right. assumption.
Qed.

Definition proj (h : nat) (t : list (nat * update)) : list update := map snd (filter (fun x => Nat.eqb (fst x) h) t).
Lemma proj_app h t h' u : proj h (t ++ [(h', u)]) = proj h t ++ (if Nat.eqb h' h then [u] else []).
Proof. unfold proj. rewrite filter_app, map_app. cbn. destruct (Nat.eqb h' h); reflexivity. Qed.

Section S.
Context (n : nat) (ans : nat -> answer).
Notation reach := (steps (cstep n ans) (ctxInit n)).

(** A trace in which every host's callback ran to its end leaves a complete response. *)
Lemma flat_ext {A} (f g : nat -> list A) l : (forall h, In h l -> f h = g h) -> flat_map f l = flat_map g l.
Proof. induction l as [|h l IH]; cbn; intros H; auto. rewrite H by auto. f_equal. auto. Qed.

Lemma complete_trace t : (forall x, In x t -> (fst x < n)%nat) -> (forall h, (h < n)%nat -> proj h t = callback h (ans h)) ->
  complete n ans (applyAll (map snd t)).
Proof.
  intros Hlt Hp.
  assert (P : Permutation (map snd t) (flat_map (fun h => callback h (ans h)) (seq 0 n))).
  { eapply perm_trans; [apply Permutation_map, (by_host t n Hlt)|]. rewrite flat_map_concat_map, concat_map, map_map.
    rewrite flat_map_concat_map. rewrite (map_ext_in _ (fun h => callback h (ans h))); [reflexivity|].
    intros h Hh. apply in_seq in Hh. apply Hp. lia. }
  assert (F : forall {A} (f : update -> list A), Permutation (flat_map f (map snd t)) (flat_map (fun h => flat_map f (callback h (ans h))) (seq 0 n))).
  { intros A f. eapply perm_trans; [apply Permutation_flat_map, P|]. clear.
    induction (seq 0 n) as [|h l IH]; cbn; auto. rewrite flat_map_app. apply Permutation_app_head, IH. }
  unfold applyAll. destruct (applyAll_fields (map snd t) respInit) as (H1 & H2 & H3 & H4 & H5 & H6). cbv zeta in *.
  assert (Hfp : forall (h : nat) (failed : list (Z * Z)), flat_map uAdds (map (fun pc => UFailedPart (fst pc) (snd pc)) failed) = [] /\
            flat_map uLats (map (fun pc => UFailedPart (fst pc) (snd pc)) failed) = [] /\
            flat_map uMarks (map (fun pc => UFailedPart (fst pc) (snd pc)) failed) = [] /\
            flat_map uParts (map (fun pc => UFailedPart (fst pc) (snd pc)) failed) = failed).
  { clear. intros h failed. induction failed as [|[p c] failed (I1 & I2 & I3 & I4)]; cbn; auto. rewrite I1, I2, I3, I4. auto. }
  assert (Cadd : forall h, flat_map uAdds (callback h (ans h)) = if responded ans h then [h] else []).
  { intros h. unfold responded. destruct (ans h) as [ps|failed lat]; [reflexivity|]. cbn [callback]. rewrite !flat_map_app.
    rewrite (proj1 (Hfp h failed)). destruct failed; reflexivity. }
  assert (Clat : forall h, flat_map uLats (callback h (ans h)) = if responded ans h then [(h, latencyOf ans h)] else []).
  { intros h. unfold responded, latencyOf. destruct (ans h) as [ps|failed lat]; [reflexivity|]. cbn [callback]. rewrite !flat_map_app.
    rewrite (proj1 (proj2 (Hfp h failed))). destruct failed; reflexivity. }
  assert (Cmark : forall h, flat_map uMarks (callback h (ans h)) = if failing ans h then [tt] else []).
  { intros h. unfold failing. destruct (ans h) as [ps|failed lat]; [reflexivity|]. cbn [callback]. rewrite !flat_map_app.
    rewrite (proj1 (proj2 (proj2 (Hfp h failed)))). destruct failed; reflexivity. }
  assert (Cpart : forall h p c, In (p, c) (flat_map uParts (callback h (ans h))) <-> reports ans h p c).
  { intros h p c. unfold reports. destruct (ans h) as [ps|failed lat].
    - cbn. rewrite app_nil_r, in_map_iff. split; [intros (x & E & Hx); injection E as -> ->; auto|intros [Hx ->]; eauto].
    - cbn [callback]. rewrite !flat_map_app, (proj2 (proj2 (proj2 (Hfp h failed)))), !in_app_iff.
      destruct failed; cbn; intuition. }
  pose proof (F _ uAdds) as PA. pose proof (F _ uLats) as PL. pose proof (F _ uMarks) as PM. pose proof (F _ uParts) as PP.
  rewrite (flat_ext _ _ _ (fun h _ => Cadd h)) in PA. rewrite (flat_ext _ _ _ (fun h _ => Clat h)) in PL.
  rewrite (flat_ext _ _ _ (fun h _ => Cmark h)) in PM.
  rewrite (filter_flat_nodup (fun h => [h])) in PA. rewrite (filter_flat_nodup (fun h => [(h, latencyOf ans h)])) in PL. rewrite (filter_flat_nodup (fun _ => [tt])) in PM.
  assert (Emap : forall {A} (f : nat -> A) l, flat_map (fun h => [f h]) l = map f l) by (intros A f l; induction l; cbn; congruence).
  rewrite (Emap _ (fun h => h)), map_id in PA. rewrite (Emap _ (fun h => (h, latencyOf ans h))) in PL. rewrite (Emap _ (fun _ => tt)) in PM.
  unfold complete. cbv zeta. splits.
  - rewrite H1. exact PA.
  - rewrite H2. exact PL.
  - rewrite H3. cbn [respInit failedReqs]. rewrite (Permutation_length PM), map_length. lia.
  - rewrite H4. cbn [respInit allOk andb].
    assert (G : (match flat_map uMarks (map snd t) with [] => true | _ => false end) = (match filter (failing ans) (seq 0 n) with [] => true | _ => false end)).
    { pose proof (Permutation_length PM) as L. rewrite map_length in L.
      destruct (flat_map uMarks (map snd t)), (filter (failing ans) (seq 0 n)); try reflexivity; discriminate L. }
    rewrite G. clear. induction (seq 0 n) as [|h l IH]; cbn; auto. destruct (failing ans h); cbn; auto.
  - intros p. rewrite H5. destruct (fold_aadd (flat_map uParts (map snd t)) (failedParts respInit)) as (K & _ & _). cbv zeta in K.
    rewrite K. cbn [respInit failedParts map In]. split.
    + intros [[] | Hin]. apply in_map_iff in Hin. destruct Hin as ([q c] & Eq & Hin). cbn in Eq. subst q.
      apply (Permutation_in _ PP) in Hin. apply in_flat_map in Hin. destruct Hin as (h & Hh & Hin). apply in_seq in Hh. apply Cpart in Hin.
      exists h, c. split; [lia|assumption].
    + intros (h & c & Hh & Hr). right. apply in_map_iff. exists (p, c). split; [reflexivity|].
      apply (Permutation_in _ (Permutation_sym PP)). apply in_flat_map. exists h. split; [apply in_seq; lia|apply Cpart, Hr].
  - intros p c Hin. rewrite H5 in Hin. destruct (fold_aadd (flat_map uParts (map snd t)) (failedParts respInit)) as (_ & K & _). cbv zeta in K.
    destruct (K _ Hin) as [[] | Hin']. apply (Permutation_in _ PP) in Hin'. apply in_flat_map in Hin'. destruct Hin' as (h & Hh & Hr).
    apply in_seq in Hh. exists h. split; [lia|apply Cpart, Hr].
  - rewrite H5. apply fold_aadd. constructor.
  - rewrite H6. cbn [respInit maxLatency]. rewrite (fold_max_perm _ _ 0 (Permutation_map snd PL)). rewrite map_map. cbn [snd].
    set (l := map (fun h => latencyOf ans h) (filter (responded ans) (seq 0 n))). change (map (latencyOf ans) (filter (responded ans) (seq 0 n))) with l.
    rewrite fold_max_right by lia. assert (0 <= fold_right Z.max 0 l); [|lia]. clear. induction l; cbn; lia.
Qed.

(** * The invariant *)
Definition isSet (p : hostPc) : bool := match p with HSet => true | _ => false end.
Definition active (p : hostPc) : bool := match p with HSent | HRun _ => true | _ => false end.
Definition doneBy (h : nat) (p : hostPc) (us : list update) : Prop :=
  match p with
  | HNew | HSent => us = []
  | HRun todo => us ++ todo = callback h (ans h)
  | HSet | HEnd => us = callback h (ans h)
  end.
Definition bound (c : ctx) : nat := match sender c with SLoop i => i | _ => n end.

Record inv (c : ctx) : Prop := mkInv {
  v_len : length (hosts c) = n;
  v_bound : (bound c <= n)%nat;
  v_new : forall h p, nth_error (hosts c) h = Some p -> (p = HNew <-> (bound c <= h)%nat);
  v_fin : finishSending c = match sender c with SLoop _ => false | _ => true end;
  v_ong : forall h, In h (ongoing c) <-> exists p, nth_error (hosts c) h = Some p /\ active p = true;
  v_tok : (match sender c with SSet => 1 | _ => 0 end) + count isSet (hosts c) + Z.of_nat (length (promise c)) = (if fulfilled c then 1 else 0);
  v_ful : fulfilled c = true -> finishSending c = true /\ ongoing c = [];
  v_not : fulfilled c = false -> finishSending c = true -> ongoing c <> [];
  v_resp : (match promise c with [] => resp c | r :: _ => r end) = applyAll (map snd (trace c));
  v_proj : forall h p, nth_error (hosts c) h = Some p -> doneBy h p (proj h (trace c));
  v_lt : forall x, In x (trace c) -> (fst x < n)%nat }.

Lemma nth_repeat_some {A} (x : A) m i y : nth_error (repeat x m) i = Some y -> y = x.
Proof. intros H. apply nth_error_In in H. apply repeat_spec in H. assumption. Qed.
Lemma count_repeat m : count isSet (repeat HNew m) = 0.
Proof. induction m; cbn; lia. Qed.

Lemma inv_init : inv (ctxInit n).
Proof.
  split; cbn [ctxInit hosts sender finishSending ongoing fulfilled promise resp trace bound].
  - apply repeat_length.
  - cbn. lia.
  - intros h p H. apply nth_repeat_some in H. subst p. cbn. split; [lia|reflexivity].
  - reflexivity.
  - intros h. split; [intros []|]. intros (p & H & A). apply nth_repeat_some in H. subst p. discriminate A.
  - rewrite count_repeat. reflexivity.
  - discriminate.
  - discriminate.
  - reflexivity.
  - intros h p H. apply nth_repeat_some in H. subst p. reflexivity.
  - intros x [].
Qed.

Lemma rmv_In h l x : In x (rmv h l) <-> In x l /\ x <> h.
Proof. unfold rmv. rewrite filter_In, negb_true_iff, Nat.eqb_neq. tauto. Qed.

Lemma inv_step c c' : inv c -> cstep n ans c c' -> inv c'.
Proof.
  intros [Vl Vb Vn Vf Vo Vt Vfu Vno Vr Vp Vlt] St. unfold bound in *. destruct St as [c i Hs Hi|c Hs|c Hs|c h Hh Hin|c h u us Hh|c h Hh|c h Hh].
  - (* insert *)
    rewrite Hs in *. assert (Hlen : (i < length (hosts c))%nat) by lia.
    assert (Hold : nth_error (hosts c) i = Some HNew).
    { destruct (nth_error (hosts c) i) as [p|] eqn:E; [|apply nth_error_None in E; lia].
      f_equal. apply (Vn i p E). lia. }
    split; unfold bound; cbn [hosts sender finishSending ongoing fulfilled promise resp trace].
    + rewrite supd_length. assumption.
    + lia.
    + intros h p. rewrite nth_supd by assumption. destruct (Nat.eqb_spec h i) as [-> |Hne].
      * intros E. injection E as <-. split; [discriminate|lia].
      * intros E. rewrite (Vn h p E). lia.
    + assumption.
    + intros h. rewrite in_app_iff, Vo. cbn. rewrite nth_supd by assumption. destruct (Nat.eqb_spec h i) as [-> |Hne].
      * split; eauto. 
      * split; [intros [H | [H | []]]; [assumption|congruence]|auto].
    + rewrite (count_supd isSet i HSent HNew) by assumption. cbn [isSet]. lia.
    + intros F. destruct (Vfu F) as [F1 _]. congruence.
    + intros _ F. congruence.
    + assumption.
    + intros h p. rewrite nth_supd by assumption. destruct (Nat.eqb_spec h i) as [-> |Hne]; [|apply Vp].
      intros E. injection E as <-. exact (Vp i HNew Hold).
    + assumption.
  - (* finishSending *)
    rewrite Hs in *. 
    assert (Hful : fulfilled c = false). { destruct (fulfilled c); [|reflexivity]. destruct (Vfu eq_refl). congruence. }
    rewrite Hful in *. cbn [negb]. rewrite andb_true_r.
    destruct (ongoing c) as [|o os] eqn:Eo; (split; unfold bound; cbn [hosts sender finishSending ongoing fulfilled promise resp trace]; auto; try lia; try discriminate).
  - (* the sender fulfils *)
    rewrite Hs in *. pose proof (count_nonneg isSet (hosts c)).
    assert (Hp : promise c = [] /\ count isSet (hosts c) = 0 /\ fulfilled c = true).
    { destruct (fulfilled c); [|lia]. destruct (promise c); cbn in Vt; [|lia]. splits; auto; lia. }
    destruct Hp as (Hp & Hc & Hf). rewrite Hp in *. cbn [app].
    split; unfold bound; cbn [hosts sender finishSending ongoing fulfilled promise resp trace]; auto; try lia.
    rewrite Hc, Hf. reflexivity.
  - (* answer *)
    assert (Hlen : (h < length (hosts c))%nat) by (eapply nth_some_lt; eauto).
    split; unfold bound; cbn [hosts sender finishSending ongoing fulfilled promise resp trace]; auto.
    + rewrite supd_length. assumption.
    + intros k p. rewrite nth_supd by assumption. destruct (Nat.eqb_spec k h) as [-> |Hne]; [|apply Vn].
      intros E. injection E as <-. rewrite <- (Vn h HSent Hh). split; discriminate.
    + intros k. rewrite Vo, nth_supd by assumption. destruct (Nat.eqb_spec k h) as [-> |Hne]; [|tauto].
      split; eauto.
    + rewrite (count_supd isSet h _ HSent) by assumption. cbn [isSet]. lia.
    + intros k p. rewrite nth_supd by assumption. destruct (Nat.eqb_spec k h) as [-> |Hne]; [|apply Vp].
      intros E. injection E as <-. cbn. pose proof (Vp h HSent Hh) as E. cbn in E. rewrite E. reflexivity.
  - (* update *)
    assert (Hlen : (h < length (hosts c))%nat) by (eapply nth_some_lt; eauto).
    assert (Hin : In h (ongoing c)) by (apply Vo; eauto).
    assert (Hful : fulfilled c = false).
    { destruct (fulfilled c); [|reflexivity]. destruct (Vfu eq_refl) as [_ E]. rewrite E in Hin. destruct Hin. }
    assert (Hprom : promise c = []).
    { rewrite Hful in Vt. pose proof (count_nonneg isSet (hosts c)). destruct (promise c); [reflexivity|]. cbn in Vt. destruct (sender c); lia. }
    split; unfold bound; cbn [hosts sender finishSending ongoing fulfilled promise resp trace]; auto.
    + rewrite supd_length. assumption.
    + intros k p. rewrite nth_supd by assumption. destruct (Nat.eqb_spec k h) as [-> |Hne]; [|apply Vn].
      intros E. injection E as <-. rewrite <- (Vn h _ Hh). split; discriminate.
    + intros k. rewrite Vo, nth_supd by assumption. destruct (Nat.eqb_spec k h) as [-> |Hne]; [|tauto]. split; eauto.
    + rewrite (count_supd isSet h _ (HRun (u :: us))) by assumption. cbn [isSet]. lia.
    + rewrite Hprom in *. rewrite map_app. unfold applyAll. rewrite fold_left_app. cbn. fold (applyAll (map snd (trace c))). rewrite <- Vr. reflexivity.
    + intros k p. rewrite nth_supd by assumption. rewrite proj_app. destruct (Nat.eqb_spec k h) as [-> |Hne].
      * intros E. injection E as <-. cbn. rewrite Nat.eqb_refl, <- app_assoc. exact (Vp h _ Hh).
      * destruct (Nat.eqb_spec h k); [congruence|]. rewrite app_nil_r. apply Vp.
    + intros x Hx. apply in_app_iff in Hx. destruct Hx as [Hx | [<- | []]]; [auto|]. cbn. lia.
  - (* removeRequest *)
    assert (Hlen : (h < length (hosts c))%nat) by (eapply nth_some_lt; eauto).
    assert (Hin : In h (ongoing c)) by (apply Vo; eauto).
    assert (Hful : fulfilled c = false).
    { destruct (fulfilled c); [|reflexivity]. destruct (Vfu eq_refl) as [_ E]. rewrite E in Hin. destruct Hin. }
    assert (Hdone : proj h (trace c) = callback h (ans h)) by (rewrite <- (Vp h _ Hh), app_nil_r; reflexivity).
    assert (Hong : forall q, active q = false -> forall k, In k (rmv h (ongoing c)) <-> exists p, nth_error (supd h q (hosts c)) k = Some p /\ active p = true).
    { intros q Hq k. rewrite rmv_In, Vo, nth_supd by assumption. destruct (Nat.eqb_spec k h) as [-> |Hne].
      - split; [intros [_ []]; reflexivity|intros (p & E & A); injection E as <-; congruence].
      - tauto. }
    assert (Hnew : forall q, q <> HNew -> forall k p, nth_error (supd h q (hosts c)) k = Some p -> (p = HNew <-> (bound c <= k)%nat)).
    { intros q Hq k p. rewrite nth_supd by assumption. destruct (Nat.eqb_spec k h) as [-> |Hne]; [|apply Vn].
      intros E. injection E as <-. rewrite <- (Vn h _ Hh). split; [congruence|discriminate]. }
    assert (Hproj : forall q, (q = HSet \/ q = HEnd) -> forall k p, nth_error (supd h q (hosts c)) k = Some p -> doneBy k p (proj k (trace c))).
    { intros q Hq k p. rewrite nth_supd by assumption. destruct (Nat.eqb_spec k h) as [-> |Hne]; [|apply Vp].
      intros E. injection E as <-. destruct Hq as [-> | ->]; exact Hdone. }
    rewrite Hful in *. cbn [negb]. rewrite andb_true_r.
    destruct (finishSending c) eqn:Efin; cbn [andb].
    + destruct (rmv h (ongoing c)) as [|o os] eqn:Eo; (split; unfold bound; cbn [hosts sender finishSending ongoing fulfilled promise resp trace];
        solve [ rewrite supd_length; assumption | apply Hnew; discriminate | apply (Hong HSet eq_refl) | apply (Hong HEnd eq_refl)
             | rewrite (count_supd isSet h _ (HRun [])) by assumption; cbn [isSet]; lia | apply Hproj; auto | auto | discriminate ]).
    + split; unfold bound; cbn [hosts sender finishSending ongoing fulfilled promise resp trace];
        solve [ rewrite supd_length; assumption | apply Hnew; discriminate | apply (Hong HSet eq_refl) | apply (Hong HEnd eq_refl)
             | rewrite (count_supd isSet h _ (HRun [])) by assumption; cbn [isSet]; lia | apply Hproj; auto | auto | discriminate ].
  - (* a host fulfils *)
    assert (Hlen : (h < length (hosts c))%nat) by (eapply nth_some_lt; eauto).
    pose proof (count_supd isSet h HEnd HSet (hosts c) Hh) as Hcnt. cbn [isSet] in Hcnt.
    pose proof (count_nonneg isSet (supd h HEnd (hosts c))) as Hnn.
    assert (Hp : promise c = [] /\ fulfilled c = true).
    { destruct (fulfilled c); [|destruct (sender c); lia]. split; [|reflexivity]. destruct (promise c); cbn in Vt; [reflexivity|]. destruct (sender c); lia. }
    destruct Hp as (Hp & Hf). rewrite Hp, Hf in *. cbn [app].
    split; unfold bound; cbn [hosts sender finishSending ongoing fulfilled promise resp trace]; try solve [auto].
    + rewrite supd_length. assumption.
    + intros k p. rewrite nth_supd by assumption. destruct (Nat.eqb_spec k h) as [-> |Hne]; [|apply Vn].
      intros E. injection E as <-. rewrite <- (Vn h _ Hh). split; discriminate.
    + intros k. rewrite Vo, nth_supd by assumption. destruct (Nat.eqb_spec k h) as [-> |Hne]; [|tauto].
      split; [intros (p & E & A); rewrite Hh in E; injection E as <-; discriminate A|intros (p & E & A); injection E as <-; discriminate A].
    + cbn [length] in *. rewrite Hcnt. lia.
    + intros k p. rewrite nth_supd by assumption. destruct (Nat.eqb_spec k h) as [-> |Hne]; [|apply Vp].
      intros E. injection E as <-. exact (Vp h _ Hh).
Qed.

Lemma inv_reach c : reach c -> inv c.
Proof. intros H. apply (inv_reachable (cstep n ans) inv) with (s := ctxInit n); auto using inv_init. intros s s' I St. eapply inv_step; eauto. Qed.

(** * C50 *)

(** The promise is never fulfilled twice. *)
Theorem C50_at_most_once : forall c, reach c -> (length (promise c) <= 1)%nat.
Proof.
  intros c H. destruct (inv_reach c H) as [_ _ _ _ _ Vt _ _ _ _ _]. pose proof (count_nonneg isSet (hosts c)).
  destruct (fulfilled c), (sender c); lia.
Qed.

(** When it is fulfilled, sending is over, every host's callback is over, and the value is complete. *)
Theorem C50_complete : forall c r, reach c -> In r (promise c) ->
  finishSending c = true /\ (forall h, (h < n)%nat -> nth_error (hosts c) h = Some HEnd) /\ complete n ans r.
Proof.
  intros c r H Hr. pose proof (C50_at_most_once c H) as Hone.
  destruct (inv_reach c H) as [Vl Vb Vn Vf Vo Vt Vfu _ Vr Vp Vlt]. pose proof (count_nonneg isSet (hosts c)) as Hc0.
  destruct (promise c) as [|r0 l] eqn:Ep; [destruct Hr|]. destruct l; [|cbn in Hone; lia]. destruct Hr as [<- | []].
  assert (Hful : fulfilled c = true) by (destruct (fulfilled c); [reflexivity|cbn in Vt; destruct (sender c); lia]).
  rewrite Hful in Vt. cbn in Vt. destruct (Vfu Hful) as [Hfin Hong].
  assert (Hb : bound c = n) by (unfold bound; rewrite Hfin in Vf; destruct (sender c); [discriminate Vf|reflexivity|reflexivity]).
  assert (Hcnt : count isSet (hosts c) = 0) by (destruct (sender c); lia).
  assert (Hno : forall l, count isSet l = 0 -> ~ In HSet l).
  { clear. induction l as [|p l IH]; cbn; [tauto|]. pose proof (count_nonneg isSet l). intros E [-> | Hin]; [cbn in E; lia|].
    destruct (isSet p); [lia|]. apply IH; [lia|assumption]. }
  assert (Hend : forall h, (h < n)%nat -> nth_error (hosts c) h = Some HEnd).
  { intros h Hh. destruct (nth_error (hosts c) h) as [p|] eqn:E; [|apply nth_error_None in E; lia].
    destruct p as [| |todo| |]; try reflexivity; exfalso.
    - pose proof (proj1 (Vn h HNew E) eq_refl). lia.
    - assert (In h (ongoing c)) by (apply Vo; eauto). rewrite Hong in *. contradiction.
    - assert (In h (ongoing c)) by (apply Vo; eauto). rewrite Hong in *. contradiction.
    - apply (Hno _ Hcnt). eapply nth_error_In; eauto. }
  splits; auto. rewrite Vr. apply complete_trace; auto. intros h Hh. exact (Vp h HEnd (Hend h Hh)).
Qed.

(** A callback always finds its request. *)
Theorem C50_request_found : forall c h, reach c ->
  (nth_error (hosts c) h = Some HSent \/ exists todo, nth_error (hosts c) h = Some (HRun todo)) -> In h (ongoing c).
Proof.
  intros c h H Hh. destruct (inv_reach c H) as [_ _ _ _ Vo _ _ _ _ _ _]. apply Vo. destruct Hh as [Hh | [t Hh]]; eauto.
Qed.

(** No schedule gets stuck before the promise is fulfilled and everyone is done. *)
Definition finished (c : ctx) : Prop :=
  sender c = SReturned /\ (forall h, (h < n)%nat -> nth_error (hosts c) h = Some HEnd) /\ exists r, promise c = [r].
Theorem C50_no_deadlock : forall c, reach c -> finished c \/ exists c', cstep n ans c c'.
Proof.
  intros c H. pose proof (inv_reach c H) as I. destruct I as [Vl Vb Vn Vf Vo Vt Vfu Vno Vr Vp Vlt]. unfold bound in *.
  destruct (sender c) as [i| |] eqn:Es.
  - destruct (Nat.eq_dec i n) as [-> |Hne]; right; [eexists; apply st_finish; assumption|].
    eexists. apply (st_insert n ans c i); [assumption|lia].
  - right. eexists. apply st_send_set. assumption.
  - (* is some host not at its end? *)
    assert (D : (forall h, (h < n)%nat -> nth_error (hosts c) h = Some HEnd) \/
                exists h p, nth_error (hosts c) h = Some p /\ p <> HEnd).
    { rewrite <- Vl. clear. induction (hosts c) as [|p l IH]; [left; cbn; lia|].
      destruct p; try (right; exists 0%nat; eexists; split; [reflexivity|discriminate]).
      destruct IH as [IH | (h & p & E & Hp)]; [|right; exists (S h), p; auto].
      left. intros [|h] Hh; [reflexivity|]. cbn. apply IH. cbn in Hh. lia. }
    destruct D as [D | (h & p & E & Hp)].
    + left. unfold finished. splits; auto.
      assert (Hc : count isSet (hosts c) = 0).
      { rewrite <- Vl in D. clear - D. induction (hosts c) as [|p l IH]; cbn; [reflexivity|].
        assert (p = HEnd) as -> by (pose proof (D 0%nat ltac:(cbn; lia)) as E; cbn in E; congruence). cbn.
        rewrite IH; [reflexivity|]. intros h Hh. apply (D (S h)). cbn. lia. }
      assert (Hful : fulfilled c = true).
      { destruct (fulfilled c) eqn:Ef; [reflexivity|]. exfalso. destruct (ongoing c) as [|o os] eqn:Eo; [exact (Vno eq_refl Vf eq_refl)|].
        assert (In o (ongoing c)) as Ho by (rewrite Eo; left; reflexivity). rewrite Eo in Ho. apply Vo in Ho. destruct Ho as (p & Ep & A).
        rewrite D in Ep by (rewrite <- Vl; eapply nth_some_lt; eauto). injection Ep as <-. discriminate A. }
      rewrite Hful, Hc in Vt. destruct (promise c) as [|r [|]]; cbn in Vt; try lia. eauto.
    + right. destruct p as [| |todo| |]; try congruence.
      * exfalso. pose proof (proj1 (Vn h HNew E) eq_refl). pose proof (nth_some_lt _ _ _ E). lia.
      * eexists. apply (st_answer n ans c h); [assumption|apply Vo; eauto].
      * destruct todo; eexists; [apply (st_remove n ans c h)|eapply (st_update n ans c h)]; eassumption.
      * eexists. apply (st_host_set n ans c h). assumption.
Qed.

(** Every schedule is finite: each step lowers a measure. *)
Definition hostWork (h : nat) (p : hostPc) : nat :=
  match p with
  | HNew => 5 + length (callback h (ans h))
  | HSent => 4 + length (callback h (ans h))
  | HRun todo => 3 + length todo
  | HSet => 1
  | HEnd => 0
  end.
Fixpoint work (h : nat) (l : list hostPc) : nat := match l with [] => 0 | p :: l' => hostWork h p + work (S h) l' end.
Definition measure (c : ctx) : nat :=
  (match sender c with SLoop i => 3 + (n - i) | SSet => 1 | SReturned => 0 end + work 0 (hosts c))%nat.
Lemma work_supd l : forall k h p q, nth_error l h = Some p -> (work k (supd h q l) + hostWork (k + h) p = work k l + hostWork (k + h) q)%nat.
Proof.
  induction l as [|a l IH]; intros k [|h] p q E; cbn in *; try discriminate.
  - injection E as <-. rewrite Nat.add_0_r. lia.
  - specialize (IH (S k) h p q E). replace (k + S h)%nat with (S k + h)%nat by lia. lia.
Qed.
Theorem C50_every_run_ends : forall c c', reach c -> cstep n ans c c' -> (measure c' < measure c)%nat.
Proof.
  intros c c' R St. destruct (inv_reach c R) as [Vl Vb Vn _ _ _ _ _ _ _ _]. unfold bound in *.
  unfold measure. destruct St as [c i Hs Hi|c Hs|c Hs|c h Hh Hin|c h u us Hh|c h Hh|c h Hh]; cbn [sender hosts].
  - rewrite Hs in *. assert (E : nth_error (hosts c) i = Some HNew).
    { destruct (nth_error (hosts c) i) as [p|] eqn:E; [|apply nth_error_None in E; lia]. f_equal. apply (Vn i p E). lia. }
    pose proof (work_supd (hosts c) 0 i HNew HSent E) as W. cbn [hostWork plus] in W. lia.
  - rewrite Hs. destruct (_ && _); cbn [sender hosts]; lia.
  - rewrite Hs. lia.
  - pose proof (work_supd (hosts c) 0 h HSent (HRun (callback h (ans h))) Hh) as W. cbn [hostWork plus] in W. lia.
  - pose proof (work_supd (hosts c) 0 h _ (HRun us) Hh) as W. cbn [hostWork plus length] in W. lia.
  - destruct (_ && _ && _); cbn [sender hosts].
    + pose proof (work_supd (hosts c) 0 h _ HSet Hh) as W. cbn [hostWork plus length] in W. lia.
    + pose proof (work_supd (hosts c) 0 h _ HEnd Hh) as W. cbn [hostWork plus length] in W. lia.
  - pose proof (work_supd (hosts c) 0 h _ HEnd Hh) as W. cbn [hostWork plus length] in W. lia.
Qed.

(** completeness() of the delivered value is a percentage, and it is 100 exactly when no host failed. *)
Theorem C50_completeness_is_percentage : forall r, complete n ans r -> (0 < n)%nat -> Z.of_nat n < 2 ^ 57 ->
  0 <= completeness (Z.of_nat n) r <= 100 /\ (completeness (Z.of_nat n) r = 100 <-> failedReqs r = 0).
Proof.
  intros r (_ & _ & Hf & _) Hn Hmax.
  assert (Hle : 0 <= failedReqs r <= Z.of_nat n).
  { rewrite Hf. assert (forall l, (length (filter (failing ans) l) <= length l)%nat) as L
      by (induction l as [|x l IH]; cbn; [lia|]; destruct (failing ans x); cbn; lia).
    specialize (L (seq 0 n)). rewrite seq_length in L. lia. }
  clear Hf. unfold completeness. generalize dependent (failedReqs r). intros f Hle.
  replace (Z.of_nat n =? 0) with false by (symmetry; apply Z.eqb_neq; lia).
  set (N := Z.of_nat n) in *. assert (0 < N) by (unfold N; lia).
  assert (E1 : u64 (N - f) = N - f) by (unfold u64, two64; apply Z.mod_small; lia). rewrite E1.
  assert (E2 : u64 ((N - f) * 100) = (N - f) * 100) by (unfold u64, two64; apply Z.mod_small; lia). rewrite E2.
  assert (Q : 0 <= (N - f) * 100 / N <= 100).
  { split; [apply Z.div_pos; lia|]. apply Z.div_le_upper_bound; lia. }
  assert (E3 : wrap32 ((N - f) * 100 / N) = (N - f) * 100 / N) by (unfold wrap32; rewrite Z.mod_small; lia).
  rewrite E3. split; [exact Q|]. split.
  - intros E. pose proof (Z.mul_div_le ((N - f) * 100) N ltac:(lia)). rewrite E in *. lia.
  - intros ->. rewrite Z.sub_0_r, Z.mul_comm. apply Z.div_mul. lia.
Qed.
End S.

(** From every reachable state, whatever happened so far, the promise is eventually fulfilled exactly once. *)
Theorem C50_exactly_once : forall n ans c, steps (cstep n ans) (ctxInit n) c ->
  exists c', steps (cstep n ans) c c' /\ finished n c'.
Proof.
  intros n ans c. remember (measure n ans c) as m eqn:Em. revert c Em.
  induction m as [m IH] using (well_founded_induction lt_wf). intros c -> R.
  destruct (C50_no_deadlock n ans c R) as [F | (c1 & St)]; [exists c; split; [apply steps_refl|exact F]|].
  destruct (IH _ (C50_every_run_ends n ans c c1 R St) c1 eq_refl) as (c' & R' & F'); [eapply steps_snoc; eassumption|].
  exists c'. split; [eapply steps_cons; eassumption|exact F'].
Qed.

(** Two hosts: the first answers, with a failed part, while the loop is still sending; the second one fails. *)
Definition exAns (h : nat) : answer := match h with O => AResp [(7, -11)] 20 | _ => AExc [3; 7] end.
Example C50_ex_run : exists c, steps (cstep 2 exAns) (ctxInit 2) c /\
  promise c = [mkResp 2 false [(7, -11); (3, E_RPC_FAILURE)] 20 [0%nat] [(0%nat, 20)]].
Proof.
  eexists. split.
  - eapply steps_cons; [eapply (st_insert _ _ _ 0); [reflexivity|lia]|]. cbn.
    eapply steps_cons; [eapply (st_answer _ _ _ 0); [reflexivity|cbn; auto]|]. cbn.
    eapply steps_cons; [eapply (st_update _ _ _ 0); reflexivity|]. cbn.
    eapply steps_cons; [eapply (st_insert _ _ _ 1); [reflexivity|lia]|]. cbn.
    eapply steps_cons; [eapply (st_update _ _ _ 0); reflexivity|]. cbn.
    eapply steps_cons; [eapply (st_answer _ _ _ 1); [reflexivity|cbn; auto]|]. cbn.
    eapply steps_cons; [eapply (st_update _ _ _ 0); reflexivity|]. cbn.
    eapply steps_cons; [eapply (st_update _ _ _ 1); reflexivity|]. cbn.
    eapply steps_cons; [eapply (st_update _ _ _ 0); reflexivity|]. cbn.
    eapply steps_cons; [eapply (st_remove _ _ _ 0); reflexivity|]. cbn.
    eapply steps_cons; [eapply (st_update _ _ _ 1); reflexivity|]. cbn.
    eapply steps_cons; [eapply st_finish; reflexivity|]. cbn.
    eapply steps_cons; [eapply (st_remove _ _ _ 1); reflexivity|]. cbn.
    eapply steps_cons; [eapply (st_host_set _ _ _ 1); reflexivity|]. cbn. apply steps_refl.
  - reflexivity.
Qed.
Example C50_ex_percentage : completeness 3 (mkResp 1 false [] 0 [] []) = 66.
Proof. reflexivity. Qed.

(** A request without any host (an empty set of parts): completeness() of its response is 0, although nothing
    failed (the debug build stops on its DCHECK). *)
Example C50_ex_no_hosts : forall ans, exists c r,
  steps (cstep 0 ans) (ctxInit 0) c /\ promise c = [r] /\ failedReqs r = 0 /\ allOk r = true /\ completeness 0 r = 0.
Proof.
  intros ans. eexists. eexists. split.
  - eapply steps_cons; [eapply st_finish; reflexivity|]. cbn.
    eapply steps_cons; [eapply st_send_set; reflexivity|]. cbn. apply steps_refl.
  - splits; reflexivity.
Qed.

Print Assumptions C50_at_most_once.
Print Assumptions C50_complete.
Print Assumptions C50_request_found.
Print Assumptions C50_no_deadlock.
Print Assumptions C50_every_run_ends.
Print Assumptions C50_completeness_is_percentage.
Print Assumptions C50_exactly_once.
