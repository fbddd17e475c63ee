(** Theorems for C23 (Latch) and C24 (Barrier). *)
From Verif Require Import Prelude Trans LatchModel LatchProofs.

(** C23: in every reachable state of every schedule, the number of counted downs is at most n, a returned
    wait or downWait (and a throwing call) exists only when exactly n downs have been performed. *)
Theorem C23_no_early_return :
  forall (n : Z) (ks : list lkind) s0 s i c, 0 <= n -> latchNew n ks = Some s0 -> steps lstep s0 s ->
  nth_error (lcalls s) i = Some c ->
  count counted (lcalls s) <= n /\
  (c = LReturned KWait \/ c = LReturned KDownWait \/ (exists k, c = LThrew k) -> count counted (lcalls s) = n) /\
  (latchReady s = true <-> count counted (lcalls s) = n).
Proof.
  intros n ks s0 s i c Hn0 Hnew Hst Hi. unfold latchNew in Hnew.
  destruct (Z.eqb_spec n 0) as [|Hn]; [discriminate|]. injection Hnew as <-.
  assert (I : linv n s) by (eapply inv_reachable; [apply linv_step|exact Hst|apply linv_init; lia]).
  destruct I as [H1 H2 H3 H4 H5]. splits; try lia.
  - intros Hc. rewrite Forall_forall in H5. specialize (H5 c (nth_error_In _ _ Hi)).
    destruct Hc as [-> | [-> | [k ->]]]; lia.
  - unfold latchReady. lia.
Qed.
Print Assumptions C23_no_early_return.

(** C23: once n downs have been performed, no call is asleep, every awakened call returns when it gets
    the lock, a wait that begins returns at once and a down that begins throws. *)
Theorem C23_all_released :
  forall (n : Z) (ks : list lkind) s0 s i c, 0 <= n -> latchNew n ks = Some s0 -> steps lstep s0 s ->
  count counted (lcalls s) = n -> nth_error (lcalls s) i = Some c ->
  (forall k, c <> LAsleep k) /\
  (forall k, c = LAwake k -> exists s', lstep s s' /\ nth_error (lcalls s') i = Some (LReturned k)) /\
  (c = LStart KWait -> exists s', lstep s s' /\ nth_error (lcalls s') i = Some (LReturned KWait)) /\
  (forall k, is_down k = true -> c = LStart k ->
     forall s', lstep s s' -> nth_error (lcalls s') i <> Some (LStart k) -> nth_error (lcalls s') i = Some (LThrew k)).
Proof.
  intros n ks s0 s i c Hn0 Hnew Hst Hall Hi. unfold latchNew in Hnew.
  destruct (Z.eqb_spec n 0) as [|Hn]; [discriminate|]. injection Hnew as <-.
  assert (I : linv n s) by (eapply inv_reachable; [apply linv_step|exact Hst|apply linv_init; lia]).
  destruct I as [H1 H2 H3 H4 H5].
  assert (Hc0 : lcounter s = 0) by lia.
  pose proof (nth_some_lt _ _ _ Hi) as Hlt.
  splits.
  - intros k ->. specialize (H4 Hc0). rewrite Forall_forall in H4. specialize (H4 _ (nth_error_In _ _ Hi)). discriminate.
  - intros k ->. eexists. split; [eapply lstep_recheck; eassumption|]. cbn -[Z.eqb].
    rewrite nth_supd, Nat.eqb_refl, Hc0 by assumption. reflexivity.
  - intros ->. eexists. split; [eapply lstep_begin; eassumption|]. unfold lbegin. rewrite Hc0. cbn.
    rewrite nth_supd, Nat.eqb_refl by assumption. reflexivity.
  - intros k Hk -> s' Hs Hne.
    destruct Hs as [s j k' Hj|s j k' Hj|s j k' Hj].
    + unfold lbegin in *. rewrite Hc0 in *.
      destruct k'; cbn in *; rewrite nth_supd in * by (eapply nth_some_lt; eassumption);
        destruct (Nat.eqb_spec i j) as [-> | Hij]; try congruence.
      rewrite Hj in Hi. injection Hi as <-. discriminate.
    + cbn in *. rewrite nth_supd in * by (eapply nth_some_lt; eassumption).
      destruct (Nat.eqb_spec i j) as [-> | Hij]; congruence.
    + cbn in *. rewrite nth_supd in * by (eapply nth_some_lt; eassumption).
      destruct (Nat.eqb_spec i j) as [-> | Hij]; congruence.
Qed.
Print Assumptions C23_all_released.

(** C23, no deadlock: when every call has begun and none is about to re-check, and at least n calls are downs,
    then every call has returned or thrown. *)
Theorem C23_no_deadlock :
  forall (n : Z) (ks : list lkind) s0 s, 0 <= n -> latchNew n ks = Some s0 -> steps lstep s0 s ->
  n <= count is_down ks ->
  (forall i c, nth_error (lcalls s) i = Some c -> forall k, c <> LStart k /\ c <> LAwake k) ->
  forall i c, nth_error (lcalls s) i = Some c -> exists k, c = LReturned k \/ c = LThrew k.
Proof.
  intros n ks s0 s Hn0 Hnew Hst Hd Hq i c Hi. unfold latchNew in Hnew.
  destruct (Z.eqb_spec n 0) as [|Hn]; [discriminate|]. injection Hnew as <-.
  assert (I : linv n s) by (eapply inv_reachable; [apply linv_step|exact Hst|apply linv_init; lia]).
  pose proof (lkinds_reach _ _ Hst) as Hk. cbn in Hk. rewrite map_map in Hk. cbn in Hk. rewrite map_id in Hk.
  destruct I as [H1 H2 H3 H4 H5].
  assert (Hc0 : lcounter s = 0).
  { destruct (Z.eq_dec (lcounter s) 0) as [|Hne]; [assumption|exfalso].
    assert (Hcnt : count counted (lcalls s) = count is_down (map lkindOf (lcalls s))).
    { assert (Hall : forall x, In x (lcalls s) -> counted x = is_down (lkindOf x)).
      { intros x Hx. rewrite Forall_forall in H5. specialize (H5 x Hx).
        destruct (In_nth_error _ _ Hx) as [j Hj]. pose proof (Hq j x Hj) as Hqj.
        destruct x as [k|k|k|k|k]; cbn; destruct k; try reflexivity; try lia;
          destruct (Hqj KDown) as [A B]; destruct (Hqj KDownWait) as [A' B']; destruct (Hqj KWait) as [A'' B'']; congruence. }
      clear -Hall. induction (lcalls s) as [|x l IH]; cbn; [reflexivity|].
      rewrite (Hall x (or_introl eq_refl)), IH by (intros; apply Hall; right; assumption). reflexivity. }
    rewrite Hk in Hcnt. lia. }
  specialize (H4 Hc0). rewrite Forall_forall in H4. specialize (H4 _ (nth_error_In _ _ Hi)).
  pose proof (Hq i c Hi) as Hqi.
  destruct c as [k|k|k|k|k]; try (exists k; auto; fail).
  - destruct (Hqi k) as [A _]. congruence.
  - discriminate.
  - destruct (Hqi k) as [_ B]. congruence.
Qed.
Print Assumptions C23_no_deadlock.

Example C23_example :
  exists s0 s, latchNew 2 [KWait; KDown; KDownWait; KDown] = Some s0 /\ steps lstep s0 s /\
    lcalls s = [LReturned KWait; LReturned KDown; LReturned KDownWait; LThrew KDown].
Proof.
  eexists. eexists. split; [reflexivity|]. split.
  - eapply steps_cons; [eapply (lstep_begin _ 0 KWait); reflexivity|cbn].
    eapply steps_cons; [eapply (lstep_begin _ 1 KDown); reflexivity|cbn].
    eapply steps_cons; [eapply (lstep_begin _ 2 KDownWait); reflexivity|cbn].
    eapply steps_cons; [eapply (lstep_recheck _ 0 KWait); reflexivity|cbn].
    eapply steps_cons; [eapply (lstep_begin _ 3 KDown); reflexivity|cbn].
    apply steps_refl.
  - reflexivity.
Qed.

(** C24: in every schedule, each return from generation g happens after exactly n arrivals of generation g
    and after the one run of its completion callback; later the completion of g is not run again.
    (generation_ has 64 bits: fewer than 2^64 generations.) *)
Theorem C24_generations :
  forall (n : Z) (k : nat) s0 s, 0 <= n -> barrierNew n k = Some s0 -> steps (bstep false) s0 s ->
  bg s < 18446744073709551616 ->
  (forall pre post g, blog s = pre ++ EvReturn g :: post ->
     count (is_arrive g) pre = n /\ count (is_complete g) pre = 1) /\
  (forall g, count (is_complete g) (blog s) <= 1) /\
  (forall g, count (is_arrive g) (blog s) <= n) /\
  (forall i g, nth_error (bcalls s) i = Some (BReturned g) -> count (is_complete g) (blog s) = 1).
Proof.
  intros n k s0 s Hn0 Hnew Hst Hb. unfold barrierNew in Hnew.
  destruct (Z.eqb_spec n 0) as [|Hn]; [discriminate|]. injection Hnew as <-.
  assert (I : binv n s) by (eapply binv_reach; [lia|exact Hst|exact Hb|apply binv_init; lia]).
  destruct I as [H1 H2 H3 H4 H5 H6 H7 H8]. splits.
  - exact H8.
  - intros g. rewrite H7. ifs.
  - intros g. rewrite H6. ifs.
  - intros i g Hi. rewrite Forall_forall in H4. specialize (H4 _ (nth_error_In _ _ Hi)). cbn in H4.
    rewrite H7. replace ((0 <=? g) && (g <? bg s)) with true by lia. reflexivity.
Qed.
Print Assumptions C24_generations.

(** C24, reusable and no lost wake-up: when all of n*m calls have begun and none is about to re-check, all have
    returned and exactly m generations were completed. *)
Theorem C24_reusable :
  forall (n : Z) (m : nat) s0 s, 0 < n -> barrierNew n (Z.to_nat n * m) = Some s0 -> steps (bstep false) s0 s ->
  bg s < 18446744073709551616 ->
  (forall i c, nth_error (bcalls s) i = Some c -> c <> BStart /\ forall g, c <> BAwake g) ->
  bg s = Z.of_nat m /\ forall i c, nth_error (bcalls s) i = Some c -> exists g, c = BReturned g /\ 0 <= g < Z.of_nat m.
Proof.
  intros n m s0 s Hn Hnew Hst Hb Hq. unfold barrierNew in Hnew.
  replace (Z.eqb n 0) with false in Hnew by lia. injection Hnew as <-.
  assert (I : binv n s) by (eapply binv_reach; [lia|exact Hst|exact Hb|apply binv_init; lia]).
  assert (C : bcount n (Z.to_nat n * m) s).
  { eapply inv_reachable; [intros; eapply bcount_step; eauto|exact Hst|apply bcount_init; lia]. }
  destruct I as [H1 H2 H3 H4 H5 H6 H7 H8]. destruct C as [C1 C2 C3 C4].
  assert (Hbegun : count begun (bcalls s) = Z.of_nat (length (bcalls s))).
  { apply count_full. rewrite Forall_forall. intros c Hc. destruct (In_nth_error _ _ Hc) as [j Hj].
    destruct (Hq j c Hj) as [A _]. destruct c; [contradiction| | |]; reflexivity. }
  rewrite Hbegun, C1 in C4.
  assert (Hlen : Z.of_nat (Z.to_nat n * m) = n * Z.of_nat m) by lia.
  rewrite Hlen in C4.
  assert (Hm : bg s = Z.of_nat m /\ bages s = n).
  { clear -C3 C4 Hn. assert (Hx : n * (Z.of_nat m - bg s) = n - bages s) by lia.
    assert (0 <= Z.of_nat m - bg s) by nia. assert (Z.of_nat m - bg s < 1) by nia. split; [lia|nia]. }
  destruct Hm as [Hm Ha]. split; [assumption|]. intros i c Hi.
  pose proof (Hq i c Hi) as [A B]. rewrite Forall_forall in H4. pose proof (H4 _ (nth_error_In _ _ Hi)) as Hc.
  destruct c as [|g|g|g]; [contradiction| | |].
  - exfalso. specialize (H5 (bg s)). rewrite H6, Z.eqb_refl in H5.
    pose proof (count_pos (arrived (bg s)) (bcalls s) (BAsleep g) (nth_error_In _ _ Hi)) as Hp.
    cbn in Hp. rewrite Hc, Z.eqb_refl in Hp. specialize (Hp eq_refl). lia.
  - destruct (B g eq_refl).
  - exists g. split; [reflexivity|]. lia.
Qed.
Print Assumptions C24_reusable.

Example C24_example :
  exists s0 s, barrierNew 2 4 = Some s0 /\ steps (bstep false) s0 s /\
    bcalls s = [BReturned 0; BReturned 0; BReturned 1; BReturned 1] /\ bg s = 2 /\ bages s = 2.
Proof.
  eexists. eexists. split; [reflexivity|]. split.
  - eapply steps_cons; [eapply (bstep_arrive _ _ 0); reflexivity|cbn].
    eapply steps_cons; [eapply (bstep_arrive _ _ 1); reflexivity|cbn].
    eapply steps_cons; [eapply (bstep_arrive _ _ 3); reflexivity|cbn].
    eapply steps_cons; [eapply (bstep_arrive _ _ 2); reflexivity|cbn].
    eapply steps_cons; [eapply (bstep_recheck _ _ 0 0); reflexivity|cbn].
    eapply steps_cons; [eapply (bstep_recheck _ _ 3 1); reflexivity|cbn].
    apply steps_refl.
  - split; [|split]; reflexivity.
Qed.

(** When the completion callback throws, the waiters of that generation are not notified: a state without
    anything left to run in which a call of a finished generation is still asleep. *)
Theorem C24_throwing_completion_refuted :
  exists s0 s, barrierNew 2 2 = Some s0 /\ steps (bstep true) s0 s /\
    bcalls s = [BAsleep 0; BReturned 0] /\ bg s = 1 /\ gen_differs 0 s = true.
Proof.
  eexists. eexists. split; [reflexivity|]. split.
  - eapply steps_cons; [eapply (bstep_arrive _ _ 0); reflexivity|cbn].
    eapply steps_cons; [eapply (bstep_arrive _ _ 1); reflexivity|cbn].
    apply steps_refl.
  - split; [|split]; reflexivity.
Qed.
Print Assumptions C24_throwing_completion_refuted.
