(** Theorems for C25 (FIFO, exactly once), C26 (purged timers) and C27 (pool timer ids). *)
From Verif Require Import Prelude Trans WorkerModel WorkerProofs.

(** C25: in every schedule the executed tasks are a prefix of the added ones (so: in order, none twice, none
    invented); when the worker has terminated, stop() had been called and every task added before is executed. *)
Theorem C25_fifo_exactly_once :
  forall s, steps wstep workerInit s ->
  (exists rest, wadded s = wexec s ++ rest) /\
  (wpc s = Exited -> exists k, wmark s = Some k /\ (k <= length (wexec s))%nat /\
     firstn k (wexec s) = firstn k (wadded s)).
Proof.
  intros s H. pose proof (winv_reach s H) as [I1 I2 I3 I4 I5 I6 I7 I8 I9 I10 I11 I12 I13]. split.
  - eexists. exact I1.
  - intros He. pose proof (I7 He) as Hx. destruct (proj1 I5 (I6 Hx)) as [k Hk]. exists k.
    destruct (I8 k Hk Hx) as [Hle|[Hp _]]; [|congruence].
    rewrite He in *. cbn in Hle. splits; [assumption|lia|].
    rewrite I1, firstn_app. replace (k - length (wexec s))%nat with O by lia. rewrite firstn_O, app_nil_r. reflexivity.
Qed.
Print Assumptions C25_fifo_exactly_once.

(** What the mark means: when stopped_ is set for the first time, it records exactly the tasks pushed so far. *)
Theorem C25_mark_meaning :
  forall s e s', steps wstep workerInit s -> cstep s e = Some s' -> wmark s = None -> wmark s' <> None ->
  e = CStopStore /\ wmark s' = Some (length (wadded s)) /\
  forall s'', steps wstep s' s'' -> wmark s'' = wmark s'.
Proof.
  intros s e s' _ Hc Hn Hn'.
  assert (He : e = CStopStore /\ wmark s' = Some (length (wadded s))).
  { destruct e; cbn in Hc.
    1,5,6: injection Hc as <-; cbn in Hn'; congruence.
    - destruct (Z.ltb _ _); [injection Hc as <-; cbn in Hn'; congruence|discriminate].
    - destruct (wstopped s); [discriminate|injection Hc as <-; cbn in Hn'; congruence].
    - destruct (Z.ltb _ _); [injection Hc as <-|discriminate]. split; [reflexivity|]. cbn. rewrite Hn. reflexivity. }
  destruct He as [He Hm]. splits; auto. intros s'' Hst. clear -Hst Hn'.
  induction Hst as [s|s1 s2 s3 Hst IH Hs]; [reflexivity|]. specialize (IH Hn'). rewrite <- IH in *.
  destruct Hs as [s e s' Hc|s s' Hc|s Hp He|s t Hp Hin|s Hp He]; try reflexivity.
  - destruct e; cbn in Hc.
    1,5,6: injection Hc as <-; reflexivity.
    + destruct (Z.ltb _ _); [injection Hc as <-; reflexivity|discriminate].
    + destruct (wstopped s); [discriminate|injection Hc as <-; reflexivity].
    + destruct (Z.ltb _ _); [injection Hc as <-|discriminate]. cbn. destruct (wmark s); [reflexivity|congruence].
  - unfold onNotifyStep in Hc. destruct (wpc s) as [| | |[|t l]| |[|t l]| |[|i l]|]; try discriminate; injection Hc as <-; reflexivity.
Qed.
Print Assumptions C25_mark_meaning.

(** C25, no lost wake-up: when the worker waits in its event loop, nothing is signalled and no client is
    about to signal, then every added task has been executed, no timer or purge request is left over, and after stop() the loop
    has been told to exit; in every other state of a not terminated worker some step is possible. *)
Theorem C25_no_lost_wakeup :
  forall s, steps wstep workerInit s ->
  (wpc s = Idle -> wowed s = 0 -> wev s = 0 ->
     wexec s = wadded s /\ wtimers s = [] /\ wpurging s = [] /\ (wstopped s = true -> wexit s = true)) /\
  (wpc s <> Exited -> wpc s <> Idle \/ 0 < wowed s \/ 0 < wev s -> exists s', wstep s s').
Proof.
  intros s H. pose proof (winv_reach s H) as [I1 I2 I3 I4 I5 I6 I7 I8 I9 I10 I11 I12 I13]. split.
  - intros Hp Ho He. rewrite Hp in *. cbn in *.
    assert (Ht : wtasks s = []).
    { destruct (wtasks s) as [|t l]; [reflexivity|]. destruct I10 as [A|[A|[A|A]]]; try discriminate; lia. }
    splits.
    + rewrite I1, Ht, app_nil_r. reflexivity.
    + destruct (wtimers s) as [|t l]; [reflexivity|]. destruct I11 as [A|[A|[A|A]]]; try discriminate; lia.
    + destruct (wpurging s) as [|t l]; [reflexivity|]. destruct I12 as [A|[A|[A|A]]]; try discriminate; lia.
    + intros Hs. destruct (I13 Hs) as [A|[A|[A|A]]]; try discriminate; try lia. assumption.
  - intros Hne Hor. destruct (wpc s) as [| | |[|t l]| |[|t l]| |[|i l]|] eqn:Ep; try (destruct (Hne eq_refl));
      try (eexists; apply wstep_notify; unfold onNotifyStep; rewrite Ep; reflexivity).
    destruct Hor as [A|[A|A]]; [destruct (A eq_refl)| |].
    + eexists. apply (wstep_client s CNotify). cbn. replace (0 <? wowed s) with true by lia. reflexivity.
    + eexists. apply wstep_wake; [assumption|lia].
Qed.
Print Assumptions C25_no_lost_wakeup.

(** A run: two tasks, stop, a third task after stop() and after the worker looked at the queue is never executed. *)
Ltac client e := eapply steps_cons; [apply (wstep_client _ e); reflexivity|cbn].
Ltac notify_step := eapply steps_cons; [apply wstep_notify; reflexivity|cbn].
Ltac wake := eapply steps_cons; [apply wstep_wake; cbn; [reflexivity|lia]|cbn].
Example C25_example :
  exists s, steps wstep workerInit s /\ wpc s = Exited /\ wadded s = [7; 8; 9] /\ wexec s = [7; 8] /\ wmark s = Some 2%nat.
Proof.
  eexists. split.
  - client (CPush 7). client CNotify. client (CPush 8). wake. notify_step.
    client CStopLoad. client CNotify. client CStopStore. do 8 notify_step. client CNotify. wake. do 2 notify_step.
    client (CPush 9). do 5 notify_step.
    eapply steps_cons; [apply wstep_exit; reflexivity|cbn]. apply steps_refl.
  - cbn. auto.
Qed.

(** C26 as stated is false: the purge request is consumed while the timer still waits in pendingTimers_.
    In the final state everything has been processed and the purged timer is active; it keeps firing. *)
Theorem C26_purge_race_refuted :
  exists s1 s2 s3, steps wstep workerInit s1 /\
    cstep s1 (CPurge 0) = Some s2 /\ hasTimer 0 (wtimers s1) /\   (* timer 0 was added before the purge *)
    steps wstep s2 s3 /\ wpc s3 = Idle /\ wowed s3 = 0 /\ wev s3 = 0 /\
    wpurging s3 = [] /\ hasTimer 0 (wactive s3).
Proof.
  eexists. eexists. eexists. split.
  - client (CPush 1). client CNotify. wake. do 6 notify_step. (* worker is at SwapPurge *)
    client (CTimer false). apply steps_refl.
  - split; [reflexivity|]. split; [exists (mkTimer 0 false); cbn; auto|]. split.
    + do 3 notify_step. client CNotify. client CNotify. wake. do 8 notify_step. apply steps_refl.
    + cbn. splits; auto. exists (mkTimer 0 false). cbn. auto.
Qed.
Print Assumptions C26_purge_race_refuted.

(** C26, what holds: if the purge request does not meet the window (timer still pending while the worker is
    between taking the timers and taking the purge requests), then as soon as the worker is idle with no purge request
    left, the timer is gone and never fires again (fewer than 2^48 timers in total). *)
Theorem C26_purged_outside_window :
  forall s1 s2 id, steps wstep workerInit s1 -> 0 <= id < wnext s1 -> wnext s1 < two48 ->
  cstep s1 (CPurge id) = Some s2 ->
  (hasTimer id (wtimers s1) -> inWindow (wpc s1) = false) ->
  forall s3, steps wstepB s2 s3 -> wpc s3 = Idle -> wpurging s3 = [] ->
  ~ hasTimer id (wactive s3) /\ ~ hasTimer id (wtimers s3) /\
  forall s4, steps wstepB s3 s4 ->
    ~ hasTimer id (wactive s4) /\ count (firedId id) (wfired s4) = count (firedId id) (wfired s3).
Proof.
  intros s1 s2 id H1 Hid Hb Hc Hw s3 H3 Hp Hpu. cbn in Hc. injection Hc as <-.
  match type of H3 with steps _ ?s _ => set (s2 := s) in * end.
  assert (W2 : willPurge id s2).
  { left. split; [cbn; apply in_or_app; cbn; auto|assumption]. }
  assert (N2 : 0 <= wnext s2 < two48) by (cbn; lia).
  destruct (willPurge_steps id s2 s3 H3 N2 Hid W2) as [W3 [Hid3 _]].
  assert (N : nowhere id s3).
  { destruct W3 as [[A _]|[[_ [l [A _]]]|A]]; [rewrite Hpu in A; destruct A|congruence|assumption]. }
  pose proof (stepsB _ _ N2 H3) as [_ N3].
  destruct N as [A [B C]]. splits; auto. intros s4 H4.
  destruct (willPurge_steps id s3 s4 H4 N3 (conj (proj1 Hid) Hid3)) as [_ [_ D]].
  - right. right. split; [|split]; assumption.
  - destruct D as [[_ [E _]] F]; [split; [|split]; assumption|]. auto.
Qed.
Print Assumptions C26_purged_outside_window.

(** In particular (by C25_no_lost_wakeup) after all notifications are processed. *)
Theorem C26_after_processing :
  forall s1 s2 id, steps wstep workerInit s1 -> 0 <= id < wnext s1 -> wnext s1 < two48 ->
  cstep s1 (CPurge id) = Some s2 -> (hasTimer id (wtimers s1) -> inWindow (wpc s1) = false) ->
  forall s3, steps wstepB s2 s3 -> wpc s3 = Idle -> wowed s3 = 0 -> wev s3 = 0 -> ~ hasTimer id (wactive s3).
Proof.
  intros s1 s2 id H1 Hid Hb Hc Hw s3 H3 Hp Ho He.
  assert (N2 : 0 <= wnext s2 < two48) by (cbn in Hc; injection Hc as <-; cbn; lia).
  assert (H03 : steps wstep workerInit s3).
  { eapply steps_trans; [exact H1|]. eapply steps_cons; [eapply wstep_client; exact Hc|].
    apply (stepsB _ _ N2 H3). }
  destruct (proj1 (C25_no_lost_wakeup s3 H03) Hp Ho He) as [_ [_ [Hpu _]]].
  exact (proj1 (C26_purged_outside_window s1 s2 id H1 Hid Hb Hc Hw s3 H3 Hp Hpu)).
Qed.
Print Assumptions C26_after_processing.

Ltac clientB e := eapply steps_cons; [split; [apply (wstep_client _ e); reflexivity|vm_compute; reflexivity]|cbn].
Ltac notifyB := eapply steps_cons; [split; [apply wstep_notify; reflexivity|vm_compute; reflexivity]|cbn].
Ltac wakeB := eapply steps_cons; [split; [apply wstep_wake; cbn; [reflexivity|lia]|vm_compute; reflexivity]|cbn].
Example C26_example :
  exists s1 s2 s3, steps wstep workerInit s1 /\ hasTimer 0 (wactive s1) /\ map tid (wfired s1) = [0; 0] /\
    cstep s1 (CPurge 0) = Some s2 /\ steps wstepB s2 s3 /\ wpc s3 = Idle /\ wowed s3 = 0 /\ wev s3 = 0 /\
    wactive s3 = [].
Proof.
  eexists. eexists. eexists. split.
  - client (CTimer false). client CNotify. wake. do 8 notify_step.
    do 2 (eapply steps_cons; [apply (wstep_fire _ (mkTimer 0 false)); cbn; auto|cbn]). apply steps_refl.
  - split; [exists (mkTimer 0 false); cbn; auto|]. split; [reflexivity|]. split; [reflexivity|]. split.
    + clientB CNotify. wakeB. do 8 notifyB. apply steps_refl.
    + cbn. auto.
Qed.

(** C61: in every schedule (fewer than 2^48 timers) a one-shot timer, i.e. one added by addDelayTask or by
    addRepeatTask with interval 0, fires at most once. *)
Theorem C61_oneshot_at_most_once :
  forall s, steps wstepB workerInit s ->
  forall i j t u, nth_error (wfired s) i = Some t -> nth_error (wfired s) j = Some u ->
    tshot t = true -> tshot u = true -> tid t = tid u -> i = j.
Proof.
  intros s Hst i j t u Hi Hj Ht Hu E.
  assert (O : oinv s) by (eapply inv_reachable; [apply oinv_step|exact Hst|apply oinv_init]).
  destruct O as [_ O _]. specialize (O (tid t)). unfold places in O.
  pose proof (count_nonneg (hasId (tid t)) (wtimers s)). pose proof (count_nonneg (hasId (tid t)) (activating (wpc s))).
  pose proof (count_nonneg (hasId (tid t)) (wactive s)).
  assert (Hc : count (shotId (tid t)) (wfired s) <= 1) by lia. clear O H H0 H1.
  assert (Sh : shotId (tid t) t = true /\ shotId (tid t) u = true).
  { unfold shotId. rewrite Ht, Hu, <- E, Z.eqb_refl. auto. }
  destruct Sh as [St Su]. revert St Su Hc Hi Hj. generalize (shotId (tid t)) as f. generalize (wfired s) as l. clear.
  intros l f St Su. revert i j. induction l as [|a l IH]; intros [|i] [|j] Hc Hi Hj; cbn in *; try discriminate; auto.
  - exfalso. injection Hi as ->. rewrite St in Hc. pose proof (count_pos f l u (nth_error_In _ _ Hj) Su). lia.
  - exfalso. injection Hj as ->. rewrite Su in Hc. pose proof (count_pos f l t (nth_error_In _ _ Hi) St). lia.
  - f_equal. apply IH; auto. destruct (f a); lia.
Qed.
Print Assumptions C61_oneshot_at_most_once.
Example C61_example :
  exists s, steps wstepB workerInit s /\ wfired s = [mkTimer 0 true; mkTimer 1 true] /\ wactive s = [].
Proof.
  eexists. split.
  - clientB (CTimer true). clientB (CTimer true). clientB CNotify. wakeB. do 9 notifyB.
    match goal with |- steps _ ?a _ => let b := eval vm_compute in a in change a with b end.
    eapply steps_cons; [split; [apply (wstep_fire _ (mkTimer 0 true)); cbn; auto|vm_compute; reflexivity]|cbn].
    eapply steps_cons; [split; [apply (wstep_fire _ (mkTimer 1 true)); vm_compute; auto|vm_compute; reflexivity]|cbn].
    apply steps_refl.
  - cbn. auto.
Qed.

(** C27: for every pool of at most 2^16 workers and every history of (interleaved) calls in which no worker has
    handed out 2^48 timers: an id returned by addRepeatTask is routed by purgeTimerTask to the worker that got the timer, with
    its local id; no other timer of the pool (repeated or delayed) has the same worker and local id; and ids are distinct. *)
Theorem C27_pool_timer_ids :
  forall nr s, 0 < nr <= 65536 -> steps pstepB (poolStart nr) s ->
  (forall i x r, nth_error (pissued s) i = Some x -> ireturned x = Some r ->
     poolRoute r = (iworker x, ilocal x) /\ 0 <= iworker x < nr /\
     forall j y, nth_error (pissued s) j = Some y -> (iworker y, ilocal y) = poolRoute r -> i = j) /\
  (forall i j x y r, nth_error (pissued s) i = Some x -> nth_error (pissued s) j = Some y ->
     ireturned x = Some r -> ireturned y = Some r -> i = j).
Proof.
  intros nr s Hnr Hst.
  assert (I : pinv nr s).
  { eapply inv_reachable; [intros a b; apply pinv_step; lia|exact Hst|apply pinv_init; lia]. }
  destruct I as [P1 P2 P3 P4 P5 P6]. rewrite Forall_forall in P4.
  assert (HR : forall i x r, nth_error (pissued s) i = Some x -> ireturned x = Some r ->
     poolRoute r = (iworker x, ilocal x) /\ 0 <= iworker x < nr).
  { intros i x r Hi Hr. destruct (P4 x (nth_error_In _ _ Hi)) as [A [B [C D]]].
    rewrite (D r Hr). split; [|assumption]. apply poolRoute_poolId; [lia|assumption]. }
  assert (HU : forall i j x y, nth_error (pissued s) i = Some x -> nth_error (pissued s) j = Some y ->
     (iworker y, ilocal y) = (iworker x, ilocal x) -> i = j).
  { intros i j x y Hi Hj E. pose proof (proj1 (NoDup_nth_error _) P5 i j) as Hnd. apply Hnd.
    - rewrite map_length. eapply nth_some_lt; eassumption.
    - rewrite !nth_error_map, Hi, Hj. cbn. congruence. }
  split.
  - intros i x r Hi Hr. destruct (HR i x r Hi Hr) as [A B]. splits; auto; try lia.
    intros j y Hj E. rewrite A in E. eapply HU; eauto.
  - intros i j x y r Hi Hj Hr Hr'. destruct (HR i x r Hi Hr) as [A _]. destruct (HR j y r Hj Hr') as [B _].
    eapply HU; eauto. congruence.
Qed.
Print Assumptions C27_pool_timer_ids.

(** Both bounds are needed. *)
Theorem C27_bounds_tight_refuted :
  (exists c c', c <> c' /\ 0 <= c < two64 /\ 0 <= c' < two64 /\ timerIdOf c = timerIdOf c') /\
  (exists idx idx', idx <> idx' /\ 0 <= idx <= 65536 /\ 0 <= idx' <= 65536 /\ poolId idx 5 = poolId idx' 5).
Proof.
  split.
  - exists 0, 281474976710656. splits; try (unfold two64; lia); reflexivity.
  - exists 0, 65536. splits; try lia; reflexivity.
Qed.
Print Assumptions C27_bounds_tight_refuted.

Example C27_example :
  exists s, steps pstepB (poolStart 2) s /\
    map ireturned (pissued s) = [Some 281474976710656; Some 0; None; Some 281474976710657].
Proof.
  eexists. split.
  - eapply steps_cons. { split; [apply (pstep_take _ PRepeat)|cbn; repeat constructor]. } cbn.
    eapply steps_cons. { split; [apply (pstep_take _ PRepeat)|cbn; repeat constructor]. } cbn.
    eapply steps_cons. { split; [eapply (pstep_finish _ 1 PRepeat 1 0); reflexivity|cbn; repeat constructor]. } cbn.
    eapply steps_cons. { split; [eapply (pstep_finish _ 0 PRepeat 0 0); reflexivity|cbn; repeat constructor]. } cbn.
    eapply steps_cons. { split; [apply (pstep_take _ PDelay)|cbn; repeat constructor]. } cbn.
    eapply steps_cons. { split; [eapply (pstep_finish _ 0 PDelay 0 1); reflexivity|cbn; repeat constructor]. } cbn.
    eapply steps_cons. { split; [apply (pstep_take _ PRepeat)|cbn; repeat constructor]. } cbn.
    eapply steps_cons. { split; [eapply (pstep_finish _ 0 PRepeat 1 1); reflexivity|cbn; repeat constructor]. } cbn.
    apply steps_refl.
  - reflexivity.
Qed.
