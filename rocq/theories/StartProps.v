(** Property C170: waiting for the meta server, and stopping. *)
From Verif Require Import Prelude Trans StartModel.
From Coq Require Import List.
Import ListNotations.
Open Scope Z_scope.

(** * Specification *)
(** [k] steps of a thread that waits, while nobody stops the client; the background thread may load in between *)
Inductive waiting (count : Z) : nat -> cst -> cst -> Prop :=
| wt_nil s : waiting count 0 s s
| wt_step k s b s1 s2 : waiting count k s s1 -> wnext count b s1 = Some s2 -> waiting count (S k) s s2
| wt_bg k s s1 s2 : waiting count k s s1 -> bnext s1 = Some s2 -> waiting count k s s2.
(** The answers of the attempts, the last one first: failures, except perhaps for the last one *)
Definition failures (l : list bool) : Prop := Forall (eq false) l.
Definition attempts (s : cst) : Z := Z.of_nat (List.length (cLog s)).
(** as many attempts as were asked for: the first one and [count] repetitions; without end for -1 *)
Definition allowed (count : Z) : Z := Z.max 1 (count + 1).
Definition used (count : Z) (l : list bool) : Prop :=
  exists b rest, l = b :: rest /\ failures rest /\ (b = true \/ (count <> -1 /\ Z.of_nat (List.length l) = allowed count)).

(** * Waiting undisturbed *)
Definition winv (count : Z) (k : nat) (s : cst) : Prop :=
  cS s = SIdle /\ (count = -1 \/ attempts s <= allowed count) /\
  match cW s with
  | WBegin => cLog s = [] /\ cBg s = BgFresh /\ cReady s = false /\ k = 0%nat
  | WTry n => failures (cLog s) /\ n = count - attempts s /\ (0 < attempts s -> count = -1 \/ 0 <= n) /\ (n < int32_min -> False) /\ cRun s = true /\ cBg s = BgFresh /\
      Z.of_nat k = 3 * attempts s + 1
  | WRun n => failures (cLog s) /\ 1 <= attempts s /\ n = count - attempts s + 1 /\ (count = -1 \/ 0 < n) /\ int32_min <= n /\ cRun s = true /\ cBg s = BgFresh /\ Z.of_nat k = 3 * attempts s - 1
  | WSleep n => failures (cLog s) /\ 1 <= attempts s /\ n = count - attempts s /\ (count = -1 \/ 0 <= n) /\ int32_min <= n /\ cRun s = true /\ cBg s = BgFresh /\ Z.of_nat k = 3 * attempts s
  | WCheck => used count (cLog s) /\ cRun s = true /\ cBg s = BgFresh /\ (hd false (cLog s) = true -> cReady s = true) /\ Z.of_nat k = 3 * attempts s - 1
  | WStart => used count (cLog s) /\ cRun s = true /\ cBg s = BgFresh /\ (hd false (cLog s) = true -> cReady s = true) /\ Z.of_nat k = 3 * attempts s
  | WTask => used count (cLog s) /\ cRun s = true /\ cBg s = BgOn /\ (hd false (cLog s) = true -> cReady s = true) /\ Z.of_nat k = 3 * attempts s + 1
  | WDone r => used count (cLog s) /\ cRun s = true /\ cBg s = BgOn /\ (hd false (cLog s) = true -> r = true) /\ (r = true -> cReady s = true) /\ Z.of_nat k = 3 * attempts s + 2
  | WBad => count = -1 /\ failures (cLog s) /\ attempts s = 2147483648 /\ Z.of_nat k = 3 * attempts s
  | WFatal => False
  end.
Lemma winv_init count : winv count 0 cInit.
Proof. unfold winv, cInit, attempts, allowed. cbn. splits; auto. lia. Qed.
Lemma winv_wait count k s b s' : in_int32 count = true -> winv count k s -> wnext count b s = Some s' -> winv count (S k) s'.
Proof.
  intros C (HS & HA & H) E. unfold winv, wnext, setW, attempts, used, allowed, in_int32 in *.
  destruct (cW s) as [|n|n|n| | | |r| |] eqn:W; try discriminate E; try (destruct H; fail).
  - injection E as <-. cbn. destruct H as (-> & HB & HR & ->). cbn in *. splits; auto; unfold int32_min, int32_max in *; try lia. constructor.
  - injection E as <-. cbn [cS cW cLog cReady cRun cBg]. split; [exact HS|]. destruct H as (F & -> & P & M & R & Bg & K). split; [cbn [List.length]; lia|].
    destruct b; cbn [List.length hd].
    + splits; auto; [|lia]. exists true, (cLog s). auto.
    + destruct ((count =? -1) || _) eqn:Q; cbn [List.length].
      * splits; auto; try lia. constructor; auto.
      * splits; auto; [|lia]. exists false, (cLog s). cbn [List.length]. splits; auto. right. split; [lia|].
        destruct (Z.eq_dec (Z.of_nat (List.length (cLog s))) 0) as [Z0|N0]; [lia|]. destruct (P ltac:(lia)); lia.
  - injection E as <-. destruct H as (F & A & -> & P & M & R & Bg & K). rewrite R. cbn [cS cW cLog cReady cRun cBg]. split; [exact HS|]. split; [exact HA|].
    destruct (Z.eqb_spec (count - Z.of_nat (List.length (cLog s)) + 1) int32_min) as [Q|Q]; cbn.
    + unfold int32_min, int32_max in *. splits; auto; lia.
    + splits; auto; lia.
  - injection E as <-. destruct H as (F & A & -> & P & M & R & Bg & K). cbn. splits; auto; lia.
  - injection E as <-. destruct H as (U & R & Bg & Y & K). rewrite R. cbn. splits; auto; lia.
  - destruct H as (U & R & Bg & Y & K). rewrite Bg in E. injection E as <-. cbn. splits; auto; lia.
  - destruct H as (U & R & Bg & Y & K). rewrite Bg in E. injection E as <-. cbn. splits; auto; try lia.
Qed.
Lemma winv_bg count k s s' : winv count k s -> bnext s = Some s' -> winv count k s'.
Proof.
  unfold bnext. intros (HS & HA & H) E. destruct (cBg s) eqn:Bg; try discriminate E. injection E as <-. unfold winv, attempts, used in *. cbn [cS cW cLog cReady cRun cBg]. split; [exact HS|]. split; [exact HA|].
  destruct (cW s); intuition congruence.
Qed.
Lemma waiting_inv count k s : in_int32 count = true -> waiting count k cInit s -> winv count k s.
Proof.
  intros C H. remember cInit as s0 eqn:E0. induction H; subst.
  - apply winv_init.
  - eapply winv_wait; eauto.
  - eapply winv_bg; eauto.
Qed.
(** When waitForMetadReady returns, the last attempt succeeded, or all attempts that were asked for failed; in either case the background thread is
    started, so that the client may become ready later. It answers true if an attempt succeeded, and only a client that is ready. *)
Theorem C170_returns : forall count k s r, in_int32 count = true -> waiting count k cInit s -> cW s = WDone r ->
  used count (cLog s) /\ cBg s = BgOn /\ cRun s = true /\ (In true (cLog s) -> r = true) /\ (r = true -> cReady s = true).
Proof.
  intros count k s r C H D. apply waiting_inv in H; [|exact C]. destruct H as (_ & _ & H). rewrite D in H. destruct H as (U & R & Bg & Y & Q & _). splits; auto.
  intros I. apply Y. destruct U as (b & rest & E & F & _). rewrite E in *. destruct I as [->|I]; [reflexivity|]. unfold failures in F. rewrite Forall_forall in F. discriminate (F _ I).
Qed.
(** With a count other than -1 it returns, in a bounded number of steps, after at most as many attempts as asked for; nothing undefined or fatal happens. *)
Theorem C170_bounded : forall count k s, in_int32 count = true -> count <> -1 -> waiting count k cInit s ->
  attempts s <= allowed count /\ Z.of_nat k <= 3 * allowed count + 2 /\
  ((exists r, cW s = WDone r) \/ forall b, exists s', wnext count b s = Some s').
Proof.
  intros count k s C N H. apply waiting_inv in H; [|exact C]. destruct H as (_ & [HA|HA] & H); [contradiction|]. split; [exact HA|]. unfold wnext.
  destruct (cW s) as [|n|n|n| | | |r| |]; try (destruct H; fail); try (split; [lia|]; (right; intros b; eexists; reflexivity) || (left; eexists; reflexivity)).
  - destruct H as (_ & _ & _ & ->). split; [unfold allowed; lia|]. right. intros b. eexists. reflexivity.
  - destruct H as (Q & _). contradiction.
Qed.
(** With -1 only success ends it, as long as there are fewer than 2^31 failures. *)
Theorem C170_unbounded : forall k s, waiting (-1) k cInit s -> attempts s < 2147483648 ->
  (exists r, cW s = WDone r /\ r = true /\ In true (cLog s)) \/ forall b, exists s', wnext (-1) b s = Some s'.
Proof.
  intros k s H L. apply waiting_inv in H; [|reflexivity]. destruct H as (_ & _ & H). unfold wnext.
  destruct (cW s) as [|n|n|n| | | |r| |]; try (destruct H; fail); try (right; intros b; eexists; reflexivity).
  - left. exists r. destruct H as ((b & rest & E & F & [->|[N _]]) & _ & _ & Y & _); [|destruct N; reflexivity]. rewrite E in *. splits; [reflexivity|apply Y; reflexivity|left; reflexivity].
  - lia.
Qed.
Lemma fails_on m : forall s n, cW s = WTry n -> cRun s = true -> failures (cLog s) -> n - Z.of_nat m >= int32_min ->
  exists k s', (forall s0 k0, waiting (-1) k0 s0 s -> waiting (-1) (k + k0) s0 s') /\ cW s' = WTry (n - Z.of_nat m) /\ cRun s' = true /\ failures (cLog s') /\ attempts s' = attempts s + Z.of_nat m.
Proof.
  induction m as [|m IH]; intros s n W R F B.
  - exists 0%nat, s. splits; auto; [rewrite W; f_equal; lia|lia].
  - destruct (IH s n W R F ltac:(lia)) as (k & s1 & P & W1 & R1 & F1 & A1).
    set (s2 := mkC true (cBg s1) false (false :: cLog s1) (WTry (n - Z.of_nat m - 1)) (cS s1)). exists (S (S (S k))), s2. splits.
    + intros s0 k0 H. apply P in H. cbn [Nat.add].
      eapply wt_step with (b := false); [eapply wt_step with (b := false); [eapply wt_step with (b := false); [exact H|]|]|].
      * unfold wnext. rewrite W1. cbn [Z.eqb Pos.eqb orb]. reflexivity.
      * unfold wnext, setW. cbn [cW cRun cBg cReady cLog cS]. rewrite R1. destruct (Z.eqb_spec (n - Z.of_nat m) int32_min) as [Q|Q]; [lia|]. reflexivity.
      * unfold wnext, setW. cbn [cW cRun cBg cReady cLog cS]. reflexivity.
    + unfold s2. cbn. f_equal. lia.
    + reflexivity.
    + constructor; auto.
    + unfold attempts in *. unfold s2. cbn [cLog List.length]. lia.
Qed.
(** The statement that with -1 it tries again as long as needed is false: after 2^31 failures the count overflows. *)
Theorem C170_unbounded_refuted : exists k s, waiting (-1) k cInit s /\ failures (cLog s) /\ attempts s = 2147483648 /\ cW s = WBad.
Proof.
  set (s1 := mkC true BgFresh false [] (WTry (-1)) SIdle).
  destruct (fails_on (Z.to_nat 2147483647) s1 (-1) eq_refl eq_refl (Forall_nil _)) as (k & s2 & P & W & R & F & A); [rewrite Z2Nat.id by lia; unfold int32_min; lia|].
  rewrite Z2Nat.id in W, A by lia.
  exists (S (S (k + 1))), (mkC (cRun s2) (cBg s2) false (false :: cLog s2) WBad (cS s2)).
  assert (H : waiting (-1) (k + 1) cInit s2) by (apply P; eapply wt_step with (b := false); [apply wt_nil|reflexivity]).
  splits.
  - eapply wt_step with (b := false); [eapply wt_step with (b := false); [exact H|unfold wnext; rewrite W; reflexivity]|]. unfold wnext, setW. cbn [cW cRun cBg cReady cLog cS Z.eqb Pos.eqb orb]. rewrite R. reflexivity.
  - constructor; auto.
  - unfold attempts in *. cbn [cLog List.length] in *. change (Z.of_nat (List.length (cLog s1))) with 0 in A. lia.
  - reflexivity.
Qed.

(** * Stopping *)
(** The whole stop falls into one sleep of the thread that waits. *)
Inductive calm (count : Z) : cst -> cst -> Prop :=
| cm_wait b s s' : cS s = SIdle \/ cS s = SDone -> wnext count b s = Some s' -> calm count s s'
| cm_stop n s s' : cW s = WSleep n -> snext s = Some s' -> calm count s s'
| cm_bg s s' : bnext s = Some s' -> calm count s s'.
Definition cinv (count : Z) (s : cst) : Prop :=
  match cS s with
  | SIdle => exists k, winv count k s
  | SDone => cRun s = false /\ cBg s = BgNone /\ match cW s with WTry n | WRun n | WSleep n => True | WCheck => True | WDone r => r = false | _ => False end
  | p => (exists n, cW s = WSleep n) /\ match p with SStop | SWait | SReset => cBg s = BgFresh | _ => cBg s = BgNone end
  end.
Lemma calm_inv count s s' : in_int32 count = true -> calm count s s' -> cinv count s -> cinv count s'.
Proof.
  intros C H I. unfold cinv in *. destruct H as [b s s' Q E|n s s' W E|s s' E].
  - destruct Q as [Q|Q].
    + rewrite Q in I. destruct I as [k I]. pose proof (winv_wait count k s b s' C I E) as J. destruct J as (J1 & J2). rewrite J1. exists (S k). split; [exact J1|exact J2].
    + rewrite Q in I. destruct I as (R & Bg & W). assert (S' : cS s' = SDone /\ cRun s' = false /\ cBg s' = BgNone /\ match cW s' with WTry n | WRun n | WSleep n => True | WCheck => True | WDone r => r = false | _ => False end).
      { unfold wnext, setW in E. destruct (cW s) as [|n|n|n| | | |r| |]; try contradiction; try discriminate E; injection E as <-; cbn; rewrite ?R; splits; auto. destruct b; [exact I|]. destruct ((count =? -1) || _); exact I. }
      destruct S' as (S1 & S2). rewrite S1. exact S2.
  - destruct (cS s) eqn:Q.
    + destruct I as (k & I). destruct I as (_ & _ & I). rewrite W in I. destruct I as (_ & _ & _ & _ & _ & _ & Bg & _). unfold snext in E. rewrite Q, Bg in E. injection E as <-. cbn. split; [exists n; exact W|exact Bg].
    + destruct I as (Wn & Bg). unfold snext in E. rewrite Q, Bg in E. injection E as <-. cbn. auto.
    + destruct I as (Wn & Bg). unfold snext in E. rewrite Q, Bg in E. injection E as <-. cbn. auto.
    + destruct I as (Wn & Bg). unfold snext in E. rewrite Q in E. injection E as <-. cbn. auto.
    + destruct I as (Wn & Bg). unfold snext in E. rewrite Q in E. injection E as <-. cbn. rewrite W. auto.
    + unfold snext in E. rewrite Q in E. discriminate E.
  - destruct (cS s) eqn:Q; unfold bnext in E.
    + destruct I as (k & I). pose proof (winv_bg count k s s' I E) as J. destruct (cBg s) eqn:Bg; try discriminate E. injection E as <-. cbn. rewrite Q in J |- *. exists k. exact J.
    + destruct I as (_ & Bg). rewrite Bg in E. discriminate E.
    + destruct I as (_ & Bg). rewrite Bg in E. discriminate E.
    + destruct I as (_ & Bg). rewrite Bg in E. discriminate E.
    + destruct I as (_ & Bg). rewrite Bg in E. discriminate E.
    + destruct I as (_ & Bg & _). rewrite Bg in E. discriminate E.
Qed.
(** Stopped while it sleeps, waitForMetadReady answers false and starts nothing; the stop is never held up, and nothing undefined happens to either. *)
Theorem C170_stop_asleep : forall count s, in_int32 count = true -> count <> -1 -> steps (calm count) cInit s ->
  cW s <> WBad /\ cW s <> WFatal /\
  (cS s <> SIdle -> cS s <> SDone -> exists s', snext s = Some s') /\
  (cS s = SDone -> cRun s = false /\ cBg s = BgNone /\ (forall r, cW s = WDone r -> r = false) /\ cW s <> WStart /\ cW s <> WTask).
Proof.
  intros count s C N H. assert (I : cinv count s).
  { eapply inv_reachable; [|exact H|]; [intros; eapply calm_inv; eauto|]. exists 0%nat. apply winv_init. }
  unfold cinv in I. destruct (cS s) eqn:Q.
  - destruct I as (k & _ & _ & I). splits; try congruence; intros W; rewrite W in I; [destruct I; contradiction|exact I].
  - destruct I as ((n & W) & Bg). splits; try congruence. intros _ _. unfold snext. rewrite Q, Bg. eexists. reflexivity.
  - destruct I as ((n & W) & Bg). splits; try congruence. intros _ _. unfold snext. rewrite Q, Bg. eexists. reflexivity.
  - destruct I as ((n & W) & Bg). splits; try congruence. intros _ _. unfold snext. rewrite Q. eexists. reflexivity.
  - destruct I as ((n & W) & Bg). splits; try congruence. intros _ _. unfold snext. rewrite Q. eexists. reflexivity.
  - destruct I as (R & Bg & W). splits; try congruence; try (intros W'; rewrite W' in W; destruct W; fail).
    intros _. splits; auto; try (intros W'; rewrite W' in W; destruct W; fail). intros r W'. rewrite W' in W. exact W.
Qed.
(** From then on at most one more attempt is made, in any execution. *)
Theorem C170_stop_soon : forall count s n s', cS s = SDone -> cRun s = false -> cW s = WSleep n -> steps (step count) s s' ->
  attempts s' <= attempts s + 1 /\ (forall r, cW s' = WDone r -> r = false) /\ (attempts s' = attempts s + 1 -> (exists k, cW s' = WRun k) \/ cW s' = WCheck \/ cW s' = WDone false).
Proof.
  intros count s n s' HS HR HW H. unfold attempts.
  assert (I : cS s' = SDone /\ cRun s' = false /\
     (List.length (cLog s') = List.length (cLog s) /\ (exists k, cW s' = WSleep k \/ cW s' = WTry k) \/
      List.length (cLog s') = S (List.length (cLog s)) /\ ((exists k, cW s' = WRun k) \/ cW s' = WCheck \/ cW s' = WDone false))).
  { induction H as [s|s s1 s2 H IH E]; [splits; auto; left; split; auto; exists n; auto|]. destruct (IH HS HR HW) as (I1 & I2 & I3). destruct E as [b s1 s2 E|s1 s2 E|s1 s2 E].
    - unfold wnext, setW in E. destruct I3 as [(L & k & [W|W])|(L & [(k & W)|[W|W]])]; rewrite W in E; try discriminate E; injection E as <-; cbn [cS cRun cLog cW List.length]; rewrite ?I2; splits; auto.
      + left. split; [exact L|]. exists k. auto.
      + right. split; [congruence|]. destruct b; [auto|]. destruct ((count =? -1) || _); eauto.
    - unfold snext in E. rewrite I1 in E. discriminate E.
    - unfold bnext in E. destruct (cBg s1); try discriminate E. injection E as <-. cbn. auto. }
  destruct I as (_ & _ & [(L & k & [W|W])|(L & [(k & W)|[W|W]])]); rewrite W, L; splits; intros; try congruence; try lia; eauto.
Qed.
(** Stopping after waitForMetadReady has returned: the background thread ends and is gone; a second stop changes nothing. *)
Theorem C170_stop_after : forall count s s' r, cW s = WDone r -> cBg s <> BgOff -> cS s = SIdle -> steps (step count) s s' ->
  cW s' = WDone r /\ (cS s' = SDone \/ exists s2, snext s' = Some s2) /\ (cS s' = SDone -> cBg s' = BgNone /\ cRun s' = false) /\
  (cS s' = SDone -> let s2 := setS s' SIdle in exists s3, steps (step count) s2 s3 /\ s3 = s').
Proof.
  intros count s s' r HW HB HS H.
  assert (I : cW s' = WDone r /\ match cS s' with SIdle => cBg s' <> BgOff | SStop => cBg s' = BgOn \/ cBg s' = BgFresh | SWait | SReset => cBg s' = BgOff \/ cBg s' = BgFresh | SFlag => cBg s' = BgNone | SDone => cBg s' = BgNone /\ cRun s' = false end).
  { induction H as [s|s s1 s2 H IH E]; [rewrite HS; auto|]. destruct (IH HW HB HS) as (I1 & I2). destruct E as [b s1 s2 E|s1 s2 E|s1 s2 E].
    - unfold wnext in E. rewrite I1 in E. discriminate E.
    - unfold snext in E. destruct (cS s1); try discriminate E.
      + injection E as <-. cbn. split; [exact I1|]. destruct (cBg s1); auto. destruct I2; reflexivity.
      + injection E as <-. cbn. split; [exact I1|]. destruct I2 as [-> | ->]; auto.
      + destruct I2 as [Q|Q]; rewrite Q in E; injection E as <-; cbn; rewrite Q; auto.
      + injection E as <-. cbn. auto.
      + injection E as <-. cbn. auto.
    - unfold bnext in E. destruct (cBg s1) eqn:Q; try discriminate E. injection E as <-. cbn. split; [exact I1|]. destruct (cS s1); try (intuition congruence). }
  destruct I as (I1 & I2). splits; [exact I1| | |].
  - unfold snext. destruct (cS s'); auto; right; try (eexists; reflexivity). destruct I2 as [-> | ->]; eexists; reflexivity.
  - intros Q. rewrite Q in I2. exact I2.
  - intros Q. rewrite Q in I2. destruct I2 as [Bg R]. cbn zeta. exists s'. split; [|reflexivity].
    destruct s' as [run bg rdy lg w p]. cbn in *. subst. eapply steps_cons; [apply st_stop; reflexivity|]. eapply steps_cons; [apply st_stop; reflexivity|]. apply steps_refl.
Qed.
(** That the client can be stopped at any time is false: the thread that waits may use the background thread after it is gone; *)
Ltac wt x := eapply steps_cons; [apply (st_wait _ x); reflexivity|]; cbn.
Ltac sp := eapply steps_cons; [apply st_stop; reflexivity|]; cbn.
Theorem C170_stop_refuted : exists s, steps (step 3) cInit s /\ cW s = WBad /\ attempts s = 1.
Proof.
  eexists. split; [|shelve]. wt true. wt true. wt true. sp. sp. sp. sp. wt true. apply steps_refl.
  Unshelve. split; reflexivity.
Qed.
(** the stop may wait for ever for a thread that was started behind its back; *)
Theorem C170_stop_hangs_refuted : exists s, steps (step 3) cInit s /\ cS s = SWait /\ cRun s = true /\ forall s', steps (step 3) s s' -> cS s' = SWait.
Proof.
  exists (mkC true BgOn true [true] WTask SWait). splits; auto.
  - wt true. wt true. wt true. sp. sp. wt true. apply steps_refl.
  - intros s' H. assert (I : cS s' = SWait /\ cBg s' = BgOn /\ (cW s' = WTask \/ exists r, cW s' = WDone r)).
    { eapply inv_reachable with (inv := fun s' => cS s' = SWait /\ cBg s' = BgOn /\ (cW s' = WTask \/ exists r, cW s' = WDone r)); [|exact H|cbn; auto].
      intros s1 s2 (I1 & I2 & I3) E. destruct E as [b s1 s2 E|s1 s2 E|s1 s2 E].
      - unfold wnext in E. destruct I3 as [W|[r W]]; rewrite W in E; [|discriminate E]. rewrite I2 in E. injection E as <-. cbn. splits; eauto.
      - unfold snext in E. rewrite I1, I2 in E. discriminate E.
      - unfold bnext in E. rewrite I2 in E. injection E as <-. cbn. auto. }
    apply I.
Qed.
(** and a stop before the wait begins is lost: the wait goes on as if nothing had happened, until it succeeds, and then uses the background thread that is gone. *)
Theorem C170_stop_lost_refuted : exists s, steps (step (-1)) cInit s /\ cS s = SDone /\ cW s = WTry (-1) /\ cRun s = true /\
  forall s' r, steps (step (-1)) s s' -> cW s' <> WDone r.
Proof.
  exists (mkC true BgNone false [] (WTry (-1)) SDone). splits; auto.
  - sp. sp. sp. sp. sp. wt true. apply steps_refl.
  - intros s' r H. assert (I : cS s' = SDone /\ cBg s' = BgNone /\ cRun s' = true /\ match cW s' with WDone _ | WTask | WBegin => False | _ => True end).
    { eapply inv_reachable with (inv := fun s' => cS s' = SDone /\ cBg s' = BgNone /\ cRun s' = true /\ match cW s' with WDone _ | WTask | WBegin => False | _ => True end); [|exact H|cbn; auto].
      intros s1 s2 (I1 & I2 & I3 & I4) E. destruct E as [b s1 s2 E|s1 s2 E|s1 s2 E].
      - unfold wnext, setW in E. destruct (cW s1) as [|n|n|n| | | |q| |]; try contradiction; try discriminate E; rewrite ?I2, ?I3 in E; injection E as <-; cbn; splits; auto.
        + destruct b; exact I.
        + destruct (n =? int32_min); exact I.
      - unfold snext in E. rewrite I1 in E. discriminate E.
      - unfold bnext in E. rewrite I2 in E. discriminate E. }
    intros W. destruct I as (_ & _ & _ & I). rewrite W in I. exact I.
Qed.
(** Two failures and a success with a count of 5; three failures with a count of 2. *)
Example C170_example : exists s t, steps (step 5) cInit s /\ cW s = WDone true /\ cLog s = [true; false; false] /\ cBg s = BgOn /\
  steps (step 2) cInit t /\ cW t = WDone false /\ cLog t = [false; false; false] /\ cBg t = BgOn.
Proof.
  eexists. eexists. splits; [| | | | | | |].
  - wt true. wt false. wt true. wt true. wt false. wt true. wt true. wt true. wt true. wt true. wt true. apply steps_refl.
  - reflexivity.
  - reflexivity.
  - reflexivity.
  - wt true. wt false. wt true. wt true. wt false. wt true. wt true. wt false. wt true. wt true. wt true. apply steps_refl.
  - reflexivity.
  - reflexivity.
  - reflexivity.
Qed.
(** The whole stop within a sleep *)
Example C170_calm_example : exists s, steps (calm 5) cInit s /\ cS s = SDone /\ cW s = WDone false /\ cLog s = [true; false].
Proof.
  eexists. splits; [|shelve..].
  eapply steps_cons; [eapply cm_wait with (b := true); [left|]; reflexivity|]; cbn. eapply steps_cons; [eapply cm_wait with (b := false); [left|]; reflexivity|]; cbn.
  eapply steps_cons; [eapply cm_wait with (b := true); [left|]; reflexivity|]; cbn.
  do 5 (eapply steps_cons; [eapply cm_stop; reflexivity|]; cbn).
  do 3 (eapply steps_cons; [eapply cm_wait with (b := true); [right|]; reflexivity|]; cbn). apply steps_refl.
  Unshelve. all: reflexivity.
Qed.
Print Assumptions C170_returns.
Print Assumptions C170_bounded.
Print Assumptions C170_unbounded.
Print Assumptions C170_unbounded_refuted.
Print Assumptions C170_stop_asleep.
Print Assumptions C170_stop_soon.
Print Assumptions C170_stop_after.
Print Assumptions C170_stop_refuted.
Print Assumptions C170_stop_hangs_refuted.
Print Assumptions C170_stop_lost_refuted.
