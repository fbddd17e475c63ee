From Verif Require Import Prelude Trans WorkerModel.

Definition running (p : wpcs) : list Z := match p with RunTasks l => l | _ => [] end.
(** The worker will still look at the given queue before it returns to the event loop. *)
Definition beforeTasks (p : wpcs) : bool := match p with Check | SwapTasks => true | _ => false end.
Definition beforeTimers (p : wpcs) : bool :=
  match p with Check | SwapTasks | RunTasks _ | SwapTimers => true | _ => false end.
Definition beforePurge (p : wpcs) : bool :=
  match p with Idle | PurgeAll _ | Exited => false | _ => true end.

Record winv (s : worker) : Prop := {
  wi_split : wadded s = wexec s ++ running (wpc s) ++ wtasks s;
  wi_owed : 0 <= wowed s; wi_ev : 0 <= wev s; wi_stopping : 0 <= wstopping s;
  wi_mark : wstopped s = true <-> exists k, wmark s = Some k;
  wi_exit : wexit s = true -> wstopped s = true;
  wi_exited : wpc s = Exited -> wexit s = true;
  wi_done : forall k, wmark s = Some k -> wexit s = true ->
      (k <= length (wexec s) + length (running (wpc s)))%nat \/
      (wpc s = SwapTasks /\ (k <= length (wexec s) + length (wtasks s))%nat);
  wi_markle : forall k, wmark s = Some k -> (k <= length (wadded s))%nat;
  wi_tasks : wtasks s <> [] -> 0 < wowed s \/ 0 < wev s \/ beforeTasks (wpc s) = true \/ wpc s = Exited;
  wi_timers : wtimers s <> [] -> 0 < wowed s \/ 0 < wev s \/ beforeTimers (wpc s) = true \/ wpc s = Exited;
  wi_purge : wpurging s <> [] -> 0 < wowed s \/ 0 < wev s \/ beforePurge (wpc s) = true \/ wpc s = Exited;
  wi_stop : wstopped s = true -> wexit s = true \/ 0 < wowed s \/ 0 < wev s \/ wpc s = Check }.

Lemma winv_init : winv workerInit.
Proof.
  constructor; cbn; try lia; try congruence; try reflexivity; intros.
  - split; [discriminate|intros [k H]; discriminate].
Qed.

Ltac wsolve :=
  cbn [wstopped wexit wtasks wtimers wpurging wactive wnext wev wowed wstopping wpc wadded wexec wmark wfired
       running beforeTasks beforeTimers beforePurge setPc setActive] in *.

Lemma winv_step s s' : winv s -> wstep s s' -> winv s'.
Proof.
  intros [I1 I2 I3 I4 I5 I6 I7 I8 I9 I10 I11 I12 I13] Hs.
  destruct Hs as [s e s' Hc|s s' Hc|s Hp He|s t Hp Hin|s Hp He].
  - destruct e as [t| | | |shot|id]; cbn in Hc.
    + apply (f_equal (fun o => match o with Some x => x | None => s end)) in Hc. subst s'.
      constructor; wsolve; auto; try lia.
      * rewrite I1, !app_assoc. reflexivity.
      * intros k Hk Hx. destruct (I8 k Hk Hx) as [H | [H1 H2]]; [left; assumption|right]. split; [assumption|].
        rewrite app_length; cbn; lia.
      * intros k Hk. rewrite app_length. specialize (I9 k Hk). lia.
    + destruct (Z.ltb_spec 0 (wowed s)) as [Ho|]; [|discriminate]. injection Hc as <-.
      constructor; wsolve; auto; try lia.
      all: try (intros Hne; right; left; lia).
    + destruct (wstopped s) eqn:Es; [discriminate|]. injection Hc as <-.
      constructor; wsolve; auto; try lia.
    + destruct (Z.ltb_spec 0 (wstopping s)) as [Ho|]; [|discriminate]. injection Hc as <-.
      constructor; wsolve; auto; try lia.
      * split; [|reflexivity]. intros _. destruct (wmark s); eauto.
      * intros k Hk Hx. destruct (wmark s) as [m|] eqn:Em.
        -- injection Hk as <-. apply I8; auto.
        -- exfalso. apply I6, I5 in Hx. destruct Hx as [k' Hk']. discriminate.
      * intros k Hk. destruct (wmark s) as [m|] eqn:Em; [injection Hk as <-; auto|injection Hk as <-; lia].
    + apply (f_equal (fun o => match o with Some x => x | None => s end)) in Hc. subst s'.
      constructor; wsolve; auto; try lia.
    + apply (f_equal (fun o => match o with Some x => x | None => s end)) in Hc. subst s'.
      constructor; wsolve; auto; try lia.
  - unfold onNotifyStep in Hc. destruct (wpc s) as [| | |[|t l]| |[|t l]| |[|i l]|] eqn:Ep; try discriminate;
      injection Hc as <-; constructor; wsolve; auto; try lia; try discriminate.
    all: try (intros Hne; congruence).
    all: try (intros Hne; first [destruct (I10 Hne) as [H|[H|[H|H]]] | destruct (I11 Hne) as [H|[H|[H|H]]]
                                | destruct (I12 Hne) as [H|[H|[H|H]]] | destruct (I13 Hne) as [H|[H|[H|H]]] ];
              auto; discriminate).
    + intros Hx. apply orb_true_iff in Hx. destruct Hx; auto.
    + intros k Hk Hx. right. split; [reflexivity|]. specialize (I9 k Hk).
      rewrite I1 in I9. rewrite !app_length in I9. cbn in I9. lia.
    + intros Hst. rewrite Hst, orb_true_r. auto.
    + rewrite app_nil_r. assumption.
    + intros k Hk Hx. left. destruct (I8 k Hk Hx) as [H|[_ H]]; cbn in *; lia.
    + intros k Hk Hx. left. destruct (I8 k Hk Hx) as [H|[H _]]; [cbn in *; lia|discriminate].
    + rewrite I1, <- !app_assoc. reflexivity.
    + intros k Hk Hx. left. rewrite app_length. destruct (I8 k Hk Hx) as [H|[H _]]; [cbn in *; lia|discriminate].
    + intros k Hk Hx. left. destruct (I8 k Hk Hx) as [H|[H _]]; [cbn in *; lia|discriminate].
    + intros k Hk Hx. left. destruct (I8 k Hk Hx) as [H|[H _]]; [cbn in *; lia|discriminate].
    + intros k Hk Hx. left. destruct (I8 k Hk Hx) as [H|[H _]]; [cbn in *; lia|discriminate].
    + intros k Hk Hx. left. destruct (I8 k Hk Hx) as [H|[H _]]; [cbn in *; lia|discriminate].
    + intros k Hk Hx. left. destruct (I8 k Hk Hx) as [H|[H _]]; [cbn in *; lia|discriminate].
    + intros k Hk Hx. left. destruct (I8 k Hk Hx) as [H|[H _]]; [cbn in *; lia|discriminate].
  - constructor; wsolve; rewrite ?Hp in *; wsolve; auto; try lia; try discriminate.
    intros k Hk Hx. left. destruct (I8 k Hk Hx) as [H|[H _]]; [cbn in *; lia|discriminate].
  - constructor; wsolve; rewrite ?Hp in *; wsolve; auto; try lia; try discriminate.
  - constructor; wsolve; rewrite ?Hp in *; wsolve; auto; try lia; try discriminate.
    intros k Hk Hx. left. destruct (I8 k Hk Hx) as [H|[H _]]; [cbn in *; lia|discriminate].
Qed.

Lemma winv_reach s : steps wstep workerInit s -> winv s.
Proof. intros H. eapply inv_reachable; [apply winv_step|exact H|apply winv_init]. Qed.

(** Timers. *)
Definition hasTimer (id : Z) (l : list timer) : Prop := exists t, In t l /\ tid t = id.
Definition activating (p : wpcs) : list timer := match p with Activate l => l | _ => [] end.
Definition inWindow (p : wpcs) : bool := match p with Activate _ | SwapPurge => true | _ => false end.

Definition firedId (id : Z) (t : timer) : bool := Z.eqb id (tid t).

Definition nowhere (id : Z) (s : worker) : Prop :=
  ~ hasTimer id (wtimers s) /\ ~ hasTimer id (wactive s) /\ ~ hasTimer id (activating (wpc s)).
Definition willPurge (id : Z) (s : worker) : Prop :=
  (In id (wpurging s) /\ (hasTimer id (wtimers s) -> inWindow (wpc s) = false)) \/
  (~ hasTimer id (wtimers s) /\ exists l, wpc s = PurgeAll l /\ In id l) \/
  nowhere id s.

Lemma hasTimer_erase id i l : hasTimer id (eraseTimer i l) <-> hasTimer id l /\ id <> i.
Proof.
  unfold hasTimer, eraseTimer. split.
  - intros [t [Hin Ht]]. apply filter_In in Hin. destruct Hin as [Hin Hn]. split; [eauto|]. lia.
  - intros [[t [Hin Ht]] Hne]. exists t. split; [|assumption]. apply filter_In. split; [assumption|lia].
Qed.
Lemma hasTimer_set id t l : hasTimer id (setTimer t l) <-> tid t = id \/ hasTimer id l.
Proof.
  unfold setTimer. split.
  - intros [x [[<- | Hin] Hx]]; [left; assumption|]. right. apply (hasTimer_erase id (tid t) l). exists x. auto.
  - intros [H | H]; [exists t; cbn; auto|]. destruct (Z.eq_dec (tid t) id) as [E|E]; [exists t; cbn; auto|].
    destruct (proj2 (hasTimer_erase id (tid t) l) (conj H (not_eq_sym E))) as [x [Hin Hx]]. exists x. cbn. auto.
Qed.
Lemma hasTimer_snoc id l t : hasTimer id (l ++ [t]) <-> hasTimer id l \/ tid t = id.
Proof.
  unfold hasTimer. split.
  - intros [x [Hin Hx]]. apply in_app_or in Hin. destruct Hin as [Hin | [<- | []]]; eauto.
  - intros [[x [Hin Hx]] | H]; [exists x|exists t]; (split; [apply in_or_app; cbn; auto|assumption]).
Qed.
Lemma hasTimer_cons id l t : hasTimer id (t :: l) <-> tid t = id \/ hasTimer id l.
Proof.
  unfold hasTimer. split.
  - intros [x [[<- | Hin] Hx]]; eauto.
  - intros [H | [x [Hin Hx]]]; [exists t|exists x]; cbn; auto.
Qed.
Lemma hasTimer_nil id : ~ hasTimer id [].
Proof. intros [t [[] _]]. Qed.

Definition two48 : Z := 281474976710656.
Lemma timerId_small n : 0 <= n < two48 -> timerIdOf n = n.
Proof.
  unfold timerIdOf, timerMask, two48. intros H. change 281474976710655 with (Z.ones 48).
  rewrite Z.land_ones by lia. change (2 ^ 48) with 281474976710656. apply Z.mod_small. lia.
Qed.

(** The timer counter never decreases below 2^64 wrap. *)
Record wnextinv (s : worker) : Prop := { wn_range : 0 <= wnext s < two64 }.
Lemma wnext_step s s' : wstep s s' -> 0 <= wnext s < two64 ->
  0 <= wnext s' < two64 /\ (wnext s' = wnext s \/ wnext s' = u64 (wnext s + 1)).
Proof.
  intros Hs Hr. assert (Hu : 0 <= u64 (wnext s + 1) < two64) by (unfold u64; apply Z.mod_pos_bound; reflexivity).
  destruct Hs as [s e s' Hc|s s' Hc|s Hp He|s t Hp Hin|s Hp He]; try (cbn; auto; fail).
  - destruct e as [t| | | |shot|id]; cbn in Hc; try (injection Hc as <-; cbn; auto).
    + destruct (Z.ltb _ _); [injection Hc as <-; cbn; auto|discriminate].
    + destruct (wstopped s); [discriminate|injection Hc as <-; cbn; auto].
    + destruct (Z.ltb _ _); [injection Hc as <-; cbn; auto|discriminate].
  - unfold onNotifyStep in Hc. destruct (wpc s) as [| | |[|t l]| |[|t l]| |[|i l]|]; try discriminate;
      injection Hc as <-; cbn; auto.
Qed.

(** The same run with the additional fact that the counter stays below 2^48. *)
Definition wstepB (s s' : worker) : Prop := wstep s s' /\ wnext s' < two48.
Lemma u64_small n : 0 <= n < two64 -> u64 n = n.
Proof. unfold u64. apply Z.mod_small. Qed.

Lemma willPurge_step id s s' : wstepB s s' -> 0 <= wnext s -> wnext s < two48 -> 0 <= id < wnext s ->
  willPurge id s -> willPurge id s' /\ id < wnext s' /\ 0 <= wnext s' /\
  (nowhere id s -> nowhere id s' /\ count (firedId id) (wfired s') = count (firedId id) (wfired s)).
Proof.
  intros [Hs Hb'] H0 Hb Hid HW.
  assert (Hfresh : timerIdOf (wnext s) <> id) by (rewrite timerId_small by lia; lia).
  assert (Hu : u64 (wnext s + 1) = wnext s + 1) by (apply u64_small; unfold two48, two64 in *; lia).
  destruct Hs as [s e s' Hc|s s' Hc|s Hp He|s t Hp Hin|s Hp He].
  - destruct e as [t| | | |shot|i]; cbn in Hc.
    + injection Hc as <-. unfold willPurge, nowhere in *; wsolve. splits; auto; lia.
    + destruct (Z.ltb _ _); [injection Hc as <-|discriminate]. unfold willPurge, nowhere in *; wsolve. splits; auto; lia.
    + destruct (wstopped s); [discriminate|injection Hc as <-]. unfold willPurge, nowhere in *; wsolve. splits; auto; lia.
    + destruct (Z.ltb _ _); [injection Hc as <-|discriminate]. unfold willPurge, nowhere in *; wsolve. splits; auto; lia.
    + apply (f_equal (fun o => match o with Some x => x | None => s end)) in Hc. subst s'.
      unfold willPurge, nowhere in *; wsolve. rewrite Hu. splits; try lia.
      * destruct HW as [[H1 H2] | [[H1 H2] | [H1 [H2 H3]]]].
        -- left. split; [assumption|]. rewrite hasTimer_snoc. cbn. intros [H | H]; [auto|congruence].
        -- right. left. split; [|assumption]. rewrite hasTimer_snoc. cbn. tauto.
        -- right. right. rewrite hasTimer_snoc. cbn. tauto.
      * intros [H1 [H2 H3]]. rewrite hasTimer_snoc. cbn. tauto.
    + injection Hc as <-. unfold willPurge, nowhere in *; wsolve. splits; auto; try lia.
      destruct HW as [[H1 H2] | [H | H]]; auto. left. split; [apply in_or_app; auto|assumption].
  - unfold onNotifyStep in Hc. pose proof (hasTimer_nil id) as Hnil.
    destruct (wpc s) as [| | |[|t l]| |[|t l]| |[|i l]|] eqn:Ep; try discriminate;
      injection Hc as <-; unfold willPurge, nowhere in *; wsolve; rewrite ?Ep in *; cbn [activating inWindow] in *.
    + splits; try tauto; try lia. destruct HW as [H|[[H1 [l [H2 H3]]]|H]]; auto; discriminate.
    + splits; try tauto; try lia. destruct HW as [H|[[H1 [l [H2 H3]]]|H]]; auto; discriminate.
    + splits; try tauto; try lia. destruct HW as [H|[[H1 [l [H2 H3]]]|H]]; auto; discriminate.
    + splits; try tauto; try lia. destruct HW as [H|[[H1 [l' [H2 H3]]]|H]]; auto; discriminate.
    + splits; try tauto; try lia. destruct HW as [[H1 H2]|[[H1 [l' [H2 H3]]]|H]]; [|discriminate|tauto].
      left. split; [assumption|]. intros H. destruct (Hnil H).
    + splits; try tauto; try lia. destruct HW as [H|[[H1 [l' [H2 H3]]]|H]]; [|discriminate|tauto]. auto.
    + rewrite hasTimer_set. rewrite hasTimer_cons in *. splits; try tauto; try lia.
      destruct HW as [H|[[H1 [l' [H2 H3]]]|H]]; [|discriminate|tauto]. auto.
    + splits; try tauto; try lia.
      destruct HW as [[H1 H2]|[[H1 [l' [H2 H3]]]|H]]; [|discriminate|tauto].
      right. left. split; [|eauto]. intros H. specialize (H2 H). discriminate.
    + splits; try tauto; try lia. destruct HW as [[H1 H2]|[[H1 [l' [H2 H3]]]|H]]; [auto| |tauto].
      injection H2 as <-. destruct H3.
    + rewrite hasTimer_erase. splits; try tauto; try lia.
      destruct HW as [[H1 H2]|[[H1 [l' [H2 H3]]]|H]]; [auto| |tauto].
      injection H2 as <-. destruct H3 as [-> | H3]; [right; right; split; [assumption|split; [intros [_ X]; apply X; reflexivity|apply Hnil]]|]. right. left. split; [assumption|]. eauto.
  - unfold willPurge, nowhere in *; wsolve; rewrite ?Hp in *; cbn [activating inWindow] in *.
    splits; try tauto; try lia. destruct HW as [[H1 H2]|[[H1 [l' [H2 H3]]]|H]]; [auto|discriminate|tauto].
  - unfold willPurge, nowhere in *; wsolve; rewrite ?Hp in *; cbn [activating inWindow] in *.
    splits; try lia.
    + destruct HW as [[H1 H2]|[[H1 [l' [H2 H3]]]|H]]; [auto|discriminate|].
      right. right. destruct (tshot t); [rewrite hasTimer_erase; tauto|tauto].
    + intros [H1 [H2 H3]]. split.
      * destruct (tshot t); [rewrite hasTimer_erase; tauto|tauto].
      * rewrite count_app. cbn. unfold firedId at 2. destruct (Z.eqb_spec id (tid t)) as [E|E]; [|lia].
        exfalso. apply H2. exists t. auto.
  - unfold willPurge, nowhere in *; wsolve; rewrite ?Hp in *; cbn [activating inWindow] in *.
    splits; try tauto; try lia. destruct HW as [[H1 H2]|[[H1 [l' [H2 H3]]]|H]]; [auto|discriminate|tauto].
Qed.

(** Steps split at the bound. *)
Lemma stepsB s s' : 0 <= wnext s < two48 -> steps wstepB s s' -> steps wstep s s' /\ 0 <= wnext s' < two48.
Proof.
  intros H0 H. induction H as [s|s1 s2 s3 Hst IH [Hs Hb]]; [split; [apply steps_refl|assumption]|].
  destruct (IH H0) as [IH1 IH2]. split; [eapply steps_snoc; eauto|].
  destruct (wnext_step _ _ Hs) as [H1 _]; [unfold two48, two64 in *; lia|]. lia.
Qed.
Lemma willPurge_steps id s s' : steps wstepB s s' -> 0 <= wnext s < two48 -> 0 <= id < wnext s ->
  willPurge id s -> willPurge id s' /\ id < wnext s' /\
  (nowhere id s -> nowhere id s' /\ count (firedId id) (wfired s') = count (firedId id) (wfired s)).
Proof.
  intros H H0 Hid HW. induction H as [s|s1 s2 s3 Hst IH Hs]; [splits; auto; lia|].
  destruct (IH H0 Hid HW) as [IH1 [IH2 IH3]].
  pose proof (stepsB _ _ H0 Hst) as [_ Hb].
  destruct (willPurge_step id s2 s3 Hs) as [A [B [C D]]]; try lia; try assumption.
  splits; auto. intros Hn. destruct (IH3 Hn) as [E F]. destruct (D E) as [G H]. split; [assumption|congruence].
Qed.

(** Pool. *)
Lemma poolRoute_poolId idx id : 0 <= idx < 65536 -> 0 <= id < two48 -> poolRoute (poolId idx id) = (idx, id).
Proof.
  intros Hi Hd. unfold poolRoute, poolId.
  assert (E : u64 (Z.shiftl idx 48) = Z.shiftl idx 48).
  { apply u64_small. rewrite Z.shiftl_mul_pow2 by lia. change (2 ^ 48) with 281474976710656.
    unfold two64. lia. }
  rewrite E.
  assert (Hh : forall k, 48 <= k -> Z.testbit id k = false).
  { intros k Hk. destruct (Z.eq_dec id 0) as [->|Hne]; [apply Z.bits_0|].
    apply Z.bits_above_log2; [lia|]. assert (Z.log2 id < 48); [|lia].
    apply Z.log2_lt_pow2; [lia|]. change (2 ^ 48) with 281474976710656. unfold two48 in Hd. lia. }
  f_equal.
  - apply Z.bits_inj'. intros k Hk. rewrite Z.shiftr_spec, Z.lor_spec, Z.shiftl_spec by lia.
    rewrite (Hh (k + 48)) by lia. rewrite orb_false_r. f_equal. lia.
  - change timerMask with (Z.ones 48). apply Z.bits_inj'. intros k Hk. rewrite Z.land_spec, Z.lor_spec, Z.shiftl_spec by lia.
    destruct (Z.ltb_spec k 48) as [H|H].
    + rewrite Z.ones_spec_low by lia. rewrite Z.testbit_neg_r by lia. rewrite andb_true_r. reflexivity.
    + rewrite Z.ones_spec_high by lia. rewrite andb_false_r. symmetry. apply Hh. assumption.
Qed.

Record pinv (nr : Z) (s : pool) : Prop := {
  pi_nr : pnr s = nr;
  pi_len : length (pcounters s) = Z.to_nat nr;
  pi_flight : Forall (fun x => 0 <= snd x < nr) (pflight s);
  pi_issued : Forall (fun x => 0 <= iworker x < nr /\ 0 <= ilocal x < two48 /\
     (exists c, nth_error (pcounters s) (Z.to_nat (iworker x)) = Some c /\ ilocal x < c) /\
     (forall r, ireturned x = Some r -> r = poolId (iworker x) (ilocal x))) (pissued s);
  pi_nodup : NoDup (map (fun x => (iworker x, ilocal x)) (pissued s));
  pi_pos : Forall (fun c => 0 <= c < two48) (pcounters s) }.

(** All counters stay below 2^48. *)
Definition pstepB (s s' : pool) : Prop := pstep s s' /\ Forall (fun c => c < two48) (pcounters s').

Lemma Forall_supd {A} (P : A -> Prop) i x l : Forall P l -> P x -> Forall P (supd i x l).
Proof.
  revert i. induction l as [|a l IH]; intros [|i] Hl Hx; cbn; auto; inversion Hl; subst; constructor; auto.
Qed.
Lemma nth_supd_some {A} i j (x y : A) l : nth_error l j = Some y ->
  nth_error (supd i x l) j = Some (if Nat.eqb j i then x else y).
Proof.
  revert i j. induction l as [|a l IH]; intros [|i] [|j] H; cbn in *; try discriminate; auto.
Qed.
Lemma NoDup_snoc {A} (l : list A) x : NoDup l -> ~ In x l -> NoDup (l ++ [x]).
Proof.
  induction 1 as [|a l Ha Hl IH]; intros Hx; cbn.
  - constructor; [intros []|constructor].
  - constructor.
    + intros Hin. apply in_app_or in Hin. destruct Hin as [Hin | [<- | []]]; [auto|]. apply Hx. left. reflexivity.
    + apply IH. intros H. apply Hx. right. assumption.
Qed.

Lemma pinv_finish nr s (idx c : Z) (r : option Z) : 0 < nr ->
  pinv nr s -> 0 <= idx < nr -> nth_error (pcounters s) (Z.to_nat idx) = Some c ->
  (forall r', r = Some r' -> r' = poolId idx (timerIdOf c)) -> u64 (c + 1) < two48 ->
  let cs := supd (Z.to_nat idx) (u64 (c + 1)) (pcounters s) in
  let is := pissued s ++ [mkIssue idx (timerIdOf c) r] in
  Forall (fun x => 0 <= iworker x < nr /\ 0 <= ilocal x < two48 /\
     (exists c, nth_error cs (Z.to_nat (iworker x)) = Some c /\ ilocal x < c) /\
     (forall r, ireturned x = Some r -> r = poolId (iworker x) (ilocal x))) is /\
  NoDup (map (fun x => (iworker x, ilocal x)) is) /\ Forall (fun c => 0 <= c < two48) cs.
Proof.
  intros Hn [P1 P2 P3 P4 P5 P6] Hi Hc Hr Hb cs is. subst cs is.
  assert (Hc0 : 0 <= c < two48) by (rewrite Forall_forall in P6; apply P6; eapply nth_error_In; eassumption).
  assert (Hu : u64 (c + 1) = c + 1) by (apply u64_small; unfold two48, two64 in *; lia).
  rewrite Hu in *. rewrite (timerId_small c) in * by lia.
  splits.
  - apply Forall_app. split.
    + eapply Forall_impl; [|exact P4]. intros x [A [B [[c' [C1 C2]] D]]]. splits; auto; try lia.
      exists (if Nat.eqb (Z.to_nat (iworker x)) (Z.to_nat idx) then c + 1 else c').
      split; [apply nth_supd_some; assumption|]. destruct (Nat.eqb_spec (Z.to_nat (iworker x)) (Z.to_nat idx)) as [E|E]; [|assumption].
      rewrite E in C1. rewrite Hc in C1. injection C1 as <-. lia.
    + apply Forall_cons; [|apply Forall_nil]. cbn [iworker ilocal ireturned]. splits; try lia; auto.
      exists (c + 1). split; [|lia]. rewrite (nth_supd_some _ _ _ _ _ Hc), Nat.eqb_refl. reflexivity.
  - rewrite map_app. cbn. apply NoDup_snoc; [assumption|].
    intros Hin. apply in_map_iff in Hin. destruct Hin as [x [Hx Hin]]. injection Hx as Hx1 Hx2.
    rewrite Forall_forall in P4. destruct (P4 x Hin) as [_ [_ [[c' [C1 C2]] _]]].
    rewrite Hx1, Hc in C1. injection C1 as <-. lia.
  - apply Forall_supd; [assumption|lia].
Qed.

Lemma Forall_remove {A} (P : A -> Prop) j l : Forall P l -> Forall P (firstn j l ++ skipn (S j) l).
Proof.
  intros H. rewrite Forall_forall in *. intros x Hx. apply H. apply in_app_or in Hx. destruct Hx as [Hx|Hx].
  - rewrite <- (firstn_skipn j l). apply in_or_app. auto.
  - rewrite <- (firstn_skipn (S j) l). apply in_or_app. auto.
Qed.

Lemma pinv_step nr s s' : 0 < nr -> pinv nr s -> pstepB s s' -> pinv nr s'.
Proof.
  intros Hn I [Hs Hb]. pose proof I as [P1 P2 P3 P4 P5 P6].
  destruct Hs as [s k|s j k idx c Hj Hc].
  - constructor; cbn; auto. apply Forall_app. split; [assumption|]. apply Forall_cons; [|apply Forall_nil].
    cbn. rewrite P1. apply Z.mod_pos_bound. assumption.
  - assert (Hidx : 0 <= idx < nr).
    { rewrite Forall_forall in P3. apply (P3 (k, idx)). eapply nth_error_In; eassumption. }
    cbn [pcounters] in Hb. destruct k.
    + constructor; cbn; auto. apply Forall_remove. assumption.
    + assert (Hu : u64 (c + 1) < two48).
      { rewrite Forall_forall in Hb. apply Hb. eapply nth_error_In. rewrite (nth_supd_some _ _ _ _ _ Hc), Nat.eqb_refl. reflexivity. }
      destruct (pinv_finish nr s idx c None Hn I Hidx Hc) as [A [B C]]; [discriminate|assumption|].
      constructor; cbn -[poolId timerIdOf]; auto; [rewrite supd_length; assumption|]. apply Forall_remove. assumption.
    + assert (Hu : u64 (c + 1) < two48).
      { rewrite Forall_forall in Hb. apply Hb. eapply nth_error_In. rewrite (nth_supd_some _ _ _ _ _ Hc), Nat.eqb_refl. reflexivity. }
      destruct (pinv_finish nr s idx c (Some (poolId idx (timerIdOf c))) Hn I Hidx Hc) as [A [B C]]; [congruence|assumption|].
      constructor; cbn -[poolId timerIdOf]; auto; [rewrite supd_length; assumption|]. apply Forall_remove. assumption.
Qed.
Lemma pinv_init nr : 0 < nr -> pinv nr (poolStart nr).
Proof.
  intros Hn. constructor; cbn; auto.
  - apply repeat_length.
  - constructor.
  - apply Forall_forall. intros c Hc. apply repeat_spec in Hc. subst. unfold two48. lia.
Qed.

(** One-shot timers. *)
Definition hasId (id : Z) (t : timer) : bool := Z.eqb id (tid t).
Definition shotId (id : Z) (t : timer) : bool := Z.eqb id (tid t) && tshot t.
Definition places (id : Z) (s : worker) : Z :=
  count (hasId id) (wtimers s) + count (hasId id) (activating (wpc s)) + count (hasId id) (wactive s)
  + count (shotId id) (wfired s).
Record oinv (s : worker) : Prop := {
  oi_next : 0 <= wnext s < two48;
  oi_once : forall id, places id s <= 1;
  oi_fresh : forall id, wnext s <= id -> places id s = 0 }.

Lemma count_erase id i l : count (hasId id) (eraseTimer i l) = if Z.eqb id i then 0 else count (hasId id) l.
Proof.
  induction l as [|t l IH]; cbn [eraseTimer filter count]; [destruct (Z.eqb id i); reflexivity|].
  fold (eraseTimer i l). unfold hasId at 2. destruct (Z.eqb_spec (tid t) i) as [E|E]; cbn [negb]; cbn [count].
  - rewrite IH. destruct (Z.eqb_spec id i) as [F|F]; [reflexivity|]. replace (id =? tid t) with false by lia. lia.
  - rewrite IH. unfold hasId at 1. destruct (Z.eqb_spec id i) as [F|F]; [|reflexivity].
    replace (id =? tid t) with false by lia. lia.
Qed.
Lemma count_one id n sh : count (hasId id) [mkTimer n sh] = if Z.eqb id n then 1 else 0.
Proof. cbn. unfold hasId. cbn. destruct (Z.eqb id n); reflexivity. Qed.
Lemma count_erase_le id i l : 0 <= count (hasId id) (eraseTimer i l) <= count (hasId id) l.
Proof. rewrite count_erase. pose proof (count_nonneg (hasId id) l). destruct (Z.eqb id i); lia. Qed.
Lemma count_in id t l : In t l -> tid t = id -> 1 <= count (hasId id) l.
Proof.
  intros Hin E. apply (count_pos _ _ t Hin). unfold hasId. lia.
Qed.

Lemma oinv_step s s' : oinv s -> wstepB s s' -> oinv s'.
Proof.
  intros [O1 O2 O3] [Hs Hb].
  assert (Hr : 0 <= wnext s' < two48 /\ (wnext s' = wnext s \/ wnext s' = wnext s + 1)).
  { destruct (wnext_step _ _ Hs) as [A B]; [unfold two48, two64 in *; lia|].
    rewrite u64_small in B by (unfold two48, two64 in *; lia). lia. }
  destruct Hr as [Hr Hn].
  assert (Hle : (forall id, id <> wnext s -> places id s' <= places id s) /\
                (places (wnext s) s' <= 1) /\ (places (wnext s) s' = 0 \/ wnext s' = wnext s + 1)).
  2:{ destruct Hle as [L1 [L2 L3]]. constructor; [assumption| |].
      - intros id. destruct (Z.eq_dec id (wnext s)) as [->|E]; [assumption|]. specialize (L1 id E). specialize (O2 id). lia.
      - intros id Hid. assert (P0 : 0 <= places id s').
        { unfold places. pose proof (count_nonneg (hasId id) (wtimers s')). pose proof (count_nonneg (hasId id) (activating (wpc s'))).
          pose proof (count_nonneg (hasId id) (wactive s')). pose proof (count_nonneg (shotId id) (wfired s')). lia. }
        destruct (Z.eq_dec id (wnext s)) as [->|E]; [lia|]. specialize (L1 id E). rewrite (O3 id) in L1 by lia. lia. }
  clear Hb Hn Hr. pose proof (O3 (wnext s) (Z.le_refl _)) as Hz.
  destruct Hs as [s e s' Hc|s s' Hc|s Hp He|s t Hp Hin|s Hp He].
  - destruct e as [t| | | |shot|i]; cbn in Hc.
    + injection Hc as <-. unfold places in *; wsolve. splits; try lia.
    + destruct (Z.ltb _ _); [injection Hc as <-|discriminate]. unfold places in *; wsolve. splits; try lia.
    + destruct (wstopped s); [discriminate|injection Hc as <-]. unfold places in *; wsolve. splits; try lia.
    + destruct (Z.ltb _ _); [injection Hc as <-|discriminate]. unfold places in *; wsolve. splits; try lia.
    + apply (f_equal (fun o => match o with Some x => x | None => s end)) in Hc. subst s'.
      unfold places in *; wsolve. rewrite (timerId_small (wnext s)) by lia.
      rewrite u64_small by (unfold two48, two64 in *; lia).
      splits.
      * intros id E. rewrite count_app, count_one. replace (id =? wnext s) with false by lia. lia.
      * rewrite count_app, count_one. rewrite Z.eqb_refl. lia.
      * right. reflexivity.
    + injection Hc as <-. unfold places in *; wsolve. splits; try lia.
  - unfold onNotifyStep in Hc.
    assert (forall id, places id s' <= places id s).
    { intros id. destruct (wpc s) as [| | |[|t l]| |[|t l]| |[|i l]|] eqn:Ep; try discriminate;
        injection Hc as <-; unfold places in *; wsolve; rewrite ?Ep in *; cbn [activating count] in *; try lia.
      - unfold setTimer. cbn [count]. pose proof (count_erase_le id (tid t) (wactive s)). lia.
      - pose proof (count_erase_le id i (wactive s)). lia. }
    assert (0 <= places (wnext s) s').
    { unfold places. pose proof (count_nonneg (hasId (wnext s)) (wtimers s')).
      pose proof (count_nonneg (hasId (wnext s)) (activating (wpc s'))).
      pose proof (count_nonneg (hasId (wnext s)) (wactive s')). pose proof (count_nonneg (shotId (wnext s)) (wfired s')). lia. }
    pose proof (H (wnext s)). splits; auto; try lia.
  - unfold places in *; wsolve; rewrite ?Hp in *; cbn [activating count] in *. splits; try lia.
  - assert (forall id, places id (mkWorker (wstopped s) (wexit s) (wtasks s) (wtimers s) (wpurging s)
      (if tshot t then eraseTimer (tid t) (wactive s) else wactive s) (wnext s) (wev s) (wowed s)
      (wstopping s) Idle (wadded s) (wexec s) (wmark s) (wfired s ++ [t])) <= places id s) as Hle.
    { intros id. unfold places; wsolve; rewrite ?Hp in *; cbn [activating count] in *.
      rewrite count_app. cbn [count]. unfold shotId at 2. destruct (tshot t) eqn:Et.
      - rewrite count_erase, andb_true_r. destruct (Z.eqb_spec id (tid t)) as [E|E]; [|lia].
        pose proof (count_in id t _ Hin (eq_sym E)). lia.
      - rewrite andb_false_r. lia. }
    assert (0 <= places (wnext s) (mkWorker (wstopped s) (wexit s) (wtasks s) (wtimers s) (wpurging s)
      (if tshot t then eraseTimer (tid t) (wactive s) else wactive s) (wnext s) (wev s) (wowed s)
      (wstopping s) Idle (wadded s) (wexec s) (wmark s) (wfired s ++ [t]))).
    { unfold places; wsolve. cbn [activating count]. pose proof (count_nonneg (hasId (wnext s)) (wtimers s)).
      pose proof (count_nonneg (hasId (wnext s)) (if tshot t then eraseTimer (tid t) (wactive s) else wactive s)).
      pose proof (count_nonneg (shotId (wnext s)) (wfired s ++ [t])). lia. }
    pose proof (Hle (wnext s)). splits; auto; try lia.
  - unfold places in *; wsolve; rewrite ?Hp in *; cbn [activating count] in *. splits; try lia.
Qed.
Lemma oinv_init : oinv workerInit.
Proof. constructor; cbn; intros; unfold two48, places; cbn; lia. Qed.
