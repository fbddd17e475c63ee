(** Property C56: the stopwatch measures the time it was running. *)
From Coq Require Import List.
From Verif Require Import Prelude DurationModel.
Import ListNotations.
Open Scope Z_scope.

(** * Specification *)
(** The time during which the stopwatch was running since the last reset: between two consecutive events it
    either runs throughout or not at all. *)
Fixpoint ranFor (running : bool) (since : Z) (events : list (dop * Z)) (now : Z) : Z :=
  match events with
  | [] => if running then now - since else 0
  | (DReset p, t) :: rest => ranFor (negb p) t rest now
  | (DPause, t) :: rest => (if running then t - since else 0) + ranFor false t rest now
  | (DResume, t) :: rest => (if running then t - since else 0) + ranFor true t rest now
  end.
(** the events up to the last reset do not matter *)
Fixpoint lastReset (p : bool) (t0 : Z) (events acc : list (dop * Z)) : bool * Z * list (dop * Z) :=
  match events with
  | [] => (p, t0, rev acc)
  | (DReset q, t) :: rest => lastReset q t rest []
  | e :: rest => lastReset p t0 rest (e :: acc)
  end.
Definition stopwatch (p : bool) (t0 : Z) (events : list (dop * Z)) (now : Z) : Z :=
  let '(q, t, es) := lastReset p t0 events [] in ranFor (negb q) t es now.
(** a clock that does not go back *)
Fixpoint inOrder (t : Z) (events : list (dop * Z)) (now : Z) : Prop :=
  match events with [] => t <= now | (_, t') :: rest => t <= t' /\ inOrder t' rest now end.

(** * The code *)
Definition noReset (e : dop * Z) : Prop := match fst e with DReset _ => False | _ => True end.
(** what has been accumulated so far plus what is still to come *)
Definition future (d : dur) (events : list (dop * Z)) (now : Z) : Z :=
  if paused d then ranFor false (startTick d) events now else ranFor true (startTick d) events now.
Lemma ranFor_false t t' events now : ranFor false t events now = ranFor false t' events now.
Proof. destruct events as [|[[p| |] t1] rest]; reflexivity. Qed.
Lemma ranFor_true t t' events now : Forall noReset events -> ranFor true t events now = (t' - t) + ranFor true t' events now.
Proof.
  intros F. destruct events as [|[[p| |] t1] rest]; cbn; try lia. inversion F as [|? ? F1 F2]; subst. destruct F1.
Qed.
Lemma drun_mod events : forall d now, Forall noReset events -> 0 <= accumulated d < two64 ->
  elapsedTicks (fold_left (fun d e => dstep d (fst e) (snd e)) events d) now = u64 (accumulated d + future d events now).
Proof.
  unfold u64, two64. induction events as [|[o t] events IH]; intros d now F Ha; cbn [fold_left].
  - unfold elapsedTicks, future, u64. destruct (paused d); cbn [ranFor].
    + rewrite Z.add_0_r, Z.mod_small by lia. reflexivity.
    + rewrite Zplus_mod_idemp_l. f_equal. lia.
  - inversion F as [|? ? F1 F2]; subst. cbn [fst snd]. destruct o as [p| |]; [destruct F1| |]; cbn [dstep].
    + destruct (paused d) eqn:E.
      * rewrite IH by assumption. unfold future. rewrite E. cbn [ranFor]. rewrite Z.add_0_l, (ranFor_false (startTick d) t). reflexivity.
      * rewrite IH; [|assumption|cbn; unfold u64; apply Z.mod_pos_bound; lia]. unfold future. cbn [paused accumulated startTick]. rewrite E. cbn [ranFor].
        unfold u64, two64. rewrite Zplus_mod_idemp_r, Zplus_mod_idemp_l, (ranFor_false 0 t). f_equal. lia.
    + destruct (paused d) eqn:E.
      * rewrite IH by assumption. unfold future. cbn [paused accumulated startTick]. rewrite E. cbn [ranFor]. reflexivity.
      * rewrite IH by assumption. unfold future. rewrite E. cbn [ranFor]. rewrite (ranFor_true (startTick d) t) by assumption. reflexivity.
Qed.
Lemma lastReset_run events : forall p t0 acc, Forall noReset acc ->
  let '(q, t, es) := lastReset p t0 events acc in Forall noReset es /\
  fold_left (fun d e => dstep d (fst e) (snd e)) events (drun p t0 (rev acc)) = drun q t es.
Proof.
  induction events as [|[o t] events IH]; intros p t0 acc F; cbn [lastReset].
  - split; [apply Forall_rev, F|reflexivity].
  - destruct o as [q| |].
    + specialize (IH q t [] (Forall_nil _)). cbn [rev] in IH. destruct (lastReset q t events []) as [[q' t'] es]. destruct IH as [I1 I2]. split; [assumption|].
      cbn [fold_left]. rewrite <- I2. reflexivity.
    + specialize (IH p t0 ((DPause, t) :: acc)). destruct (lastReset p t0 events ((DPause, t) :: acc)) as [[q' t'] es]. destruct IH as [I1 I2]; [constructor; [exact I|assumption]|]. split; [assumption|].
      rewrite <- I2. cbn [rev fold_left]. unfold drun. rewrite fold_left_app. reflexivity.
    + specialize (IH p t0 ((DResume, t) :: acc)). destruct (lastReset p t0 events ((DResume, t) :: acc)) as [[q' t'] es]. destruct IH as [I1 I2]; [constructor; [exact I|assumption]|]. split; [assumption|].
      rewrite <- I2. cbn [rev fold_left]. unfold drun. rewrite fold_left_app. reflexivity.
Qed.
(** The ticks reported are the ticks it was running, modulo 2^64, for every sequence of calls and every clock. *)
Theorem C56_elapsed_modulo : forall p t0 ops now, elapsedTicks (drun p t0 ops) now = u64 (stopwatch p t0 ops now).
Proof.
  intros p t0 ops now. unfold stopwatch. pose proof (lastReset_run ops p t0 [] (Forall_nil _)) as H. cbn [rev] in H.
  destruct (lastReset p t0 ops []) as [[q t] es]. destruct H as [F H]. unfold drun at 1. unfold drun at 1 in H. cbn [fold_left] in H. rewrite H.
  unfold drun. rewrite drun_mod; [|assumption|unfold two64; cbn; lia]. unfold future, dreset. cbn [paused accumulated startTick]. rewrite Z.add_0_l. destruct q; cbn [negb]; [|reflexivity].
  rewrite (ranFor_false 0 t). reflexivity.
Qed.
Lemma ranFor_bounds events : forall r t now, inOrder t events now -> 0 <= ranFor r t events now <= now - t.
Proof.
  induction events as [|[[p| |] t1] rest IH]; intros r t now H; cbn [ranFor inOrder] in *; [destruct r; lia| | |];
    destruct H as [H1 H2]; [specialize (IH (negb p) t1 now H2); lia|specialize (IH false t1 now H2); destruct r; lia|specialize (IH true t1 now H2); destruct r; lia].
Qed.
Lemma lastReset_order events : forall p t0 acc now, inOrder t0 (rev acc ++ events) now ->
  let '(q, t, es) := lastReset p t0 events acc in inOrder t es now /\ t0 <= t.
Proof.
  induction events as [|[o t1] events IH]; intros p t0 acc now H; cbn [lastReset].
  - rewrite app_nil_r in H. split; [assumption|lia].
  - assert (S : t0 <= t1 /\ inOrder t1 events now).
    { revert H. clear. generalize (rev acc). intros l. revert t0. induction l as [|[o' t'] l IH]; intros t0 H; cbn in H; [assumption|]. destruct H as [H1 H2]. apply IH in H2. destruct H2. split; [lia|assumption]. }
    destruct o as [q| |].
    + specialize (IH q t1 [] now (proj2 S)). destruct (lastReset q t1 events []) as [[q' t'] es]. destruct IH. split; [assumption|lia].
    + specialize (IH p t0 ((DPause, t1) :: acc) now). cbn [rev] in IH. rewrite <- app_assoc in IH. exact (IH H).
    + specialize (IH p t0 ((DResume, t1) :: acc) now). cbn [rev] in IH. rewrite <- app_assoc in IH. exact (IH H).
Qed.
(** With a clock that does not go back and less than 2^64 ticks of life time the report is exact. *)
Theorem C56_elapsed_exact : forall p t0 ops now, inOrder t0 ops now -> now - t0 < two64 ->
  elapsedTicks (drun p t0 ops) now = stopwatch p t0 ops now.
Proof.
  intros p t0 ops now H B. rewrite C56_elapsed_modulo. unfold u64, two64 in *. apply Z.mod_small. unfold stopwatch.
  pose proof (lastReset_order ops p t0 [] now H) as L. destruct (lastReset p t0 ops []) as [[q t] es]. destruct L as [L1 L2].
  pose proof (ranFor_bounds es (negb q) t now L1). lia.
Qed.
Example C56_ex : elapsedTicks (drun false 100 [(DPause, 110); (DPause, 120); (DResume, 150); (DReset false, 200); (DPause, 230); (DResume, 240); (DResume, 245)]) 300 = 90 /\
  stopwatch false 100 [(DPause, 110); (DPause, 120); (DResume, 150); (DReset false, 200); (DPause, 230); (DResume, 240); (DResume, 245)] 300 = 90 /\
  inOrder 100 [(DPause, 110); (DPause, 120); (DResume, 150); (DReset false, 200); (DPause, 230); (DResume, 240); (DResume, 245)] 300.
Proof. split; [vm_compute; reflexivity|]. split; [vm_compute; reflexivity|]. cbn. lia. Qed.

(** * The timespec version *)
Definition nanos (t : timespec) : Z := tvSec t * 1000000000 + tvNsec t.
Lemma nanoDiff_exact a b : nanoDiff a b = u64 (nanos b - nanos a).
Proof. unfold nanoDiff, nanos. destruct (tvNsec b <? tvNsec a); f_equal; lia. Qed.
Definition toD (d : durN) : dur := mkDur (pausedN d) (accN d) (nanos (startN d)).
Lemma dstepN_toD d o t : toD (dstepN d o t) = dstep (toD d) o (nanos t).
Proof.
  destruct o as [p| |]; unfold dstepN, dstep, toD, dresetN, dreset; cbn [pausedN accN startN paused accumulated startTick].
  - destruct p; reflexivity.
  - destruct (pausedN d) eqn:E; cbn [pausedN accN startN]; rewrite ?E, ?nanoDiff_exact; reflexivity.
  - destruct (pausedN d) eqn:E; cbn [pausedN accN startN]; rewrite ?E; reflexivity.
Qed.
Lemma drunN_toD p t0 ops : toD (drunN p t0 ops) = drun p (nanos t0) (map (fun e => (fst e, nanos (snd e))) ops).
Proof.
  unfold drunN, drun. assert (E : toD (dresetN p t0) = dreset p (nanos t0)) by (destruct p; reflexivity). rewrite <- E. generalize (dresetN p t0) as d. clear E.
  induction ops as [|[o t] ops IH]; intros d; [reflexivity|]. cbn [map fold_left fst snd]. rewrite IH, dstepN_toD. reflexivity.
Qed.
(** There the report is the running time in nanoseconds divided by the unit, rounded down. *)
Theorem C56_elapsed_nanoseconds : forall p t0 ops now per, inOrder (nanos t0) (map (fun e => (fst e, nanos (snd e))) ops) (nanos now) ->
  nanos now - nanos t0 < two64 ->
  elapsedN (drunN p t0 ops) now per = stopwatch p (nanos t0) (map (fun e => (fst e, nanos (snd e))) ops) (nanos now) / per.
Proof.
  intros p t0 ops now per H B. rewrite <- C56_elapsed_exact by assumption. rewrite <- drunN_toD. unfold elapsedN, elapsedTicks, toD. cbn [paused accumulated startTick].
  rewrite nanoDiff_exact. reflexivity.
Qed.
Example C56_ex_ns : elapsedN (drunN false (mkTs 5 900000000) [(DPause, mkTs 7 100000000)]) (mkTs 9 0) 1000000 = 1200.
Proof. vm_compute. reflexivity. Qed.

Print Assumptions C56_elapsed_modulo.
Print Assumptions C56_elapsed_exact.
Print Assumptions C56_elapsed_nanoseconds.
