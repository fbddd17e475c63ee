(** * C137-C139: the fast clock, the wall clock and slow operations *)
From Coq Require Import ZArith List Reals Psatz Bool.
From Flocq Require Import Core.
From Verif Require Import Prelude ValueBase DurationModel FloatReal ClockModel ClockProofs.
Local Open Scope Z_scope.

(** ** C137 *)
Inductive timeUnit := InSec | InMSec | InUSec.
Definition durOf (i : timeUnit) : tsc -> Z -> outcome Z := match i with InSec => durSec | InMSec => durMSec | InUSec => durUSec end.
(** microseconds in the unit *)
Definition usIn (i : timeUnit) : Z := match i with InSec => 1000000 | InMSec => 1000 | InUSec => 1 end.
(** [d] is [t / N] up to a relative error of 2^-49: cut off, or rounded at halves *)
Definition cutTo (t N d : Z) : Prop := 2 ^ 49 * (N * d) <= (2 ^ 49 + 1) * t /\ (2 ^ 49 - 1) * t < 2 ^ 49 * (N * (d + 1)).
Definition roundTo (t N d : Z) : Prop := 2 ^ 49 * (2 * N * d) <= (2 ^ 49 + 1) * (2 * t + N) /\ (2 ^ 49 - 1) * (2 * t + N) < 2 ^ 49 * (2 * N * (d + 1)).
Definition fits (i : timeUnit) (t N d : Z) : Prop := match i with InUSec => cutTo t N d | _ => roundTo t N d end.

Definition duF (i : timeUnit) (c : tsc) (t : Z) : f64 :=
  match i with InSec => f64add (f64mul (f64ofZ t) (tSec c)) half | InMSec => f64add (f64mul (f64ofZ t) (tMSec c)) half | InUSec => f64mul (f64ofZ t) (tUSec c) end.
Lemma durOf_eq i c t : durOf i c t = f64toU64 (duF i c t).
Proof. destruct i; reflexivity. Qed.
Definition rateF (i : timeUnit) (c : tsc) : f64 := match i with InSec => tSec c | InMSec => tMSec c | InUSec => tUSec c end.
Lemma rate_ok first start n i : 1 <= n <= 9007199254740992 ->
  fin (rateF i (withRate first start n)) /\ near (4 * u) (/ IZR (n * usIn i)) (val (rateF i (withRate first start n))).
Proof.
  intros H. pose proof u_pos as U. destruct i; cbn [rateF usIn].
  - apply (unit_rate first start n H 1000000). lia.
  - apply (unit_rate first start n H 1000). lia.
  - destruct (usec_rate first start n H) as [F N]. split; [exact F|]. rewrite Z.mul_1_r. apply near_weak with (3 := N); [|lra]. pose proof (inv_n n H). lra.
Qed.
(** the double before it is cut off: its value, and how near it is *)
Lemma duF_ok first start n i t : 1 <= n <= 9007199254740992 -> 0 <= t < 18446744073709551616 ->
  let c := withRate first start n in let x := (IZR t / IZR (n * usIn i))%R in
  fin (duF i c t) /\
  val (duF i c t) = (match i with InUSec => rnd (val (f64ofZ t) * val (rateF i c)) | _ => rnd (rnd (val (f64ofZ t) * val (rateF i c)) + / 2) end)%R /\
  near (16 * u) (match i with InUSec => x | _ => x + / 2 end)%R (val (duF i c t)).
Proof.
  intros Hn Ht c x. destruct (rate_ok first start n i Hn) as [F N]. fold c in F, N. pose proof u_pos as U.
  assert (K : 1 <= usIn i <= 1000000) by (destruct i; cbn; lia).
  destruct (product n Hn t _ (usIn i) Ht K F N) as (G & V & M). fold x in M.
  assert (X : (0 <= x <= 18446744073709551616)%R).
  { unfold x. assert (1 <= IZR (n * usIn i))%R by (apply IZR_le; nia). assert (0 <= IZR t <= 18446744073709551616)%R by (split; apply IZR_le; lia).
    assert (0 < / IZR (n * usIn i) <= 1)%R by (split; [apply Rinv_0_lt_compat; lra|rewrite <- Rinv_1; apply Rinv_le; lra]). unfold Rdiv. split; nra. }
  destruct i; cbn [duF rateF] in *.
  - destruct (add_half n Hn _ x (9 * u) G ltac:(lra) X M) as (G' & V' & M'). rewrite V in V'. splits; [exact G'|exact V'|]. apply near_weak with (3 := M'); lra.
  - destruct (add_half n Hn _ x (9 * u) G ltac:(lra) X M) as (G' & V' & M'). rewrite V in V'. splits; [exact G'|exact V'|]. apply near_weak with (3 := M'); lra.
  - splits; [exact G|exact V|]. apply near_weak with (3 := M); lra.
Qed.
(** Ticks are converted to time at any rate, and the error is a relative one of 2^-49 before the fraction is cut off. *)
Theorem C137_duration : forall first start n i t, 1 <= n <= 2 ^ 53 -> 0 <= t < 2 ^ 63 ->
  exists d, durOf i (withRate first start n) t = Ret d /\ fits i t (n * usIn i) d.
Proof.
  intros first start n i t Hn Ht. destruct (duF_ok first start n i t ltac:(lia) ltac:(lia)) as (F & _ & M). rewrite durOf_eq.
  set (f := duF i (withRate first start n) t) in *. set (N := n * usIn i) in *. pose proof u_pos as U.
  assert (PN : 1 <= N) by (unfold N; destruct i; cbn; lia). assert (RN : (1 <= IZR N)%R) by (apply IZR_le; lia).
  assert (Rt : (0 <= IZR t <= 9223372036854775808)%R) by (split; apply IZR_le; lia).
  set (x := (IZR t / IZR N)%R) in *. assert (EX : (x * IZR N = IZR t)%R) by (unfold x; field; lra).
  assert (X : (0 <= x <= 9223372036854775808)%R) by (split; nra).
  assert (B : (0 <= val f < 18446744073709551616)%R) by (unfold near in M; destruct i; split; nra).
  exists (Zfloor (val f)). split; [apply toU64_val; assumption|]. set (d := Zfloor (val f)).
  assert (L : (IZR d <= val f)%R) by apply Zfloor_lb. assert (G : (val f < IZR d + 1)%R) by apply Zfloor_ub.
  assert (E : u = (/ 16 * / IZR (2 ^ 49))%R) by (rewrite u_val; cbn; lra). set (b := IZR (2 ^ 49)) in *. assert (Eb : b = IZR 562949953421312) by reflexivity.
  assert (U16 : (16 * u * b = 1)%R) by (rewrite E, Eb; lra).
  assert (R49 : forall z, IZR (2 ^ 49 * z) = (b * IZR z)%R) by (intros z; apply mult_IZR).
  unfold near in M. destruct M as [M1 M2].
  destruct i; cbn [fits]; unfold cutTo, roundTo; (split; [apply le_IZR|apply lt_IZR]);
    rewrite R49, !mult_IZR, ?plus_IZR, ?minus_IZR, ?mult_IZR, ?plus_IZR, ?minus_IZR; fold b; rewrite <- ?EX.
  1,3: apply Rle_trans with (b * (2 * IZR N * ((x + / 2) * (1 + 16 * u))))%R; [apply Rmult_le_compat_l; [lra|]; apply Rmult_le_compat_l; [lra|]; lra|].
  1,2: replace (b * (2 * IZR N * ((x + / 2) * (1 + 16 * u))))%R with ((b + 16 * u * b) * (2 * (x * IZR N) + IZR N))%R by lra; rewrite U16; lra.
  1,2: apply Rle_lt_trans with (b * (2 * IZR N * ((x + / 2) * (1 - 16 * u))))%R; [|apply Rmult_lt_compat_l; [lra|]; apply Rmult_lt_compat_l; [lra|]; lra].
  1,2: replace (b * (2 * IZR N * ((x + / 2) * (1 - 16 * u))))%R with ((b - 16 * u * b) * (2 * (x * IZR N) + IZR N))%R by lra; rewrite U16; lra.
  - apply Rle_trans with (b * (IZR N * (x * (1 + 16 * u))))%R; [apply Rmult_le_compat_l; [lra|]; apply Rmult_le_compat_l; [lra|]; lra|].
    replace (b * (IZR N * (x * (1 + 16 * u))))%R with ((b + 16 * u * b) * (x * IZR N))%R by lra. rewrite U16. lra.
  - apply Rle_lt_trans with (b * (IZR N * (x * (1 - 16 * u))))%R; [|apply Rmult_lt_compat_l; [lra|]; apply Rmult_lt_compat_l; [lra|]; lra].
    replace (b * (IZR N * (x * (1 - 16 * u))))%R with ((b - 16 * u * b) * (x * IZR N))%R by lra. rewrite U16. lra.
Qed.
(** In figures: up to 2^40 seconds or milliseconds (34 years) the result is within 502 thousandths of a unit; up to 2^40 microseconds it is at most
    a unit and 2 thousandths below and 2 thousandths above. *)
Theorem C137_within : forall first start n i t d, 1 <= n <= 2 ^ 53 -> 0 <= t < 2 ^ 63 -> t <= 2 ^ 40 * (n * usIn i) ->
  durOf i (withRate first start n) t = Ret d -> let N := n * usIn i in
  match i with InUSec => -1002 * N <= 1000 * (N * d - t) <= 2 * N | _ => -502 * N <= 1000 * (N * d - t) <= 502 * N end.
Proof.
  intros first start n i t d Hn Ht Hs E N. destruct (C137_duration first start n i t Hn Ht) as (d' & E' & F). rewrite E in E'. injection E' as <-.
  assert (1 <= N) by (unfold N; destruct i; cbn; lia). fold N in Hs, F. clearbody N. change (2 ^ 40) with 1099511627776 in *.
  destruct i; cbn [fits] in F; unfold cutTo, roundTo in F; change (2 ^ 49) with 562949953421312 in F; lia.
Qed.
(** More ticks are never less time. *)
Lemma toU64_inv f z : fin f -> f64toU64 f = Ret z -> z = Ztrunc (val f).
Proof. intros F. unfold f64toU64. rewrite (f64trunc_val f F). destruct (_ && _); [|discriminate]. intros E. injection E as <-. reflexivity. Qed.
Lemma val_ticks_le a b : 0 <= a <= b -> b < 18446744073709551616 -> (0 <= val (f64ofZ a) <= val (f64ofZ b))%R.
Proof.
  intros H1 H2. destruct (f64ofZ_val a) as [_ ->]; [apply upper; split; apply IZR_le; lia|]. destruct (f64ofZ_val b) as [_ ->]; [apply upper; split; apply IZR_le; lia|].
  split; [|apply rnd_le, IZR_le; lia]. replace 0%R with (rnd 0) by (apply rnd_flt, (flt_int 0); lia). apply rnd_le, IZR_le. lia.
Qed.
Theorem C137_monotone : forall first start n i a b x y, 1 <= n <= 2 ^ 53 -> 0 <= a <= b -> b < 2 ^ 64 ->
  durOf i (withRate first start n) a = Ret x -> durOf i (withRate first start n) b = Ret y -> x <= y.
Proof.
  intros first start n i a b x y Hn Hab Hb Ea Eb. rewrite durOf_eq in Ea, Eb.
  destruct (duF_ok first start n i a ltac:(lia) ltac:(lia)) as (Fa & Va & _). destruct (duF_ok first start n i b ltac:(lia) ltac:(lia)) as (Fb & Vb & _).
  apply (toU64_inv _ _ Fa) in Ea. apply (toU64_inv _ _ Fb) in Eb. subst x y. apply Ztrunc_le. rewrite Va, Vb.
  destruct (rate_ok first start n i ltac:(lia)) as [_ N]. destruct (val_ticks_le a b Hab ltac:(lia)) as [P Q].
  assert (R : (0 <= val (rateF i (withRate first start n)))%R).
  { unfold near in N. pose proof u_pos. assert (0 < / IZR (n * usIn i))%R by (apply Rinv_0_lt_compat, IZR_lt; destruct i; cbn; lia). nra. }
  assert (M : (rnd (val (f64ofZ a) * val (rateF i (withRate first start n))) <= rnd (val (f64ofZ b) * val (rateF i (withRate first start n))))%R) by (apply rnd_le, Rmult_le_compat_r; assumption).
  destruct i; [apply rnd_le, Rplus_le_compat_r; exact M..|exact M].
Qed.
(** A counter slower than one tick in a microsecond has rate 0, and every conversion is undefined behaviour then. *)
Theorem C137_slow_counter : forall first start i t, durOf i (withRate first start 0) t = UB.
Proof.
  intros first start i t. assert (M : forall x : f64, f64trunc (f64mul x (S754_infinity false)) = None) by (intros [s|s| |s m e]; reflexivity).
  assert (A : forall x : f64, f64trunc (f64add (f64mul x (S754_infinity false)) half) = None) by (intros [s|s| |s m e]; destruct s || idtac; reflexivity).
  destruct i; cbn [durOf]; unfold durSec, durMSec, durUSec, withRate; cbn [tSec tMSec tUSec].
  - change (f64div (f64div (f64ofZ 1) (f64ofZ 0)) (f64ofZ 1000000)) with (S754_infinity false : f64). unfold f64toU64. rewrite A. reflexivity.
  - change (f64div (f64div (f64ofZ 1) (f64ofZ 0)) (f64ofZ 1000)) with (S754_infinity false : f64). unfold f64toU64. rewrite A. reflexivity.
  - change (f64div (f64ofZ 1) (f64ofZ 0)) with (S754_infinity false : f64). unfold f64toU64. rewrite M. reflexivity.
Qed.
(** It is not so that whole microseconds are converted exactly: 49 ticks at 49 in a microsecond are none. *)
Theorem C137_exact_refuted : forall first start, durUSec (withRate first start 49) 49 = Ret 0.
Proof. intros. vm_compute. reflexivity. Qed.
(** Calibrating finds the whole number of ticks in a microsecond, also when the counter wrapped around since the start; in the first microsecond it is undefined. *)
Theorem C137_calibration : forall first start tick us, 0 <= us < 2 ^ 62 ->
  (us = 0 -> calibrate first start tick us = UB) /\
  (forall n d, 0 < us -> 0 <= d < 2 ^ 64 -> (tick - first) mod 2 ^ 64 = d -> n * us <= d < (n + 1) * us -> calibrate first start tick us = Ret (withRate first start n)).
Proof.
  intros first start tick us H. unfold calibrate, ticksPerUSec, u64. change (2 ^ 64) with 18446744073709551616 in *. rewrite (Z.mod_small us) by lia. split.
  - intros ->. reflexivity.
  - intros n d P D <- B. replace (us =? 0) with false by lia. do 2 f_equal. symmetry. apply Z.div_unique with (r := (tick - first) mod 18446744073709551616 - n * us); lia.
Qed.
Example C137_ex : let c := withRate 0 (mkTs 0 0) 2500 in
  durUSec c 216000000000000 = Ret 86400000000 /\ durMSec c 3750000 = Ret 2 /\ durMSec c 3749999 = Ret 1 /\ durSec c 1249999999 = Ret 0 /\ durSec c 1250000000 = Ret 1.
Proof. cbv zeta. splits; vm_compute; reflexivity. Qed.

(** ** C138 *)
Definition goodTime (ts : timespec) : Prop := 0 <= tvSec ts < 2 ^ 40 /\ 0 <= tvNsec ts < 1000000000.
Lemma wrap64_small z : - 2 ^ 63 <= z < 2 ^ 63 -> wrap64 z = z.
Proof. intros H. unfold wrap64. change (2 ^ 63) with 9223372036854775808 in H. lia. Qed.
(** The readings of the slow clock agree, and later times never read less. *)
Definition tsLe (a b : timespec) : Prop := tvSec a < tvSec b \/ tvSec a = tvSec b /\ tvNsec a <= tvNsec b.
Theorem C138_slow : forall a b, goodTime a -> goodTime b ->
  slowUSec a / 1000 = slowMSec a /\ slowMSec a / 1000 = slowSec a /\ slowUSec a * 1000 + tvNsec a mod 1000 = tvSec a * 1000000000 + tvNsec a /\
  (tsLe a b -> slowSec a <= slowSec b /\ slowMSec a <= slowMSec b /\ slowUSec a <= slowUSec b).
Proof.
  intros [s ns] [s' ns'] [H1 H2] [H3 H4]. unfold slowSec, slowMSec, slowUSec, tsLe. cbn [tvSec tvNsec] in *. change (2 ^ 40) with 1099511627776 in *.
  rewrite !wrap64_small by lia. splits; lia.
Qed.
Definition fastOf (i : timeUnit) : tsc -> Z -> outcome Z := match i with InSec => fastSec | InMSec => fastMSec | InUSec => fastUSec end.
Definition slowOf (i : timeUnit) : timespec -> Z := match i with InSec => slowSec | InMSec => slowMSec | InUSec => slowUSec end.
(** the time given by a clock that starts at [first] ticks, within reach *)
Definition inReach (first start_tick : Z) : Prop := 0 <= first <= start_tick /\ start_tick < 2 ^ 64 /\ start_tick - first < 2 ^ 62.
(** The fast clock reads the slow clock's time at its start and the time of the ticks since. *)
Theorem C138_fast : forall first start n i tick, goodTime start -> 1 <= n <= 2 ^ 53 -> inReach first tick ->
  exists d, fastOf i (withRate first start n) tick = Ret (slowOf i start + d) /\ durOf i (withRate first start n) (tick - first) = Ret d /\ fits i (tick - first) (n * usIn i) d /\ 0 <= d.
Proof.
  intros first start n i tick Hs Hn (H1 & H2 & H3). change (2 ^ 64) with 18446744073709551616 in *. change (2 ^ 62) with 4611686018427387904 in *.
  destruct (C137_duration first start n i (tick - first) Hn) as (d & E & F); [change (2 ^ 63) with 9223372036854775808; lia|].
  exists d. set (c := withRate first start n) in *.
  assert (U : u64 (tick - tFirst c) = tick - first) by (unfold c, withRate; cbn [tFirst]; unfold u64; apply Z.mod_small; lia).
  assert (B : 0 <= d <= 4611686018427396096).
  { assert (PN : 1 <= n * usIn i) by (destruct i; cbn; lia). set (N := n * usIn i) in *. clearbody N.
    assert (0 < N * (d + 1) /\ N * d <= 4611686018427396096 * N).
    { destruct i; cbn [fits] in F; unfold cutTo, roundTo in F; change (2 ^ 49) with 562949953421312 in F; nia. }
    nia. }
  assert (ST : tStart c = start) by reflexivity. destruct Hs as [S1 S2]. change (2 ^ 40) with 1099511627776 in S1.
  splits; [|exact E|exact F|lia].
  destruct i; cbn [fastOf slowOf durOf] in *; unfold fastSec, fastMSec, fastUSec, pointSec, pointMSec, pointUSec; rewrite U, E; cbn [obind]; rewrite ST; f_equal;
    unfold slowSec, slowMSec, slowUSec, u64, wrap64; lia.
Qed.
(** Between two calibrations the fast clock does not go back. *)
Theorem C138_monotone : forall first start n i a b, goodTime start -> 1 <= n <= 2 ^ 53 -> inReach first a -> inReach first b -> a <= b ->
  exists x y, fastOf i (withRate first start n) a = Ret x /\ fastOf i (withRate first start n) b = Ret y /\ x <= y.
Proof.
  intros first start n i a b Hs Hn Ha Hb L. destruct (C138_fast first start n i a Hs Hn Ha) as (x & Ex & Dx & _). destruct (C138_fast first start n i b Hs Hn Hb) as (y & Ey & Dy & _).
  do 2 eexists. splits; [exact Ex|exact Ey|]. enough (x <= y) by lia. destruct Ha as (A1 & A2 & A3), Hb as (B1 & B2 & B3).
  apply (C137_monotone first start n i (a - first) (b - first) x y Hn); [lia..|exact Dx|exact Dy].
Qed.
(** A calibration that reads the counter and the steady clock at one moment: the fast clock is not behind by more than a microsecond then, and
    ahead by at most one part in the ticks of a microsecond (and 2^-49). *)
Theorem C138_ahead : forall first start tick us c n, goodTime start -> inReach first tick -> 0 < us < 2 ^ 62 -> calibrate first start tick us = Ret c ->
  n = (tick - first) / us -> 1 <= n <= 2 ^ 53 ->
  exists d, fastUSec c tick = Ret (slowUSec start + d) /\ (2 ^ 49 - 1) * us < 2 ^ 49 * (d + 1) /\ 2 ^ 49 * (n * d) < (2 ^ 49 + 1) * ((n + 1) * us).
Proof.
  intros first start tick us c n Hs Hr Hu E Dn Hn. assert (R := Hr). destruct R as (H1 & H2 & H3). change (2 ^ 64) with 18446744073709551616 in *. change (2 ^ 62) with 4611686018427387904 in *.
  assert (U1 : u64 us = us) by (unfold u64; apply Z.mod_small; lia). assert (U2 : u64 (tick - first) = tick - first) by (unfold u64; apply Z.mod_small; lia).
  unfold calibrate, ticksPerUSec in E. rewrite U1, U2, <- Dn in E. replace (us =? 0) with false in E by lia. injection E as <-.
  destruct (C138_fast first start n InUSec tick Hs Hn Hr) as (d & Ed & _ & F & P). exists d. cbn [fastOf slowOf fits usIn] in *. split; [exact Ed|].
  unfold cutTo in F. rewrite Z.mul_1_r in F. set (T := tick - first) in *.
  assert (D1 : n * us <= T) by (rewrite Dn, Z.mul_comm; apply Z.mul_div_le; lia).
  assert (D2 : T < (n + 1) * us) by (rewrite Dn; pose proof (Z.mul_succ_div_gt T us); lia).
  change (2 ^ 49) with 562949953421312 in *. destruct F as [F1 F2]. split; [|lia].
  assert (n * (562949953421311 * us) < n * (562949953421312 * (d + 1))) by lia. nia.
Qed.
(** It is not so that the fast clock never goes back: the counter has exactly 2500 ticks in a microsecond, and the second calibration is interrupted
    for 10 milliseconds between its two readings. A later reading is 10 milliseconds earlier. *)
Theorem C138_back_refuted : exists first start tick1 us1 tick2 us2 c1 c2, goodTime start /\
  calibrate first start tick1 us1 = Ret c1 /\ tick1 - first = 2500 * us1 /\
  calibrate first start tick2 us2 = Ret c2 /\ tick2 - first = 2500 * (us2 + 10000) /\
  fastMSec c1 tick2 = Ret 1700000004010 /\ fastMSec c2 (tick2 + 2500) = Ret 1700000004000.
Proof.
  exists 7, (mkTs 1700000000 0), 5000000007, 2000000, 10025000007, 4000000. do 2 eexists. splits; [unfold goodTime; cbn; lia|vm_compute; reflexivity..].
Qed.
(** It is not so that the fast clock follows the slow one: with 1999.9 ticks in a microsecond it is more than a second ahead after an hour, whenever it is calibrated. *)
Theorem C138_drift_refuted : exists first start c, goodTime start /\
  (forall s, 1 <= s <= 3600 -> calibrate first start (first + s * 1999900000) (s * 1000000) = Ret c) /\
  slowMSec (mkTs (tvSec start + 3600) (tvNsec start)) = 1700003600000 /\ fastMSec c (first + 3600 * 1999900000) = Ret 1700003601621.
Proof.
  exists 7, (mkTs 1700000000 0), (withRate 7 (mkTs 1700000000 0) 1999). splits; [unfold goodTime; cbn; lia| |reflexivity|vm_compute; reflexivity].
  intros s Hs. unfold calibrate, ticksPerUSec. unfold u64. rewrite !Z.mod_small by lia. replace (s * 1000000 =? 0) with false by lia. do 2 f_equal. symmetry. apply Z.div_unique with (s * 900000); lia.
Qed.
Example C138_ex : let c := withRate 100 (mkTs 1700000000 999999999) 2500 in goodTime (tStart c) /\ inReach 100 25000100 /\
  fastSec c 25000100 = Ret 1700000000 /\ fastMSec c 25000100 = Ret 1700000001009 /\ fastUSec c 25000100 = Ret 1700000001009999 /\ slowUSec (tStart c) = 1700000000999999.
Proof. cbv zeta. unfold goodTime, inReach. splits; try (vm_compute; reflexivity); cbn; lia. Qed.

(** ** C139 *)
(** An operation is slow exactly if more milliseconds have passed than the threshold, or than the flag where the threshold is not positive. *)
Definition tooLong (flag threshold ms : Z) : Prop := (if 0 <? threshold then threshold else flag) < ms.
Theorem C139_slow : forall flag threshold t0 asks now, 0 <= flag -> - 2 ^ 62 <= t0 < 2 ^ 62 -> - 2 ^ 62 <= now < 2 ^ 62 -> Forall (fun z => - 2 ^ 62 <= z < 2 ^ 62) asks ->
  exists t, (fold_left (fun o z => let* t := o in let* r := slow flag z threshold t in Ret (snd r)) asks (Ret (newTracker t0)) = Ret t) /\
  exists b t', slow flag now threshold t = Ret (b, t') /\ (b = true <-> tooLong flag threshold (now - t0)) /\ trDur t' = Z.max 0 (now - t0).
Proof.
  intros flag threshold t0 asks now Hf H0 Hn Ha. change (2 ^ 62) with 4611686018427387904 in *.
  assert (S : forall z t, trStart t = t0 -> -4611686018427387904 <= z < 4611686018427387904 ->
     slow flag z threshold t = Ret (if 0 <? threshold then threshold <? Z.max 0 (z - t0) else flag <? Z.max 0 (z - t0), mkTr t0 (Z.max 0 (z - t0)))).
  { intros z t <- Hz. unfold slow. assert (I : in_int64 (z - trStart t) = true) by (unfold in_int64, int64_min, int64_max; lia). rewrite I. cbn [negb].
    replace (if z - trStart t <? 0 then 0 else z - trStart t) with (Z.max 0 (z - trStart t)) by (destruct (Z.ltb_spec (z - trStart t) 0); lia). reflexivity. }
  assert (G : forall l t, trStart t = t0 -> Forall (fun z => -4611686018427387904 <= z < 4611686018427387904) l ->
     exists t1, fold_left (fun o z => let* t := o in let* r := slow flag z threshold t in Ret (snd r)) l (Ret t) = Ret t1 /\ trStart t1 = t0).
  { induction l as [|z l IH]; intros t Et F; [exists t; split; [reflexivity|exact Et]|]. inversion F; subst. cbn [fold_left obind]. rewrite S by (congruence || assumption). cbn [obind snd]. apply IH; [reflexivity|assumption]. }
  destruct (G asks (newTracker t0) eq_refl Ha) as (t & E & Et). exists t. split; [exact E|]. rewrite (S now t Et Hn). do 2 eexists. splits; [reflexivity| |reflexivity].
  unfold tooLong. destruct (0 <? threshold) eqn:T; lia.
Qed.
(** With the fast clock and one calibration: an operation that takes 1.004 milliseconds more than the threshold is slow, and none is that takes
    0.004 milliseconds less than the threshold, up to 34 years after the start. *)
Theorem C139_fast : forall flag threshold first start n a b, 0 <= flag -> goodTime start -> 1 <= n <= 2 ^ 53 -> inReach first a -> inReach first b ->
  a - first <= 2 ^ 40 * (n * 1000) -> b - first <= 2 ^ 40 * (n * 1000) -> let lim := if 0 <? threshold then threshold else flag in
  exists t0 now r t', fastMSec (withRate first start n) a = Ret t0 /\ fastMSec (withRate first start n) b = Ret now /\
  slow flag now threshold (newTracker t0) = Ret (r, t') /\
  (1000 * (b - a) > (1000 * lim + 1004) * (n * 1000) -> r = true) /\ (r = true -> 1000 * (b - a) >= (1000 * lim - 4) * (n * 1000)).
Proof.
  intros flag threshold first start n a b Hf Hs Hn Ha Hb La Lb lim.
  destruct (C138_fast first start n InMSec a Hs Hn Ha) as (x & Ex & Dx & _ & Px). destruct (C138_fast first start n InMSec b Hs Hn Hb) as (y & Ey & Dy & _ & Py).
  assert (Ra := Ha). assert (Rb := Hb). destruct Ra as (A1 & A2 & A3), Rb as (B1 & B2 & B3). change (2 ^ 64) with 18446744073709551616 in *. change (2 ^ 62) with 4611686018427387904 in *.
  assert (63 < 64) by lia.
  pose proof (C137_within first start n InMSec (a - first) x Hn ltac:(change (2 ^ 63) with 9223372036854775808; lia) La Dx) as Wa.
  pose proof (C137_within first start n InMSec (b - first) y Hn ltac:(change (2 ^ 63) with 9223372036854775808; lia) Lb Dy) as Wb.
  cbn [usIn] in Wa, Wb. cbv zeta in Wa, Wb. cbn [fastOf slowOf] in *. set (N := n * 1000) in *. assert (1 <= N) by lia. clearbody N.
  assert (X : x <= 2 ^ 41) by (change (2 ^ 40) with 1099511627776 in *; change (2 ^ 41) with 2199023255552; nia).
  assert (Y : y <= 2 ^ 41) by (change (2 ^ 40) with 1099511627776 in *; change (2 ^ 41) with 2199023255552; nia).
  change (2 ^ 41) with 2199023255552 in *.
  assert (SS : 0 <= slowMSec start < 2 ^ 51).
  { destruct Hs as [S1 S2]. change (2 ^ 40) with 1099511627776 in S1. change (2 ^ 51) with 2251799813685248. unfold slowMSec, wrap64. lia. }
  change (2 ^ 51) with 2251799813685248 in SS.
  destruct (C139_slow flag threshold (slowMSec start + x) nil (slowMSec start + y) Hf) as (t & Et & r & t' & Er & Iff & _);
    [change (2 ^ 62) with 4611686018427387904; lia..|constructor|]. cbn [fold_left] in Et. injection Et as <-.
  exists (slowMSec start + x), (slowMSec start + y), r, t'. splits; [exact Ex|exact Ey|exact Er| |]; unfold tooLong in Iff; fold lim in Iff;
    replace (slowMSec start + y - (slowMSec start + x)) with (y - x) in Iff by lia.
  - intros G. apply Iff. nia.
  - intros G. apply Iff in G. nia.
Qed.
(** It is not so that only a positive time is too long: with a negative flag an operation is slow although the clock has gone back. *)
Theorem C139_negative_flag_refuted : exists flag t0 now t', now < t0 /\ slow flag now 0 (newTracker t0) = Ret (true, t') /\ trDur t' = 0.
Proof. exists (-1), 5, 3, (mkTr 5 0). splits; reflexivity. Qed.
(** It is not so that a short operation is never slow: it may be, when a calibration falls into it. *)
Theorem C139_calibration_refuted : exists first start c1 c2 a b t0 now t', goodTime start /\
  calibrate first start (first + 10000 * 2501) 10000 = Ret c1 /\ calibrate first start (first + 3600 * 2500999900) (3600 * 1000000) = Ret c2 /\
  fastMSec c1 a = Ret t0 /\ fastMSec c2 b = Ret now /\ b - a = 2500 /\ slow 50 now 0 (newTracker t0) = Ret (true, t') /\ trDur t' = 1440.
Proof.
  exists 0, (mkTs 1700000000 0). do 2 eexists. exists (3600 * 2500999900), (3600 * 2500999900 + 2500). do 3 eexists. splits; [unfold goodTime; cbn; lia|vm_compute; reflexivity..].
Qed.
Example C139_ex : fst (match slow 50 1061 0 (newTracker 1010) with Ret r => r | _ => (false, newTracker 0) end) = true /\
  slow 50 1060 0 (newTracker 1010) = Ret (false, mkTr 1010 50) /\ slow 50 1060 49 (newTracker 1010) = Ret (true, mkTr 1010 50) /\ slow 50 900 0 (newTracker 1010) = Ret (false, mkTr 1010 0).
Proof. splits; reflexivity. Qed.

Print Assumptions C137_duration. Print Assumptions C137_within.
Print Assumptions C137_calibration. Print Assumptions C137_monotone. Print Assumptions C137_slow_counter. Print Assumptions C137_exact_refuted.
Print Assumptions C138_slow. Print Assumptions C138_fast. Print Assumptions C138_monotone. Print Assumptions C138_ahead. Print Assumptions C138_back_refuted. Print Assumptions C138_drift_refuted.
Print Assumptions C139_slow. Print Assumptions C139_fast. Print Assumptions C139_negative_flag_refuted. Print Assumptions C139_calibration_refuted.
