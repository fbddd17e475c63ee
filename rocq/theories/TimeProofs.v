(** Proofs about the civil time model. *)
From Verif Require Import Prelude DateModel DateSpec DateProofs TimeModel TimeSpec.

(** Leap years among the years up to and including [y] (up to a constant), with floor division. *)
Definition leaps (y : Z) : Z := y / 4 - y / 100 + y / 400.
Definition glen (y : Z) : Z := if gregorian_leap y then 366 else 365.
(** Days from 1970-01-01 to January 1st of year [y]. *)
Definition gB (y : Z) : Z := 365 * (y - 1970) + leaps (y - 1) - 477.

Lemma DIV_floor a b : 0 < b -> DIV a b = a / b.
Proof.
  unfold DIV, b2z. intros Hb. pose proof (Z.quot_rem' a b) as Hq.
  pose proof (Z.rem_bound_abs a b ltac:(lia)) as Hr.
  destruct (Z.rem a b <? 0) eqn:E.
  - apply Z.div_unique with (r := Z.rem a b + b); lia.
  - apply Z.div_unique with (r := Z.rem a b); lia.
Qed.

Lemma LEAPS_leaps y : LEAPS_THRU_END_OF y = leaps y.
Proof. unfold LEAPS_THRU_END_OF, leaps. rewrite !DIV_floor by lia. reflexivity. Qed.

Lemma leaps_step y : leaps y = leaps (y - 1) + b2z (gregorian_leap y).
Proof.
  unfold leaps, gregorian_leap, b2z.
  assert (E4 : (y - 1) / 4 = y / 4 - b2z (y mod 4 =? 0))
    by (unfold b2z; destruct (y mod 4 =? 0) eqn:?; lia).
  assert (E100 : (y - 1) / 100 = y / 100 - b2z (y mod 100 =? 0))
    by (unfold b2z; destruct (y mod 100 =? 0) eqn:?; lia).
  assert (E400 : (y - 1) / 400 = y / 400 - b2z (y mod 400 =? 0))
    by (unfold b2z; destruct (y mod 400 =? 0) eqn:?; lia).
  rewrite E4, E100, E400. unfold b2z.
  destruct (y mod 4 =? 0) eqn:H4, (y mod 100 =? 0) eqn:H100, (y mod 400 =? 0) eqn:H400; cbn; lia.
Qed.

Lemma glen_cases y : glen y = 365 \/ glen y = 366.
Proof. unfold glen. destruct (gregorian_leap y); auto. Qed.

Lemma gB_step y : gB (y + 1) = gB y + glen y.
Proof.
  unfold gB, glen. pose proof (leaps_step y) as H. replace (y + 1 - 1) with y by lia.
  unfold b2z in H. destruct (gregorian_leap y); lia.
Qed.

Lemma leaps_diff_pos a k : 0 <= k -> 0 <= leaps (a + k) - leaps a <= k / 4 + 1.
Proof.
  intros Hk. unfold leaps.
  assert (forall x, x / 400 = (x / 100) / 4) as H400 by (intro x; lia).
  assert (forall x, x / 100 = (x / 4) / 25) as H100 by (intro x; lia).
  rewrite !H400, !H100.
  assert (a / 4 <= (a + k) / 4 <= a / 4 + k / 4 + 1) as Hq by lia.
  revert Hq. generalize (k / 4). generalize ((a + k) / 4). generalize (a / 4). clear. intros p q r [H1 H2].
  assert (p / 25 <= q / 25 <= p / 25 + (q - p)) by lia.
  revert H. generalize (p / 25) (q / 25). intros p' q' [H3 H4].
  lia.
Qed.

Lemma gB_lt a b : a < b -> gB a < gB b.
Proof.
  intros H. unfold gB.
  pose proof (leaps_diff_pos (a - 1) (b - a) ltac:(lia)).
  replace (a - 1 + (b - a)) with (b - 1) in H0 by lia. lia.
Qed.
Lemma gB_le a b : a <= b -> gB a <= gB b.
Proof. intros H. destruct (Z.eq_dec a b) as [->|]; [lia|]. pose proof (gB_lt a b ltac:(lia)). lia. Qed.
Lemma gB_le_inv a b : gB a <= gB b -> a <= b.
Proof. intros H. destruct (Z_le_gt_dec a b); [assumption|]. pose proof (gB_lt b a ltac:(lia)). lia. Qed.
Lemma gB_lt_inv a b : gB a < gB b -> a < b.
Proof. intros H. destruct (Z_lt_ge_dec a b); [assumption|]. pose proof (gB_le b a ltac:(lia)). lia. Qed.

Lemma rem_mod_zero a b : 0 < b -> (Z.rem a b =? 0) = (a mod b =? 0).
Proof.
  intros Hb. apply eq_true_iff_eq. rewrite !Z.eqb_eq.
  rewrite Z.rem_divide, Z.mod_divide by lia. reflexivity.
Qed.

Lemma isLeapYear_greg y : -32768 <= y <= 32767 -> isLeapYear y = gregorian_leap y.
Proof.
  intros H. unfold isLeapYear, gregorian_leap. rewrite wrap16_small by lia.
  rewrite !rem_mod_zero by lia.
  destruct (y mod 4 =? 0), (y mod 100 =? 0), (y mod 400 =? 0); reflexivity.
Qed.

Lemma daysSoFar_cum y m : -32768 <= y <= 32767 -> 1 <= m <= 13 ->
  arr (daysSoFar y) (m - 1) = Ret (cum (gregorian_leap y) m).
Proof. intros. unfold daysSoFar. rewrite isLeapYear_greg by assumption. apply arr_cum. assumption. Qed.

(** Day number of a civil date relative to the epoch. *)
Definition gday (d : date) : Z := gB (year d) + cum (gregorian_leap (year d)) (month d) + day d - 1.

Lemma unix_eq d : -32768 <= dyear d <= 32767 -> 1 <= dmonth d <= 12 ->
  dateTimeToUnixSeconds d = Ret (86400 * gday (date_of d) + second_of_day (dhour d) (dminute d) (dsec d)).
Proof.
  intros Hy Hm. unfold dateTimeToUnixSeconds, dateTimeDiffSeconds.
  rewrite (daysSoFar_cum (dyear d) (dmonth d)) by lia.
  change (arr (daysSoFar (dyear kEpoch)) (dmonth kEpoch - 1)) with (Ret 0). cbn [obind].
  f_equal. unfold shr. rewrite !Z.shiftr_div_pow2 by lia.
  change 3 with (Z.ones 2). rewrite !Z.land_ones by lia. change (2 ^ 2) with 4.
  cbn [dyear dmonth dday dhour dminute dsec kEpoch].
  change (1970 / 4) with 492. change (0 / 4) with 0. change (1970 mod 4) with 2. cbn [b2z Z.eqb].
  set (a4 := dyear d / 4 + 0 - b2z (dyear d mod 4 =? 0)).
  assert (Ha4 : a4 = (dyear d - 1) / 4).
  { unfold a4, b2z. destruct (dyear d mod 4 =? 0) eqn:E; lia. }
  assert (Ha100 : Z.quot (a4 + b2z (a4 <? 0)) 25 - b2z (a4 <? 0) = a4 / 25).
  { unfold b2z. destruct (a4 <? 0) eqn:E; lia. }
  rewrite Ha100. change (492 + 0 - 0) with 492. change (492 <? 0) with false. cbn [b2z].
  change (Z.quot (492 + 0) 25 - 0) with 19. change (19 / 4) with 4.
  unfold gday, date_of, gB, leaps, second_of_day. cbn [year month day].
  rewrite Ha4.
  replace ((dyear d - 1) / 4 / 25) with ((dyear d - 1) / 100) by lia.
  replace ((dyear d - 1) / 100 / 4) with ((dyear d - 1) / 400) by lia.
  lia.
Qed.

Lemma unix_valid d : valid_datetime d ->
  exists s, dateTimeToUnixSeconds d = Ret s /\ min_unix <= s <= max_unix.
Proof.
  intros ((Hy & Hm & Hd) & (Hh & Hmi & Hs) & _). cbn in Hy, Hm, Hd.
  eexists. split; [apply unix_eq; lia|].
  unfold gday, second_of_day. cbn [year month day date_of].
  pose proof (cum_bound (gregorian_leap (dyear d)) (dmonth d) Hm) as [? ?].
  pose proof (gB_step (dyear d)) as Hst. unfold glen in Hst.
  pose proof (gB_le (-32768) (dyear d) ltac:(lia)) as Hlo.
  pose proof (gB_le (dyear d + 1) 32768 ltac:(lia)) as Hhi.
  change (gB (-32768)) with (-12687794) in Hlo. change (gB 32768) with 11248738 in Hhi.
  unfold min_unix, max_unix. lia.
Qed.

Lemma gday_next d : valid_date gregorian_leap d -> gday (next_day gregorian_leap d) = gday d + 1.
Proof.
  intros (Hy & Hm & Hd). unfold gday, next_day.
  destruct (day d <? month_len (gregorian_leap (year d)) (month d)) eqn:E1; cbn [year month day]; [lia|].
  destruct (month d <? 12) eqn:E2; cbn [year month day].
  - rewrite cum_step by lia. lia.
  - assert (Hm12 : month d = 12) by lia. rewrite Hm12 in *.
    pose proof (gB_step (year d)) as Hs. unfold glen in Hs.
    pose proof (cum_step (gregorian_leap (year d)) 12 ltac:(lia)) as Hc.
    change (12 + 1) with 13 in Hc. rewrite cum_13 in Hc. rewrite cum_1. lia.
Qed.

Lemma next_day_range d : valid_date gregorian_leap d ->
  -32768 <= year (next_day gregorian_leap d) <= 32768 /\ 1 <= month (next_day gregorian_leap d) <= 12 /\
  1 <= day (next_day gregorian_leap d) <=
       month_len (gregorian_leap (year (next_day gregorian_leap d))) (month (next_day gregorian_leap d)).
Proof.
  intros (Hy & Hm & Hd). unfold next_day.
  destruct (day d <? _) eqn:E1; cbn [year month day]; [lia|].
  destruct (month d <? 12) eqn:E2; cbn [year month day].
  - pose proof (month_len_bounds (gregorian_leap (year d)) (month d + 1)). lia.
  - pose proof (month_len_bounds (gregorian_leap (year d + 1)) 1). lia.
Qed.

Lemma unix_next_second d s : valid_datetime d -> dateTimeToUnixSeconds d = Ret s -> s <> max_unix ->
  valid_datetime (next_second d) /\ dateTimeToUnixSeconds (next_second d) = Ret (s + 1).
Proof.
  intros Hv Hs Hne. pose proof Hv as ((Hy & Hm & Hd) & (Hh & Hmi & Hse) & Hus).
  cbn in Hy, Hm, Hd.
  rewrite unix_eq in Hs by assumption. injection Hs as <-.
  unfold next_second, valid_datetime.
  destruct (dsec d <? 59) eqn:E1.
  { rewrite unix_eq by (cbn; assumption). cbn. unfold valid_date, valid_time_of_day, second_of_day; cbn.
    split; [lia|]. f_equal. unfold gday, date_of; cbn. lia. }
  destruct (dminute d <? 59) eqn:E2.
  { rewrite unix_eq by (cbn; assumption). cbn. unfold valid_date, valid_time_of_day, second_of_day; cbn.
    split; [lia|]. f_equal. unfold gday, date_of; cbn. lia. }
  destruct (dhour d <? 23) eqn:E3.
  { rewrite unix_eq by (cbn; assumption). cbn. unfold valid_date, valid_time_of_day, second_of_day; cbn.
    split; [lia|]. f_equal. unfold gday, date_of; cbn. lia. }
  destruct (next_day_range (date_of d)) as (Ry & Rm & Rd); [apply Hv|].
  pose proof (gday_next (date_of d) ltac:(apply Hv)) as Hg.
  assert (Hyr : year (next_day gregorian_leap (date_of d)) <> 32768).
  { intro Heq. apply Hne.
    set (n := next_day gregorian_leap (date_of d)) in *.
    assert (gday n >= 11248738).
    { unfold gday. rewrite Heq. change (gB 32768) with 11248738.
      pose proof (cum_bound (gregorian_leap 32768) (month n) ltac:(lia)). lia. }
    destruct (unix_valid d Hv) as (s' & Hs' & Hr). rewrite unix_eq in Hs' by assumption.
    injection Hs' as <-. unfold second_of_day in *. unfold max_unix in *. lia. }
  destruct (next_day gregorian_leap (date_of d)) as [ny nm nd] eqn:En. cbn [year month day] in *.
  rewrite unix_eq by (cbn; lia). cbn [dyear dmonth dday dhour dminute dsec dmicro].
  unfold date_of at 1 2. cbn [dyear dmonth dday].
  unfold valid_date, valid_time_of_day, second_of_day. cbn [year month day].
  split; [lia|]. f_equal. rewrite Hg. lia.
Qed.

(** Year loop: partial correctness. *)
Definition in_years (T : Z) : Prop := gB (-32768) <= T < gB 32768.

Lemma yearLoop_guess y days :
  y + Z.quot days 365 - b2z (Z.rem days 365 <? 0) = y + days / 365.
Proof. pose proof (DIV_floor days 365 ltac:(lia)) as H. unfold DIV in H. lia. Qed.

Lemma yearLoop_unfold f y days T : gB y + days = T ->
  yearLoop (S f) y days =
  if (days <? 0) || ((if isLeapYear y then 366 else 365) <=? days)
  then yearLoop f (y + days / 365) (T - gB (y + days / 365)) else Ret (y, days).
Proof.
  intros HT. cbn [yearLoop]. rewrite yearLoop_guess, !LEAPS_leaps.
  destruct ((days <? 0) || _); [|reflexivity]. f_equal. subst T. unfold gB. lia.
Qed.

Lemma exit_year y days T : gB y + days = T -> in_years T ->
  0 <= days -> days < (if isLeapYear y then 366 else 365) ->
  -32768 <= y <= 32767 /\ days < glen y.
Proof.
  intros HT [Hlo Hhi] H0 Hlt.
  assert (y < 32768) by (apply gB_lt_inv; lia).
  assert (-32768 <= y).
  { destruct (Z_le_gt_dec (-32768) y); [assumption|].
    pose proof (gB_le (y + 1) (-32768) ltac:(lia)). pose proof (gB_step y). pose proof (glen_cases y).
    assert (days = 365) by (destruct (isLeapYear y); lia).
    assert (gB (-32768) <= gB (y + 1)) by lia.
    pose proof (gB_le_inv _ _ H5).
    assert (y = -32769) by lia. subst y. change (isLeapYear (-32769)) with false in Hlt. cbv iota in Hlt. lia. }
  split; [lia|]. rewrite isLeapYear_greg in Hlt by lia. exact Hlt.
Qed.

Lemma yearLoop_correct T : in_years T -> forall f y days r, gB y + days = T ->
  yearLoop f y days = Ret r ->
  -32768 <= fst r <= 32767 /\ 0 <= snd r < glen (fst r) /\ gB (fst r) + snd r = T.
Proof.
  intros HT. induction f as [|f IH]; intros y days r Heq; [discriminate|].
  rewrite (yearLoop_unfold f y days T Heq).
  destruct ((days <? 0) || _) eqn:E.
  - apply IH. lia.
  - intros [= <-]. cbn [fst snd]. destruct (exit_year y days T Heq HT) as [? ?]; lia.
Qed.

Lemma yearLoop_ret f y days : yearLoop f y days = Diverge \/ exists r, yearLoop f y days = Ret r.
Proof.
  revert y days. induction f as [|f IH]; intros; cbn [yearLoop]; [auto|].
  destruct (_ || _); eauto.
Qed.

(** Termination in stages. *)
Definition term (T : Z) (f : nat) (P : Z -> Prop) : Prop :=
  forall y days, gB y + days = T -> P days -> yearLoop f y days <> Diverge.

Lemma guess_bound y days T : gB y + days = T ->
  let d' := T - gB (y + days / 365) in
  (0 <= days -> - (days / 365 / 4 + 1) <= d' <= 364) /\
  (days < 0 -> 0 <= d' <= 364 + (- (days / 365)) / 4 + 1).
Proof.
  intros HT. cbn zeta. subst T. unfold gB. split; intros Hd.
  - pose proof (leaps_diff_pos (y - 1) (days / 365) ltac:(lia)) as H.
    replace (y - 1 + days / 365) with (y + days / 365 - 1) in H by lia. lia.
  - pose proof (leaps_diff_pos (y + days / 365 - 1) (- (days / 365)) ltac:(lia)) as H.
    replace (y + days / 365 - 1 + - (days / 365)) with (y - 1) in H by lia. lia.
Qed.

Lemma term_step T f (P Q : Z -> Prop) :
  term T f Q ->
  (forall y days, gB y + days = T -> P days -> Q (T - gB (y + days / 365))) ->
  term T (S f) P.
Proof.
  intros HQ Himp y days HT HP. rewrite (yearLoop_unfold f y days T HT).
  destruct (_ || _); [|discriminate]. apply HQ; [lia|]. apply Himp; assumption.
Qed.

(** Last stage: between -1 and 365 days. *)
Lemma term_last T : in_years T -> term T 2 (fun d => -1 <= d <= 365).
Proof.
  intros HT y days Heq Hd. rewrite (yearLoop_unfold 1 y days T Heq).
  destruct (_ || _) eqn:E; [|discriminate].
  assert (days = -1 \/ days = 365) as [-> | ->].
  { destruct (isLeapYear y); lia. }
  - change (-1 / 365) with (-1).
    assert (Hs : T - gB (y + -1) = glen (y + -1) - 1).
    { pose proof (gB_step (y + -1)). replace (y + -1 + 1) with y in H by lia. lia. }
    rewrite (yearLoop_unfold 0 (y + -1) (T - gB (y + -1)) T) by lia.
    pose proof (glen_cases (y + -1)).
    assert (Hy : -32768 <= y + -1 <= 32767).
    { destruct HT as [Hlo Hhi]. split.
      - assert (gB (-32768) < gB y) by lia. pose proof (gB_lt_inv _ _ H0). lia.
      - assert (gB (y + -1) < gB 32768) by lia. pose proof (gB_lt_inv _ _ H0). lia. }
    rewrite isLeapYear_greg by assumption. fold (glen (y + -1)). rewrite Hs.
    replace (_ || _) with false by lia. discriminate.
  - change (365 / 365) with 1.
    assert (Hs : 0 <= T - gB (y + 1) -> yearLoop 1 (y + 1) (T - gB (y + 1)) <> Diverge).
    { intros H0. pose proof (gB_step y). pose proof (glen_cases y).
      rewrite (yearLoop_unfold 0 (y + 1) (T - gB (y + 1)) T) by lia.
      replace (_ || _) with false; [discriminate|].
      destruct (isLeapYear (y + 1)); lia. }
    apply Hs. pose proof (gB_step y).
    (* the loop condition says the (converted) year is not leap; in range it is the true rule *)
    assert (isLeapYear y = false) by (destruct (isLeapYear y); [lia|reflexivity]).
    destruct (Z_le_gt_dec (-32768) y), (Z_le_gt_dec y 32767).
    + rewrite isLeapYear_greg in H0 by lia. unfold glen in H. rewrite H0 in H. lia.
    + destruct HT as [_ Hhi]. pose proof (gB_le 32768 y ltac:(lia)). lia.
    + destruct HT as [Hlo _]. pose proof (gB_le (y + 1) (-32768) ltac:(lia)). lia.
    + lia.
Qed.

Lemma term_initial T : in_years T -> term T 5 (fun d => -13000000 <= d <= 13000000).
Proof.
  intros HT.
  eapply (term_step T 4 _ (fun d => -10000 <= d <= 10000)).
  2:{ intros y days Heq Hd. pose proof (guess_bound y days T Heq) as [H1 H2]. cbn zeta in *.
      destruct (Z_lt_ge_dec days 0); lia. }
  eapply (term_step T 3 _ (fun d => -380 <= d <= 380)).
  2:{ intros y days Heq Hd. pose proof (guess_bound y days T Heq) as [H1 H2]. cbn zeta in *.
      destruct (Z_lt_ge_dec days 0); lia. }
  eapply (term_step T 2 _ (fun d => -1 <= d <= 365)).
  2:{ intros y days Heq Hd. pose proof (guess_bound y days T Heq) as [H1 H2]. cbn zeta in *.
      destruct (Z_lt_ge_dec days 0); lia. }
  apply term_last. assumption.
Qed.

Lemma yearLoop_fuel f g y days r : (f <= g)%nat -> yearLoop f y days = Ret r -> yearLoop g y days = Ret r.
Proof.
  revert g y days. induction f as [|f IH]; intros g y days Hle; [discriminate|].
  destruct g as [|g]; [lia|]. cbn [yearLoop]. destruct (_ || _); [|auto]. apply IH. lia.
Qed.

Lemma yearLoop_total T : in_years T ->
  exists y d, yearLoop yearFuel 1970 T = Ret (y, d) /\
  -32768 <= y <= 32767 /\ 0 <= d < glen y /\ gB y + d = T.
Proof.
  intros HT. assert (H0 : gB 1970 + T = T) by (change (gB 1970) with 0; lia).
  pose proof (term_initial T HT 1970 T H0) as Ht.
  destruct (yearLoop_ret 5 1970 T) as [Hd | [[y d] Hr]].
  - exfalso. apply Ht; [|assumption]. destruct HT as [Hl Hh].
    change (gB (-32768)) with (-12687794) in Hl. change (gB 32768) with 11248738 in Hh. lia.
  - exists y, d. split.
    + eapply yearLoop_fuel; [|exact Hr]. unfold yearFuel. lia.
    + pose proof (yearLoop_correct T HT 5 1970 T (y, d) H0 Hr). assumption.
Qed.

(** Month loop. *)
Lemma monthLoop_correct (leap : bool) days : 0 <= days ->
  forall f m, (Z.to_nat m < f)%nat -> 0 <= m <= 11 -> days < cum leap (m + 2) ->
  exists m', monthLoop f (if leap then kLeapDaysSoFar else kDaysSoFar) days m = Ret m' /\
    0 <= m' <= 11 /\ cum leap (m' + 1) <= days < cum leap (m' + 2).
Proof.
  intros H0. induction f as [|f IH]; intros m Hf Hm Hd; [lia|].
  cbn [monthLoop]. pose proof (arr_cum leap (m + 1) ltac:(lia)) as Ha.
  replace (m + 1 - 1) with m in Ha by lia. rewrite Ha. cbn [obind].
  destruct (days <? cum leap (m + 1)) eqn:E.
  - assert (m <> 0) by (intros ->; change (0 + 1) with 1 in E; rewrite cum_1 in E; lia).
    apply IH; [lia|lia|]. replace (m - 1 + 2) with (m + 1) by lia. lia.
  - exists m. split; [reflexivity|]. lia.
Qed.

Lemma unixSecondsToDateTime_spec s : min_unix <= s <= max_unix ->
  exists d, unixSecondsToDateTime s = Ret d /\ valid_datetime d /\ dmicro d = 0 /\
    dateTimeToUnixSeconds d = Ret s.
Proof.
  intros Hs. unfold unixSecondsToDateTime, kSecondsOfDay, kSecondsOfHour, kSecondsOfMinute.
  set (T := s / 86400). set (r := s mod 86400).
  assert (Hpair : (if Z.rem s 86400 <? 0 then (Z.rem s 86400 + 86400, Z.quot s 86400 - 1)
                   else (Z.rem s 86400, Z.quot s 86400)) = (r, T)).
  { unfold r, T. destruct (Z.rem s 86400 <? 0) eqn:E; f_equal; lia. }
  rewrite Hpair.
  assert (HT : in_years T).
  { unfold in_years, T. change (gB (-32768)) with (-12687794). change (gB 32768) with 11248738.
    unfold min_unix, max_unix in Hs. lia. }
  destruct (yearLoop_total T HT) as (y & d & Hy & Hyr & Hd & Hg).
  rewrite Hy. cbn [obind].
  unfold daysSoFar. rewrite isLeapYear_greg by assumption.
  set (leap := gregorian_leap y) in *.
  assert (Hd' : d < cum leap (11 + 2)).
  { change (11 + 2) with 13. rewrite cum_13. unfold glen in Hd. fold leap in Hd. lia. }
  destruct (monthLoop_correct leap d ltac:(lia) 13 11 ltac:(lia) ltac:(lia) Hd') as (mi & Hm & Hmr & Hc).
  rewrite Hm. cbn [obind].
  pose proof (arr_cum leap (mi + 1) ltac:(lia)) as Ha.
  replace (mi + 1 - 1) with mi in Ha by lia. rewrite Ha. cbn [obind].
  replace (mi + 2) with (mi + 1 + 1) in Hc by lia. rewrite (cum_step leap (mi + 1)) in Hc by lia.
  pose proof (month_len_bounds leap (mi + 1)).
  assert (Hr : 0 <= r < 86400) by (unfold r; lia).
  rewrite wrap16_small by assumption.
  rewrite (Z.mod_small (mi + 1)) by lia.
  rewrite (Z.mod_small (d - cum leap (mi + 1) + 1)) by lia.
  rewrite (Z.mod_small (Z.quot r 3600)) by lia.
  rewrite (Z.mod_small (Z.quot (Z.rem r 3600) 60)) by lia.
  rewrite (Z.mod_small (Z.rem (Z.rem r 3600) 60)) by lia.
  eexists. split; [reflexivity|]. split; [|split].
  - unfold valid_datetime, valid_date, valid_time_of_day. cbn. fold leap. lia.
  - reflexivity.
  - rewrite unix_eq by (cbn; lia). cbn [dyear dmonth dday dhour dminute dsec date_of].
    unfold gday, second_of_day, date_of. cbn [year month day dyear dmonth dday]. fold leap. f_equal.
    replace (gB y + cum leap (mi + 1) + (d - cum leap (mi + 1) + 1) - 1) with T by lia.
    pose proof (Z.quot_rem' r 3600). pose proof (Z.quot_rem' (Z.rem r 3600) 60).
    assert (s = 86400 * T + r) by (unfold T, r; apply Z.div_mod; lia).
    set (q1 := Z.quot r 3600) in *. set (r1 := Z.rem r 3600) in *.
    set (q2 := Z.quot r1 60) in *. set (r2 := Z.rem r1 60) in *.
    clearbody q1 r1 q2 r2 T r. lia.
Qed.

(** Unix seconds determine the civil time. *)
Lemma gday_inj a b : valid_date gregorian_leap a -> valid_date gregorian_leap b -> gday a = gday b -> a = b.
Proof.
  assert (Hlt : forall a b, valid_date gregorian_leap a -> valid_date gregorian_leap b ->
    date_before a b -> gday a < gday b).
  { clear. intros a b (Hya & Hma & Hda) (Hyb & Hmb & Hdb) Hlt. unfold gday.
    pose proof (cum_bound (gregorian_leap (year a)) (month a) Hma) as [? ?].
    pose proof (cum_bound (gregorian_leap (year b)) (month b) Hmb) as [? ?].
    destruct Hlt as [Hlt | [He [Hlt | [Hem Hlt]]]].
    - pose proof (gB_step (year a)) as Hs. unfold glen in Hs.
      pose proof (gB_le (year a + 1) (year b) ltac:(lia)). lia.
    - rewrite He in *.
      pose proof (cum_mono (gregorian_leap (year b)) (month a) (month b) Hma Hmb Hlt). lia.
    - rewrite He, Hem in *. lia. }
  intros Va Vb He. destruct (trichotomy a b) as [? | [H | H]]; [assumption| |].
  - pose proof (Hlt a b Va Vb H). lia.
  - pose proof (Hlt b a Vb Va H). lia.
Qed.

Lemma unix_inj a b s : valid_datetime a -> valid_datetime b ->
  dateTimeToUnixSeconds a = Ret s -> dateTimeToUnixSeconds b = Ret s -> dmicro a = dmicro b -> a = b.
Proof.
  intros Va Vb Ha Hb Hmi.
  pose proof Va as ((Hya & Hma & Hda) & (Hha & Hmia & Hsa) & _).
  pose proof Vb as ((Hyb & Hmb & Hdb) & (Hhb & Hmib & Hsb) & _).
  rewrite unix_eq in Ha, Hb by assumption. injection Ha as Ha. injection Hb as Hb.
  unfold second_of_day in *.
  assert (Hg : gday (date_of a) = gday (date_of b)) by lia.
  apply gday_inj in Hg; [|apply Va|apply Vb].
  rewrite Hg in Ha.
  destruct a, b. unfold date_of in Hg. cbn in *. injection Hg as -> -> ->. f_equal; lia.
Qed.

Lemma unix_roundtrip d s : valid_datetime d -> dateTimeToUnixSeconds d = Ret s ->
  unixSecondsToDateTime s = Ret (setMicro d 0).
Proof.
  intros Hv Hs. destruct (unix_valid d Hv) as (s' & Hs' & Hr). rewrite Hs in Hs'. injection Hs' as <-.
  destruct (unixSecondsToDateTime_spec s Hr) as (d' & Hd & Hv' & Hm & Hu).
  rewrite Hd. f_equal. apply (unix_inj d' (setMicro d 0) s); auto.
  unfold valid_datetime in *. cbn. unfold date_of in *; cbn in *. intuition lia.
Qed.

Lemma setMicro_unix d us : dateTimeToUnixSeconds (setMicro d us) = dateTimeToUnixSeconds d.
Proof. reflexivity. Qed.

Lemma setMicro_same d : setMicro d (dmicro d) = d.
Proof. destruct d; reflexivity. Qed.

Lemma setMicro_valid d us : valid_datetime d -> 0 <= us <= 999999 -> valid_datetime (setMicro d us).
Proof. unfold valid_datetime, date_of; cbn. intuition. Qed.

(** Shifting. *)
Lemma dateTimeShift_spec d k s : valid_datetime d -> dateTimeToUnixSeconds d = Ret s ->
  min_unix <= s + k <= max_unix ->
  exists d', dateTimeShift d k = Ret d' /\ valid_datetime d' /\
    dateTimeToUnixSeconds d' = Ret (s + k) /\ dmicro d' = dmicro d.
Proof.
  intros Hv Hs Hr. unfold dateTimeShift. destruct (k =? 0) eqn:E.
  - exists d. replace (s + k) with s by lia. auto.
  - rewrite Hs. cbn [obind]. unfold addI64.
    replace (in_int64 (s + k)) with true
      by (unfold in_int64, int64_min, int64_max, min_unix, max_unix in *; lia).
    cbn [obind]. destruct (unixSecondsToDateTime_spec (s + k) Hr) as (d' & Hd & Hv' & Hm & Hu).
    rewrite Hd. cbn [obind]. eexists. split; [reflexivity|].
    split; [apply setMicro_valid; [assumption|apply Hv]|]. split; [assumption|reflexivity].
Qed.

Lemma dateTimeShift_inv d k s d' : valid_datetime d -> dateTimeToUnixSeconds d = Ret s ->
  min_unix <= s + k <= max_unix -> dateTimeShift d k = Ret d' -> dateTimeShift d' (- k) = Ret d.
Proof.
  intros Hv Hs Hr Hd. destruct (dateTimeShift_spec d k s Hv Hs Hr) as (d1 & H1 & Hv1 & Hu1 & Hm1).
  rewrite Hd in H1. injection H1 as <-.
  destruct (unix_valid d Hv) as (s0 & Hs0 & Hr0). rewrite Hs in Hs0. injection Hs0 as <-.
  destruct (dateTimeShift_spec d' (- k) (s + k) Hv1 Hu1 ltac:(lia)) as (d2 & H2 & Hv2 & Hu2 & Hm2).
  rewrite H2. f_equal. apply (unix_inj d2 d s); auto; [|congruence].
  replace (s + k + - k) with s in Hu2 by lia. exact Hu2.
Qed.

Lemma date_unix d : valid_date gregorian_leap d -> dateToUnixSeconds d = Ret (86400 * gday d).
Proof.
  intros (Hy & Hm & Hd). unfold dateToUnixSeconds.
  pose proof (month_len_bounds (gregorian_leap (year d)) (month d)).
  unfold dateTimeOfDate. rewrite !Z.mod_small by lia.
  change (dateTimeDiffSeconds ?x kEpoch) with (dateTimeToUnixSeconds x).
  rewrite unix_eq by (cbn; lia). cbn [dyear dmonth dday dhour dminute dsec date_of].
  f_equal. unfold second_of_day. destruct d as [y0 m0 d0]; cbn [year month day]. unfold date_of; cbn [dyear dmonth dday]. lia.
Qed.

Lemma dateShift_spec d k : valid_date gregorian_leap d -> k <> 0 ->
  min_unix <= 86400 * gday d + k <= max_unix ->
  exists d', dateShift d k = Ret d' /\ valid_date gregorian_leap d' /\ gday d' = gday d + k / 86400.
Proof.
  intros Hv Hk Hr. unfold dateShift. destruct (k =? 0) eqn:E; [lia|].
  rewrite (date_unix d Hv). cbn [obind]. unfold addI64.
  replace (in_int64 (86400 * gday d + k)) with true
    by (unfold in_int64, int64_min, int64_max, min_unix, max_unix in *; lia).
  cbn [obind]. unfold unixSecondsToDate.
  destruct (unixSecondsToDateTime_spec _ Hr) as (d' & Hd & Hv' & Hm & Hu).
  rewrite Hd. cbn [obind]. eexists. split; [reflexivity|].
  split; [apply Hv'|].
  destruct Hv' as ((Hy' & Hm' & Hd') & (? & ? & ?) & _). cbn in Hy', Hm', Hd'.
  rewrite unix_eq in Hu by assumption. injection Hu as Hu. unfold second_of_day in Hu.
  change (mkDate (dyear d') (dmonth d') (dday d')) with (date_of d'). lia.
Qed.

Lemma timeShift_spec t k : valid_time t -> -2147483648 <= k <= 2147483648 ->
  exists t', timeShift t k = Ret t' /\ valid_time t' /\ tmicro t' = tmicro t /\
    second_of_day (thour t') (tminute t') (tsec t') =
    (second_of_day (thour t) (tminute t) (tsec t) + k) mod 86400.
Proof.
  intros ((Hh & Hm & Hs) & Hus) Hk. unfold timeShift. destruct (k =? 0) eqn:E.
  - exists t. split; [reflexivity|]. split; [split; [split; auto|auto]|]. split; [reflexivity|].
    unfold second_of_day. replace k with 0 by lia. rewrite Z.mod_small; lia.
  - unfold addI64, timeToSeconds, kSecondsOfMinute, kSecondsOfHour.
    replace (in_int64 _) with true by (unfold in_int64, int64_min, int64_max in *; lia).
    cbn [obind]. unfold unixSecondsToTime.
    set (s := tsec t + tminute t * 60 + thour t * 3600 + k).
    destruct (unixSecondsToDateTime_spec s) as (d' & Hd & Hv' & Hmi & Hu).
    { unfold min_unix, max_unix, s. lia. }
    rewrite Hd. cbn [obind]. eexists. split; [reflexivity|].
    destruct Hv' as ((Hy' & Hm' & Hd') & (? & ? & ?) & _). cbn in Hy', Hm', Hd'.
    split; [split; [split; cbn; auto|cbn; auto]|]. split; [reflexivity|].
    rewrite unix_eq in Hu by assumption. injection Hu as Hu. cbn.
    unfold second_of_day in *.
    assert (Hs' : s = tsec t + tminute t * 60 + thour t * 3600 + k) by reflexivity.
    replace (thour t * 3600 + tminute t * 60 + tsec t + k) with s by lia.
    rewrite <- Hu. rewrite (Z.mul_comm 86400), (Z.add_comm (gday _ * 86400)), Z.mod_add by lia.
    symmetry. apply Z.mod_small. lia.
Qed.

(** Validation. *)
Lemma validate_in_range y m d : -32768 <= y <= 32767 -> 1 <= m <= 12 ->
  validateYMD y m d = Ret (d <=? month_len (gregorian_leap y) m).
Proof.
  intros Hy Hm. unfold validateYMD.
  pose proof (daysSoFar_cum y (m + 1) Hy ltac:(lia)) as Ha. replace (m + 1 - 1) with m in Ha by lia.
  rewrite Ha. cbn [obind]. rewrite (daysSoFar_cum y m) by lia. cbn [obind].
  rewrite cum_step by lia. f_equal. lia.
Qed.

Lemma validate_out_of_range y m d : m < 1 \/ 12 < m -> validateYMD y m d = UB.
Proof.
  intros Hm. unfold validateYMD, arr.
  destruct (m <? 0) eqn:E; [reflexivity|].
  assert (Hlen : length (daysSoFar y) = 13%nat) by (unfold daysSoFar; destruct (isLeapYear y); reflexivity).
  destruct (nth_error (daysSoFar y) (Z.to_nat m)) eqn:En; [|reflexivity].
  cbn [obind]. destruct (m - 1 <? 0) eqn:E2; [reflexivity|].
  exfalso. assert (Z.to_nat m < 13)%nat; [|lia].
  rewrite <- Hlen. apply nth_error_Some. rewrite En. discriminate.
Qed.
