(** Properties C03 to C07: civil time, time zones, date validation. *)
From Verif Require Import Prelude DateModel DateSpec DateProofs TimeModel TimeSpec TimeProofs.

(** * C03: Date arithmetic versus the validation calendar *)

(** The full statement is false: adding one day to an accepted date can give a rejected date. *)
Theorem C03_calendar_agreement_refuted :
  exists d n d', validateDate d = Ret true /\ valid_date gregorian_leap d /\
    addDays d n = Ret d' /\ validateDate d' = Ret false.
Proof.
  exists (mkDate 1900 2 28), 1, (mkDate 1900 2 29).
  repeat split; vm_compute; congruence.
Qed.

(** It holds whenever the resulting year is not a century year that the Gregorian rule skips. *)
Theorem C03_calendar_agreement_partial : forall d n s d',
  valid_date julian_leap d -> toInt d = Ret s -> 0 <= s + n < total_days ->
  addDays d n = Ret d' -> julian_leap (year d') = gregorian_leap (year d') ->
  validateDate d' = Ret true.
Proof.
  intros d n s d' Hv Hs Hr Ha Hl.
  destruct (addDays_inv d n d' Hv Ha s Hs Hr) as ((Hy & Hm & Hd) & _).
  unfold validateDate. rewrite validate_in_range by assumption. rewrite <- Hl. f_equal. lia.
Qed.

Example C03_example : exists d',
  valid_date julian_leap (mkDate 2019 12 31) /\ addDays (mkDate 2019 12 31) 60 = Ret d' /\
  julian_leap (year d') = gregorian_leap (year d') /\ d' = mkDate 2020 2 29.
Proof. exists (mkDate 2020 2 29). repeat split; vm_compute; congruence. Qed.

(** The two calendars also disagree about the number of days between two dates: across 1900 the
    Date class counts one day more than the unix-seconds conversion. *)
Theorem C03_elapsed_days_refuted :
  exists a b na nb sa sb, validateDate a = Ret true /\ validateDate b = Ret true /\
    toInt a = Ret na /\ toInt b = Ret nb /\ dateToUnixSeconds a = Ret sa /\ dateToUnixSeconds b = Ret sb /\
    (nb - na) * 86400 <> sb - sa.
Proof.
  exists (mkDate 1900 1 1), (mkDate 1901 1 1). do 4 eexists.
  repeat split; [vm_compute; reflexivity..|]. vm_compute. discriminate.
Qed.

(** * C04: civil time and unix seconds *)

(** Every existing date-time has a unix time, in the representable window. *)
Theorem C04_to_unix_defined : forall d, valid_datetime d ->
  exists s, dateTimeToUnixSeconds d = Ret s /\ min_unix <= s <= max_unix.
Proof. exact unix_valid. Qed.

(** The epoch is 0 and every tick of a Gregorian clock adds one: the conversion counts exactly the
    Gregorian seconds. *)
Theorem C04_epoch : dateTimeToUnixSeconds kEpoch = Ret 0.
Proof. reflexivity. Qed.

Theorem C04_next_second : forall d s, valid_datetime d -> dateTimeToUnixSeconds d = Ret s -> s <> max_unix ->
  valid_datetime (next_second d) /\ dateTimeToUnixSeconds (next_second d) = Ret (s + 1).
Proof. exact unix_next_second. Qed.

(** Converting to seconds and back is the identity (the fraction of a second is dropped). *)
Theorem C04_round_trip : forall d s, valid_datetime d -> dateTimeToUnixSeconds d = Ret s ->
  unixSecondsToDateTime s = Ret (setMicro d 0).
Proof. exact unix_roundtrip. Qed.

(** Converting seconds always yields an existing date-time with that unix time; in particular the
    year loop terminates. *)
Theorem C04_from_unix_valid : forall s, min_unix <= s <= max_unix ->
  exists d, unixSecondsToDateTime s = Ret d /\ valid_datetime d /\ dmicro d = 0 /\
    dateTimeToUnixSeconds d = Ret s.
Proof. exact unixSecondsToDateTime_spec. Qed.

(** Outside the window the year loop can run forever: the last day of the year 32836. *)
Theorem C04_out_of_window_termination_refuted :
  exists s, max_unix < s <= int64_max /\ unixSecondsToDateTime s = Diverge /\
    forall fuel, yearLoop fuel 1970 (s / 86400) = Diverge.
Proof.
  exists 974068416000.
  split; [vm_compute; split; congruence|]. split; [vm_compute; reflexivity|].
  change (974068416000 / 86400) with 11273940.
  assert (Hstep : forall f y d y' d',
    ((d <? 0) || ((if isLeapYear y then 366 else 365) <=? d)) &&
    (y + Z.quot d 365 - b2z (Z.rem d 365 <? 0) =? y') &&
    (d - ((y' - y) * 365 + LEAPS_THRU_END_OF (y' - 1) - LEAPS_THRU_END_OF (y - 1)) =? d') = true ->
    yearLoop (S f) y d = yearLoop f y' d').
  { intros f y d y' d' H. cbn [yearLoop]. cbv zeta.
    apply andb_prop in H as [H Hd]. apply andb_prop in H as [Hc Hy].
    rewrite Hc. apply Z.eqb_eq in Hd, Hy. rewrite Hy, Hd. reflexivity. }
  assert (Hcyc : forall f, yearLoop f 32836 365 = Diverge /\ yearLoop f 32837 (-1) = Diverge).
  { induction f as [|f [IH1 IH2]]; [split; reflexivity|]. split.
    - rewrite (Hstep f 32836 365 32837 (-1) eq_refl). exact IH2.
    - rewrite (Hstep f 32837 (-1) 32836 365 eq_refl). exact IH1. }
  assert (Hmono : forall f g y d, (f <= g)%nat -> yearLoop g y d = Diverge -> yearLoop f y d = Diverge).
  { intros f g y d Hle Hg. destruct (yearLoop_ret f y d) as [? | [r Hr]]; [assumption|].
    rewrite (yearLoop_fuel f g y d r Hle Hr) in Hg. discriminate. }
  intros fuel. apply (Hmono fuel (S (S fuel))); [lia|].
  rewrite (Hstep _ 1970 11273940 32857 (-7306) eq_refl).
  rewrite (Hstep _ 32857 (-7306) 32836 365 eq_refl).
  apply Hcyc.
Qed.

Example C04_example : exists d s, valid_datetime d /\ dyear d = 1600 /\ dmonth d = 2 /\ dday d = 29 /\
  dateTimeToUnixSeconds d = Ret s /\ s < 0 /\
  next_second d = mkDT 1600 3 1 0 0 0 0 /\ unixSecondsToDateTime s = Ret d.
Proof.
  exists (mkDT 1600 2 29 23 59 59 0), (-11670912001).
  repeat split; vm_compute; congruence.
Qed.

(** * C05: time-zone shifts *)

(** A shift moves the instant by exactly [k] seconds and keeps the microseconds. *)
Theorem C05_shift_adds : forall d k s, valid_datetime d -> dateTimeToUnixSeconds d = Ret s ->
  min_unix <= s + k <= max_unix ->
  exists d', dateTimeShift d k = Ret d' /\ valid_datetime d' /\
    dateTimeToUnixSeconds d' = Ret (s + k) /\ dmicro d' = dmicro d.
Proof. exact dateTimeShift_spec. Qed.

(** Shifting back gives the original. *)
Theorem C05_shift_back : forall d k s d', valid_datetime d -> dateTimeToUnixSeconds d = Ret s ->
  min_unix <= s + k <= max_unix -> dateTimeShift d k = Ret d' -> dateTimeShift d' (- k) = Ret d.
Proof. exact dateTimeShift_inv. Qed.

(** To UTC and back, and from UTC and back. *)
Theorem C05_utc_round_trip : forall off d s d', valid_datetime d -> dateTimeToUnixSeconds d = Ret s ->
  (min_unix <= s - off <= max_unix -> dateTimeToUTC off d = Ret d' -> utcToDateTime off d' = Ret d) /\
  (min_unix <= s + off <= max_unix -> utcToDateTime off d = Ret d' -> dateTimeToUTC off d' = Ret d).
Proof.
  intros off d s d' Hv Hs. unfold dateTimeToUTC, utcToDateTime. split; intros Hr Hd.
  - replace off with (- - off) by lia. apply (dateTimeShift_inv d (- off) s d'); auto; lia.
  - apply (dateTimeShift_inv d off s d'); auto.
Qed.

(** Shifting a time of day is addition modulo one day, for every 32-bit offset. *)
Theorem C05_time_shift_mod_day : forall t k, valid_time t -> -2147483648 <= k <= 2147483648 ->
  exists t', timeShift t k = Ret t' /\ valid_time t' /\ tmicro t' = tmicro t /\
    second_of_day (thour t') (tminute t') (tsec t') =
    (second_of_day (thour t) (tminute t) (tsec t) + k) mod 86400.
Proof. exact timeShift_spec. Qed.

(** Hence a time of day shifted forth and back is unchanged. *)
Theorem C05_time_shift_back : forall t k t', valid_time t -> -2147483648 <= k <= 2147483648 ->
  timeShift t k = Ret t' -> timeShift t' (- k) = Ret t.
Proof.
  intros t k t' Hv Hk Ht.
  destruct (timeShift_spec t k Hv Hk) as (t1 & H1 & Hv1 & Hm1 & Hs1).
  rewrite Ht in H1. apply Ret_inj in H1. subst t1.
  destruct (timeShift_spec t' (- k) Hv1 ltac:(lia)) as (t2 & H2 & Hv2 & Hm2 & Hs2).
  rewrite H2. f_equal. rewrite Hs1, Zplus_mod_idemp_l in Hs2.
  replace (second_of_day (thour t) (tminute t) (tsec t) + k + - k)
    with (second_of_day (thour t) (tminute t) (tsec t)) in Hs2 by lia.
  destruct Hv as ((? & ? & ?) & ?), Hv2 as ((? & ? & ?) & ?).
  unfold second_of_day in Hs2. rewrite Z.mod_small in Hs2 by lia.
  destruct t, t2. cbn in *. f_equal; lia.
Qed.

(** UTC is behind the zone by its offset, for date-times and for times of day; and back. *)
Theorem C05_to_utc : forall off d t s, valid_datetime d -> valid_time t -> -2147483648 <= off <= 2147483647 ->
  dateTimeToUnixSeconds d = Ret s -> min_unix <= s - off <= max_unix ->
  (exists d', dateTimeToUTC off d = Ret d' /\ dateTimeToUnixSeconds d' = Ret (s - off) /\ utcToDateTime off d' = Ret d) /\
  exists t', timeToUTC off t = Ret t' /\ utcToTime off t' = Ret t /\
    second_of_day (thour t') (tminute t') (tsec t') = (second_of_day (thour t) (tminute t) (tsec t) - off) mod 86400.
Proof.
  intros off d t s Hd Ht Ho Hs Hr. split.
  - destruct (C05_shift_adds d (- off) s Hd Hs ltac:(lia)) as (d' & H1 & H2 & H3 & _). exists d'. unfold dateTimeToUTC. splits; [exact H1|rewrite H3; f_equal; lia|].
    apply (proj1 (C05_utc_round_trip off d s d' Hd Hs)); assumption.
  - destruct (C05_time_shift_mod_day t (- off) Ht ltac:(lia)) as (t' & H1 & H2 & H3 & H4). exists t'. unfold timeToUTC, utcToTime. splits; [exact H1| |rewrite H4; reflexivity].
    pose proof (C05_time_shift_back t (- off) t' Ht ltac:(lia) H1) as H5. rewrite Z.opp_involutive in H5. exact H5.
Qed.

(** Shifting a Date keeps only the date part: it moves by whole days, rounding down. *)
Theorem C05_date_shift_days : forall d k, valid_date gregorian_leap d -> k <> 0 ->
  forall s, dateToUnixSeconds d = Ret s -> min_unix <= s + k <= max_unix ->
  exists d' s', dateShift d k = Ret d' /\ valid_date gregorian_leap d' /\
    dateToUnixSeconds d' = Ret s' /\ s' = s + 86400 * (k / 86400).
Proof.
  intros d k Hv Hk s Hs Hr. rewrite (date_unix d Hv) in Hs. apply Ret_inj in Hs. subst s.
  destruct (dateShift_spec d k Hv Hk Hr) as (d' & Hd & Hv' & Hg).
  exists d', (86400 * gday d'). split; [assumption|]. split; [assumption|].
  split; [apply date_unix; assumption|]. lia.
Qed.

Example C05_example :
  valid_datetime (mkDT 2020 12 31 20 0 0 7) /\
  dateTimeShift (mkDT 2020 12 31 20 0 0 7) 28800 = Ret (mkDT 2021 1 1 4 0 0 7) /\
  dateTimeShift (mkDT 2021 1 1 4 0 0 7) (-28800) = Ret (mkDT 2020 12 31 20 0 0 7) /\
  timeShift (mkTime 1 0 0 5) (-7200) = Ret (mkTime 23 0 0 5) /\
  timeToUTC 7200 (mkTime 1 0 0 5) = Ret (mkTime 23 0 0 5).
Proof. repeat split; vm_compute; congruence. Qed.

(** * C06: local now *)

(** False of the code: the offset is subtracted where every other UTC-to-local conversion adds it. *)
Theorem C06_local_now_refuted :
  exists off secs ms utc loc, utcDateTime secs ms = Ret utc /\ localDateTime off secs ms = Ret loc /\
    utcToDateTime off utc <> Ret loc /\ dateTimeToUTC off loc <> Ret utc.
Proof.
  exists 28800, 1605499200, 0, (mkDT 2020 11 16 4 0 0 0), (mkDT 2020 11 15 20 0 0 0).
  repeat split; vm_compute; congruence.
Qed.

(** Exact extent: local now agrees with the conversion only for the offset 0 ... *)
Theorem C06_local_now_only_offset_zero : forall off secs ms utc,
  0 <= ms <= 999 ->
  min_unix <= secs <= max_unix -> min_unix <= secs - off <= max_unix -> min_unix <= secs + off <= max_unix ->
  utcDateTime secs ms = Ret utc ->
  (localDateTime off secs ms = utcToDateTime off utc <-> off = 0).
Proof.
  intros off secs ms utc Hms H0 H1 H2 Hu.
  unfold utcDateTime in Hu.
  destruct (unixSecondsToDateTime_spec secs H0) as (u & Eu & Vu & _ & Uu).
  rewrite Eu in Hu. cbn [obind] in Hu. apply Ret_inj in Hu. subst utc.
  unfold localDateTime. destruct (unixSecondsToDateTime_spec (secs - off) H1) as (l & El & Vl & _ & Ul).
  rewrite El. cbn [obind]. unfold utcToDateTime.
  destruct (dateTimeShift_spec (setMicro u (ms * 1000)) off secs) as (r & Er & Vr & Ur & Mr);
    [apply setMicro_valid; [assumption|lia]|exact Uu|lia|].
  rewrite Er. split.
  - intros Heq. apply Ret_inj in Heq. subst r. rewrite setMicro_unix, Ul in Ur. apply Ret_inj in Ur. lia.
  - intros ->. f_equal. apply (unix_inj _ _ (secs - 0)); auto.
    apply setMicro_valid; [assumption|lia].
Qed.

(** ... and in general it is the conversion for the opposite offset. *)
Theorem C06_local_now_is_opposite_offset_partial : forall off secs ms utc,
  0 <= ms <= 999 ->
  min_unix <= secs <= max_unix -> min_unix <= secs - off <= max_unix ->
  utcDateTime secs ms = Ret utc ->
  localDateTime off secs ms = utcToDateTime (- off) utc.
Proof.
  intros off secs ms utc Hms H0 H1 Hu.
  unfold utcDateTime in Hu.
  destruct (unixSecondsToDateTime_spec secs H0) as (u & Eu & Vu & _ & Uu).
  rewrite Eu in Hu. cbn [obind] in Hu. apply Ret_inj in Hu. subst utc.
  unfold localDateTime. destruct (unixSecondsToDateTime_spec (secs - off) H1) as (l & El & Vl & _ & Ul).
  rewrite El. cbn [obind]. unfold utcToDateTime.
  destruct (dateTimeShift_spec (setMicro u (ms * 1000)) (- off) secs) as (r & Er & Vr & Ur & Mr);
    [apply setMicro_valid; [assumption|lia]|exact Uu|lia|].
  rewrite Er. f_equal. apply (unix_inj _ _ (secs - off)); auto.
  apply setMicro_valid; [assumption|lia].
Qed.

(** The date, the time and the date-time told for one reading of the clock are those of one instant: in UTC the instant read, in local
    time the one shifted back by the offset; the milliseconds are kept. *)
Theorem C06_one_instant : forall off secs ms, 0 <= ms <= 999 -> min_unix <= secs <= max_unix -> min_unix <= secs - off <= max_unix ->
  exists u l, utcDateTime secs ms = Ret u /\ localDateTime off secs ms = Ret l /\
    valid_datetime u /\ dateTimeToUnixSeconds u = Ret secs /\ dmicro u = ms * 1000 /\
    valid_datetime l /\ dateTimeToUnixSeconds l = Ret (secs - off) /\ dmicro l = ms * 1000 /\
    utcDate secs = Ret (date_of u) /\ utcTime secs ms = Ret (mkTime (dhour u) (dminute u) (dsec u) (dmicro u)) /\
    localDate off secs = Ret (date_of l) /\ localTime off secs ms = Ret (mkTime (dhour l) (dminute l) (dsec l) (dmicro l)).
Proof.
  intros off secs ms Hms H0 H1.
  destruct (unixSecondsToDateTime_spec secs H0) as (u & Eu & Vu & _ & Uu).
  destruct (unixSecondsToDateTime_spec (secs - off) H1) as (l & El & Vl & _ & Ul).
  unfold utcDateTime, localDateTime, utcDate, utcTime, localDate, localTime, unixSecondsToDate, unixSecondsToTime. rewrite Eu, El. cbn [obind].
  exists (setMicro u (ms * 1000)), (setMicro l (ms * 1000)).
  splits; try reflexivity; try (rewrite setMicro_unix; assumption); apply setMicro_valid; auto; lia.
Qed.

(** * C07: date validation *)

(** False as stated: day 0 (and, for Date, negative days) are accepted. *)
Theorem C07_validate_exact_refuted :
  exists d, -32768 <= year d <= 32767 /\ 1 <= month d <= 12 /\
    validateDate d = Ret true /\ ~ valid_date gregorian_leap d.
Proof.
  exists (mkDate 2020 1 0). repeat split; try (vm_compute; congruence).
  intros (_ & _ & H). cbn in H. lia.
Qed.

(** Months outside 1..12 are not rejected but read outside the table. *)
Theorem C07_validate_month_out_of_range : forall d, month d < 1 \/ 12 < month d -> validateDate d = UB.
Proof. intros d H. apply validate_out_of_range. exact H. Qed.

(** Exact for every date with a month in 1..12 and a day of at least 1. *)
Theorem C07_validate_exact_partial : forall d,
  -32768 <= year d <= 32767 -> 1 <= month d <= 12 -> 1 <= day d ->
  exists b, validateDate d = Ret b /\ (b = true <-> valid_date gregorian_leap d).
Proof.
  intros d Hy Hm Hd. eexists. split; [apply validate_in_range; assumption|].
  unfold valid_date. lia.
Qed.

Example C07_example : validateDate (mkDate 2100 2 29) = Ret false /\ validateDate (mkDate 2000 2 29) = Ret true.
Proof. split; reflexivity. Qed.

Print Assumptions C03_calendar_agreement_partial.
Print Assumptions C04_next_second.
Print Assumptions C04_round_trip.
Print Assumptions C04_from_unix_valid.
Print Assumptions C04_out_of_window_termination_refuted.
Print Assumptions C05_shift_back.
Print Assumptions C05_to_utc.
Print Assumptions C05_time_shift_back.
Print Assumptions C05_date_shift_days.
Print Assumptions C06_one_instant.
Print Assumptions C06_local_now_only_offset_zero.
Print Assumptions C07_validate_exact_partial.
