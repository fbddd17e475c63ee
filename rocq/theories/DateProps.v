(** Properties C01 and C02: day arithmetic of [nebula::Date]. *)
From Verif Require Import Prelude DateModel DateSpec DateProofs.

(** C01: a valid date survives the trip through its day number. *)
Theorem C01_fromInt_toInt : forall d, valid_date julian_leap d ->
  exists n, toInt d = Ret n /\ 0 <= n < total_days /\ fromInt n = Ret d.
Proof.
  intros d Hv. destruct (toInt_range d Hv) as (n & Hn & Hr).
  exists n. split; [exact Hn|]. split; [exact Hr|]. exact (fromInt_toInt d n Hv Hn).
Qed.

(** C01: every day number in range denotes a valid date with that number. *)
Theorem C01_toInt_fromInt : forall n, 0 <= n < total_days ->
  exists d, fromInt n = Ret d /\ valid_date julian_leap d /\ toInt d = Ret n.
Proof. exact fromInt_spec. Qed.

(** C01: day numbers are ordered as dates are. *)
Theorem C01_toInt_monotone : forall a b na nb,
  valid_date julian_leap a -> valid_date julian_leap b ->
  toInt a = Ret na -> toInt b = Ret nb -> (na < nb <-> date_before a b).
Proof. exact toInt_iff_before. Qed.

(** C01: [operator<] decides that order. *)
Theorem C01_operator_lt : forall a b, dateLt a b = true <-> date_before a b.
Proof. exact dateLt_before. Qed.

(** C01: the numbering starts at 0 and advances by one per calendar day. *)
Theorem C01_toInt_first : toInt first_date = Ret 0.
Proof. reflexivity. Qed.

Theorem C01_toInt_next_day : forall d n, valid_date julian_leap d -> d <> last_date -> toInt d = Ret n ->
  toInt (next_day julian_leap d) = Ret (n + 1).
Proof. exact toInt_next_day. Qed.

Example C01_example_leap_day :
  valid_date julian_leap (mkDate 2020 2 29) /\ toInt (mkDate 2020 2 29) = Ret 12706376 /\
  fromInt 12706376 = Ret (mkDate 2020 2 29).
Proof. repeat split; vm_compute; congruence. Qed.

Example C01_example_negative_year :
  valid_date julian_leap (mkDate (-4) 12 31) /\
  toInt (mkDate (-4) 12 31) = Ret 11967416 /\ next_day julian_leap (mkDate (-4) 12 31) = mkDate (-3) 1 1 /\
  toInt (mkDate (-3) 1 1) = Ret 11967417.
Proof. repeat split; vm_compute; congruence. Qed.

(** C02: adding days that stay in range gives a valid date, [n] days later. *)
Theorem C02_add_days_valid : forall d n s,
  valid_date julian_leap d -> toInt d = Ret s -> 0 <= s + n < total_days ->
  exists d', addDays d n = Ret d' /\ valid_date julian_leap d' /\ toInt d' = Ret (s + n).
Proof. exact addDays_ok. Qed.

(** C02: adding [k] days walks the calendar [k] steps. *)
Theorem C02_add_days_walks_calendar : forall k d s,
  valid_date julian_leap d -> toInt d = Ret s -> s + Z.of_nat k < total_days ->
  addDays d (Z.of_nat k) = Ret (days_after julian_leap k d).
Proof. exact addDays_iter. Qed.

(** C02: one day is the calendar successor. *)
Theorem C02_add_one_day : forall d, valid_date julian_leap d -> d <> last_date ->
  addDays d 1 = Ret (next_day julian_leap d).
Proof.
  intros d Hv Hne. destruct (toInt_range d Hv) as (s & Hs & Hr).
  assert (s <> total_days - 1).
  { intros ->. apply Hne. apply (toInt_inj d last_date (total_days - 1)); auto.
    unfold valid_date, last_date; cbn; lia. }
  exact (addDays_iter 1 d s Hv Hs ltac:(lia)).
Qed.

(** C02: subtracting what was added gives the date back. *)
Theorem C02_add_then_sub : forall d n s d',
  valid_date julian_leap d -> toInt d = Ret s -> 0 <= s + n < total_days ->
  addDays d n = Ret d' -> subDays d' n = Ret d.
Proof.
  intros d n s d' Hv Hs Hr Ha.
  destruct (addDays_inv d n d' Hv Ha s Hs Hr) as (Hv' & Ht').
  rewrite subDays_addDays.
  destruct (toInt_range d Hv) as (s0 & Hs0 & Hr0). rewrite Hs in Hs0. injection Hs0 as <-.
  destruct (addDays_ok d' (- n) (s + n) Hv' Ht' ltac:(lia)) as (d'' & He & Hv'' & Ht'').
  rewrite He. f_equal. apply (toInt_inj d'' d s); auto.
  replace (s + n + - n) with s in Ht'' by lia. exact Ht''.
Qed.

(** C02: consecutive additions add up. *)
Theorem C02_add_add : forall d n m s d1,
  valid_date julian_leap d -> toInt d = Ret s ->
  0 <= s + n < total_days -> 0 <= s + n + m < total_days ->
  addDays d n = Ret d1 -> addDays d1 m = addDays d (n + m).
Proof.
  intros d n m s d1 Hv Hs Hr1 Hr2 Ha.
  destruct (addDays_inv d n d1 Hv Ha s Hs Hr1) as (Hv1 & Ht1).
  destruct (addDays_ok d1 m (s + n) Hv1 Ht1 ltac:(lia)) as (d2 & He2 & Hv2 & Ht2).
  destruct (addDays_ok d (n + m) s Hv Hs ltac:(lia)) as (d3 & He3 & Hv3 & Ht3).
  rewrite He2, He3. f_equal. apply (toInt_inj d2 d3 (s + n + m)); auto.
  replace (s + (n + m)) with (s + n + m) in Ht3 by lia. exact Ht3.
Qed.

(** Outside the representable range the result silently wraps to the other end of the range. *)
Theorem C02_wraps_at_end : addDays last_date 1 = Ret first_date /\ subDays first_date 1 = Ret last_date.
Proof. split; vm_compute; reflexivity. Qed.

Example C02_example :
  valid_date julian_leap (mkDate 1999 12 31) /\ toInt (mkDate 1999 12 31) = Ret 12699011 /\
  addDays (mkDate 1999 12 31) 60 = Ret (mkDate 2000 2 29) /\
  subDays (mkDate 2000 2 29) 60 = Ret (mkDate 1999 12 31) /\
  addDays (mkDate 2000 2 29) 366 = addDays (mkDate 1999 12 31) (60 + 366).
Proof. repeat split; vm_compute; congruence. Qed.

Print Assumptions C01_fromInt_toInt.
Print Assumptions C01_toInt_fromInt.
Print Assumptions C01_toInt_monotone.
Print Assumptions C01_toInt_next_day.
Print Assumptions C02_add_days_walks_calendar.
Print Assumptions C02_add_then_sub.
Print Assumptions C02_add_add.
