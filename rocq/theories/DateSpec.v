(** Independent specification of the proleptic calendar used by the Date class
    (every fourth year is a leap year) and of the Gregorian calendar. *)
From Verif Require Import Prelude DateModel.

(** Leap rule of the Date class: every fourth year. *)
Definition julian_leap (y : Z) : bool := y mod 4 =? 0.

(** Gregorian leap rule. *)
Definition gregorian_leap (y : Z) : bool :=
  (y mod 4 =? 0) && (negb (y mod 100 =? 0) || (y mod 400 =? 0)).

(** Length of a month, given whether the year is a leap year. *)
Definition month_len (leap : bool) (m : Z) : Z :=
  match m with
  | 2 => if leap then 29 else 28
  | 4 | 6 | 9 | 11 => 30
  | _ => 31
  end.

(** A date that exists in the calendar with the given leap rule and fits the int16_t year. *)
Definition valid_date (leap : Z -> bool) (d : date) : Prop :=
  -32768 <= year d <= 32767 /\
  1 <= month d <= 12 /\
  1 <= day d <= month_len (leap (year d)) (month d).

(** Lexicographic order on (year, month, day). *)
Definition date_before (a b : date) : Prop :=
  year a < year b \/
  (year a = year b /\ (month a < month b \/ (month a = month b /\ day a < day b))).

(** The calendar day after [d]. *)
Definition next_day (leap : Z -> bool) (d : date) : date :=
  if day d <? month_len (leap (year d)) (month d)
  then mkDate (year d) (month d) (day d + 1)
  else if month d <? 12
  then mkDate (year d) (month d + 1) 1
  else mkDate (year d + 1) 1 1.

(** [k] days after [d], one calendar step at a time. *)
Fixpoint days_after (leap : Z -> bool) (k : nat) (d : date) : date :=
  match k with
  | O => d
  | S k' => next_day leap (days_after leap k' d)
  end.

Definition first_date : date := mkDate (-32768) 1 1.
Definition last_date : date := mkDate 32767 12 31.

(** Number of days in the representable range: 65536 years, every fourth one leap. *)
Definition total_days : Z := 65536 * 365 + 16384.
