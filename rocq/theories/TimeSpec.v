(** Independent specification of Gregorian civil time, second by second. *)
From Verif Require Import Prelude DateModel DateSpec TimeModel.

Definition valid_time_of_day (h m s : Z) : Prop := 0 <= h <= 23 /\ 0 <= m <= 59 /\ 0 <= s <= 59.

Definition date_of (d : datetime) : date := mkDate (dyear d) (dmonth d) (dday d).

(** An existing Gregorian civil date-time whose year fits int16_t. *)
Definition valid_datetime (d : datetime) : Prop :=
  valid_date gregorian_leap (date_of d) /\
  valid_time_of_day (dhour d) (dminute d) (dsec d) /\ 0 <= dmicro d <= 999999.

Definition valid_time (t : time) : Prop :=
  valid_time_of_day (thour t) (tminute t) (tsec t) /\ 0 <= tmicro t <= 999999.

(** The next second on a Gregorian calendar clock (no leap seconds); microseconds unchanged. *)
Definition next_second (d : datetime) : datetime :=
  if dsec d <? 59 then mkDT (dyear d) (dmonth d) (dday d) (dhour d) (dminute d) (dsec d + 1) (dmicro d)
  else if dminute d <? 59 then mkDT (dyear d) (dmonth d) (dday d) (dhour d) (dminute d + 1) 0 (dmicro d)
  else if dhour d <? 23 then mkDT (dyear d) (dmonth d) (dday d) (dhour d + 1) 0 0 (dmicro d)
  else let n := next_day gregorian_leap (date_of d) in
       mkDT (year n) (month n) (day n) 0 0 0 (dmicro d).

Definition first_second : datetime := mkDT (-32768) 1 1 0 0 0 0.
Definition last_second : datetime := mkDT 32767 12 31 23 59 59 0.

(** Unix times of the first and last representable second. *)
Definition min_unix : Z := -1096225401600.
Definition max_unix : Z := 971890963199.

(** Second of the day. *)
Definition second_of_day (h m s : Z) : Z := h * 3600 + m * 60 + s.
