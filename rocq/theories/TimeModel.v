(** Model of civil time conversion and date validation.
    /repo/src/common/time/TimeConversion.{h,cpp}, /repo/src/common/time/TimeUtils.h,
    /repo/src/common/datatypes/Date.h *)
From Verif Require Import Prelude DateModel.

(** struct DateTime, Date.h:131-149. Bit fields: year is a signed 16-bit field, the others are
    unsigned fields of 4, 5, 5, 6, 6 and 22 bits. *)
Record datetime := mkDT {
  dyear : Z; dmonth : Z; dday : Z; dhour : Z; dminute : Z; dsec : Z; dmicro : Z }.

(** struct Time, Date.h:80-88. *)
Record time := mkTime { thour : Z; tminute : Z; tsec : Z; tmicro : Z }.

(** DateTime(const Date&), Date.h:165-173: the signed 8-bit month and day are stored into
    unsigned bit fields. *)
Definition dateTimeOfDate (d : date) : datetime :=
  mkDT (year d) (month d mod 16) (day d mod 32) 0 0 0 0.

(** TimeConversion::isLeapYear(int16_t), TimeConversion.h:86-96. The argument is converted to
    int16_t at every call. *)
Definition isLeapYear (y : Z) : bool :=
  let y := wrap16 y in
  if negb (Z.rem y 4 =? 0) then false
  else if negb (Z.rem y 100 =? 0) then true
  else if negb (Z.rem y 400 =? 0) then false
  else true.

Definition daysSoFar (y : Z) : list Z := if isLeapYear y then kLeapDaysSoFar else kDaysSoFar.

Definition kSecondsOfMinute := 60.
Definition kSecondsOfHour := 3600.
Definition kSecondsOfDay := 86400.

(** TimeConversion::shr, TimeConversion.h:113-116, on a platform with arithmetic right shift. *)
Definition shr (a b : Z) : Z := Z.shiftr a b.

Definition b2z (b : bool) : Z := if b then 1 else 0.

(** TimeConversion::dateTimeDiffSeconds, TimeConversion.cpp:14-44. All quantities are below 2^41,
    hence exact; the table reads are undefined for a month outside 1..13. *)
Definition dateTimeDiffSeconds (d0 d1 : datetime) : outcome Z :=
  let a4 := shr (dyear d0) 2 + shr 0 2 - b2z (Z.land (dyear d0) 3 =? 0) in
  let b4 := shr (dyear d1) 2 + shr 0 2 - b2z (Z.land (dyear d1) 3 =? 0) in
  let a100 := Z.quot (a4 + b2z (a4 <? 0)) 25 - b2z (a4 <? 0) in
  let b100 := Z.quot (b4 + b2z (b4 <? 0)) 25 - b2z (b4 <? 0) in
  let a400 := shr a100 2 in
  let b400 := shr b100 2 in
  let intervening_leap_days := (a4 - b4) - (a100 - b100) + (a400 - b400) in
  let years := dyear d0 - dyear d1 in
  let* m0 := arr (daysSoFar (dyear d0)) (dmonth d0 - 1) in
  let* m1 := arr (daysSoFar (dyear d1)) (dmonth d1 - 1) in
  let days := 365 * years + m0 - m1 + dday d0 - dday d1 + intervening_leap_days in
  let hours := 24 * days + dhour d0 - dhour d1 in
  let minutes := 60 * hours + dminute d0 - dminute d1 in
  Ret (60 * minutes + dsec d0 - dsec d1).

(** TimeConversion::kEpoch, TimeConversion.cpp:12 *)
Definition kEpoch : datetime := mkDT 1970 1 1 0 0 0 0.

(** TimeConversion::dateTimeToUnixSeconds, TimeConversion.h:24-26 *)
Definition dateTimeToUnixSeconds (d : datetime) : outcome Z := dateTimeDiffSeconds d kEpoch.

(** Macro DIV, TimeConversion.cpp:65 *)
Definition DIV (a b : Z) : Z := Z.quot a b - b2z (Z.rem a b <? 0).
(** Macro LEAPS_THRU_END_OF, TimeConversion.cpp:66 *)
Definition LEAPS_THRU_END_OF (y : Z) : Z := DIV y 4 - DIV y 100 + DIV y 400.

(** The year loop, TimeConversion.cpp:68-76; [y] and [days] are int64_t and stay below 2^48.
    The loop need not terminate, hence the explicit fuel. *)
Fixpoint yearLoop (fuel : nat) (y days : Z) : outcome (Z * Z) :=
  match fuel with
  | O => Diverge
  | S f =>
      if (days <? 0) || ((if isLeapYear y then 366 else 365) <=? days) then
        let yg := y + Z.quot days 365 - b2z (Z.rem days 365 <? 0) in
        let days' := days - ((yg - y) * 365 + LEAPS_THRU_END_OF (yg - 1) - LEAPS_THRU_END_OF (y - 1)) in
        yearLoop f yg days'
      else Ret (y, days)
  end.

(** The month search, TimeConversion.cpp:82-84, counting down from 11. *)
Fixpoint monthLoop (fuel : nat) (ip : list Z) (days y : Z) : outcome Z :=
  match fuel with
  | O => Diverge
  | S f =>
      let* b := arr ip y in
      if days <? b then monthLoop f ip days (y - 1) else Ret y
  end.

(** Fuel for [yearLoop]: 64 iterations (at most 10 are ever needed when the loop terminates for
    an instant whose year fits int16_t; see TimeProofs). *)
Definition yearFuel : nat := 64%nat.

(** TimeConversion::unixSecondsToDateTime, TimeConversion.cpp:46-91.
    Simplified: the two adjustment loops of lines 53-60 run at most once and never, respectively,
    because [%] yields a remainder between -86399 and 86399; they are written as one [if]. *)
Definition unixSecondsToDateTime (seconds : Z) : outcome datetime :=
  let days := Z.quot seconds kSecondsOfDay in
  let rem := Z.rem seconds kSecondsOfDay in
  let '(rem, days) := if rem <? 0 then (rem + kSecondsOfDay, days - 1) else (rem, days) in
  let hour := Z.quot rem kSecondsOfHour in
  let rem := Z.rem rem kSecondsOfHour in
  let minute := Z.quot rem kSecondsOfMinute in
  let sec := Z.rem rem kSecondsOfMinute in
  let* yd := yearLoop yearFuel 1970 days in
  let '(y, days) := yd in
  let ip := daysSoFar y in
  let* mi := monthLoop 13 ip days 11 in
  let* b := arr ip mi in
  Ret (mkDT (wrap16 y) ((mi + 1) mod 16) ((days - b + 1) mod 32)
            (hour mod 32) (minute mod 64) (sec mod 64) 0).

Definition setMicro (d : datetime) (us : Z) : datetime :=
  mkDT (dyear d) (dmonth d) (dday d) (dhour d) (dminute d) (dsec d) us.

(** int64_t addition; signed overflow is undefined. *)
Definition addI64 (a b : Z) : outcome Z := if in_int64 (a + b) then Ret (a + b) else UB.

(** TimeConversion::dateTimeShift, TimeConversion.h:31-38 *)
Definition dateTimeShift (d : datetime) (off : Z) : outcome datetime :=
  if off =? 0 then Ret d
  else
    let* s := dateTimeToUnixSeconds d in
    let* s' := addI64 s off in
    let* r := unixSecondsToDateTime s' in
    Ret (setMicro r (dmicro d)).

(** TimeConversion::dateToUnixSeconds, TimeConversion.h:41-43 *)
Definition dateToUnixSeconds (d : date) : outcome Z := dateTimeDiffSeconds (dateTimeOfDate d) kEpoch.

(** TimeConversion::unixSecondsToDate, TimeConversion.h:45-48 *)
Definition unixSecondsToDate (s : Z) : outcome date :=
  let* r := unixSecondsToDateTime s in Ret (mkDate (dyear r) (dmonth r) (dday r)).

(** TimeConversion::dateShift, TimeConversion.h:51-56 *)
Definition dateShift (d : date) (off : Z) : outcome date :=
  if off =? 0 then Ret d
  else
    let* s := dateToUnixSeconds d in
    let* s' := addI64 s off in
    unixSecondsToDate s'.

(** TimeConversion::timeToSeconds, TimeConversion.h:59-64 *)
Definition timeToSeconds (t : time) : Z :=
  tsec t + tminute t * kSecondsOfMinute + thour t * kSecondsOfHour.

(** TimeConversion::unixSecondsToTime, TimeConversion.h:66-73 *)
Definition unixSecondsToTime (s : Z) : outcome time :=
  let* r := unixSecondsToDateTime s in Ret (mkTime (dhour r) (dminute r) (dsec r) 0).

(** TimeConversion::timeShift, TimeConversion.h:76-83 *)
Definition timeShift (t : time) (off : Z) : outcome time :=
  if off =? 0 then Ret t
  else
    let* s' := addI64 (timeToSeconds t) off in
    let* r := unixSecondsToTime s' in
    Ret (mkTime (thour r) (tminute r) (tsec r) (tmicro t)).

(** TimeUtils, TimeUtils.h:78-101, 194-216. The configured zone offset ([utcOffsetSecs], an
    int32_t) and the clock reading (seconds, milliseconds) are parameters. *)
Definition dateTimeToUTC (off : Z) (d : datetime) := dateTimeShift d (- off).
Definition utcToDateTime (off : Z) (d : datetime) := dateTimeShift d off.
Definition localDateTime (off secs ms : Z) : outcome datetime :=
  let* r := unixSecondsToDateTime (secs - off) in Ret (setMicro r (ms * 1000)).
Definition utcDateTime (secs ms : Z) : outcome datetime :=
  let* r := unixSecondsToDateTime secs in Ret (setMicro r (ms * 1000)).
Definition timeToUTC (off : Z) (t : time) := timeShift t (- off).
Definition utcToTime (off : Z) (t : time) := timeShift t off.
Definition localTime (off secs ms : Z) : outcome time :=
  let* r := unixSecondsToTime (secs - off) in
  Ret (mkTime (thour r) (tminute r) (tsec r) (ms * 1000)).
Definition utcTime (secs ms : Z) : outcome time :=
  let* r := unixSecondsToTime secs in
  Ret (mkTime (thour r) (tminute r) (tsec r) (ms * 1000)).
(** TimeUtils::localDate / utcDate, TimeUtils.h:142-159 (the branch where the clock works). *)
Definition localDate (off secs : Z) : outcome date := unixSecondsToDate (secs - off).
Definition utcDate (secs : Z) : outcome date := unixSecondsToDate secs.

(** TimeUtils::validateDate, TimeUtils.h:43-49; true = Status::OK. *)
Definition validateYMD (y m d : Z) : outcome bool :=
  let p := daysSoFar y in
  let* hi := arr p m in
  let* lo := arr p (m - 1) in
  Ret (negb (hi - lo <? d)).
Definition validateDate (d : date) : outcome bool := validateYMD (year d) (month d) (day d).
Definition validateDateTime (d : datetime) : outcome bool := validateYMD (dyear d) (dmonth d) (dday d).
