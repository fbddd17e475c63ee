(** Model of [nebula::Date] day arithmetic.
    /repo/src/common/datatypes/Date.h, Date.cpp *)
From Verif Require Import Prelude.

(** struct Date, Date.h:20-26. [year] is int16_t, [month] and [day] are int8_t. *)
Record date := mkDate { year : Z; month : Z; day : Z }.

(** Date.cpp:16 *)
Definition kDaysSoFar : list Z :=
  [0; 31; 59; 90; 120; 151; 181; 212; 243; 273; 304; 334; 365].
(** Date.cpp:17 *)
Definition kLeapDaysSoFar : list Z :=
  [0; 31; 60; 91; 121; 152; 182; 213; 244; 274; 305; 335; 366].

(** Array read; an index outside the array is undefined behaviour. *)
Definition arr (t : list Z) (i : Z) : outcome Z :=
  if i <? 0 then UB
  else match nth_error t (Z.to_nat i) with Some x => Ret x | None => UB end.

(** Date::toInt, Date.cpp:23-45. All intermediate values are far below 2^63 because year is int16_t,
    so plain [Z] arithmetic is exact. C++ [/] and [%] are [Z.quot] and [Z.rem]. *)
Definition toInt (d : date) : outcome Z :=
  let yearsPassed := year d + 32768 in
  let days := yearsPassed * 365 in
  let days := if 0 <? yearsPassed then days + (Z.quot (yearsPassed - 1) 4 + 1) else days in
  let* m := (if Z.rem yearsPassed 4 =? 0
             then arr kLeapDaysSoFar (month d - 1)
             else arr kDaysSoFar (month d - 1)) in
  Ret (days + m + day d - 1).

(** The year adjustment loop of Date::fromInt, Date.cpp:59-67. State: (year, daysInYear).
    [year] is an int16_t field, so the decrement wraps. *)
Fixpoint adjustYear (fuel : nat) (y diy : Z) : outcome (Z * Z) :=
  match fuel with
  | O => Diverge
  | S f =>
      if diy <=? 0 then
        let y' := wrap16 (y - 1) in
        adjustYear f y' (if Z.rem y' 4 =? 0 then diy + 366 else diy + 365)
      else Ret (y, diy)
  end.

(** The month search of Date::fromInt, Date.cpp:70-85; [month] and [day] are int8_t fields. *)
Fixpoint findMonth (fuel : nat) (y diy m : Z) : outcome (Z * Z) :=
  match fuel with
  | O => Diverge
  | S f =>
      let t := if Z.rem y 4 =? 0 then kLeapDaysSoFar else kDaysSoFar in
      let* upto := arr t m in
      if diy <=? upto then
        let* before := arr t (m - 1) in
        Ret (m, wrap8 (diy - before))
      else findMonth f y diy (wrap8 (m + 1))
  end.

(** Date::fromInt, Date.cpp:47-86. [days + 1] overflows for INT64_MAX (undefined).
    The fuel of the first loop is [(1 - daysInYear) / 365 + 2] (at least as many iterations as the loop can take),
    the fuel of the second is 13 (one more than the number of months). *)
Definition fromInt (days : Z) : outcome date :=
  if days =? int64_max then UB
  else
    let yearsPassed := Z.quot (days + 1) 365 in
    let y := wrap16 (yearsPassed - 32768) in
    let diy := Z.rem (days + 1) 365 in
    let diy := if 0 <? yearsPassed then diy - (Z.quot (yearsPassed - 1) 4 + 1) else diy in
    let* st := adjustYear (S (S (Z.to_nat (Z.quot (1 - diy) 365)))) y diy in
    let (y, diy) := st in
    let* md := findMonth 13 y diy 1 in
    Ret (mkDate y (fst md) (snd md)).

(** Date::operator+(int64_t), Date.cpp:88-91 (signed overflow of the sum is undefined;
    the round trip through the uint64_t constructor parameter, Date.h:28, is the identity mod 2^64). *)
Definition addDays (d : date) (n : Z) : outcome date :=
  let* s := toInt d in
  if in_int64 (s + n) then fromInt (s + n) else UB.

(** Date::operator-(int64_t), Date.cpp:93-96 *)
Definition subDays (d : date) (n : Z) : outcome date :=
  let* s := toInt d in
  if in_int64 (s - n) then fromInt (s - n) else UB.

(** Date::operator==, Date.h:46-50 *)
Definition dateEq (a b : date) : bool :=
  (year a =? year b) && (month a =? month b) && (day a =? day b).

(** Date::operator<, Date.h:52-63 *)
Definition dateLt (a b : date) : bool :=
  if negb (year a =? year b) then year a <? year b
  else if negb (month a =? month b) then month a <? month b
  else if negb (day a =? day b) then day a <? day b
  else false.
