(** Model of the fast clock (/repo/src/common/time/detail/TscHelper.{h,cpp}), the wall clock (/repo/src/common/time/WallClock.cpp) and
    SlowOpTracker (/repo/src/common/base/SlowOpTracker.h). Reading the counter and the clocks of the system are inputs. *)
From Coq Require Import ZArith Bool.
From Verif Require Import Prelude ValueBase DurationModel.
Local Open Scope Z_scope.

(** ** TscHelper *)
(** The factors, TscHelper.h 40-42; firstTick_ and startRealTime_ are set once, 37-38 *)
Record tsc := mkTsc { tFirst : Z; tStart : timespec; tSec : f64; tMSec : f64; tUSec : f64 }.
(** a double converted to uint64_t: what is outside is undefined behaviour *)
Definition f64toU64 (f : f64) : outcome Z :=
  match f64trunc f with Some z => if (0 <=? z) && (z <? 18446744073709551616) then Ret z else UB | None => UB end.
(** the factors for a number of ticks in a microsecond, the last three lines of calibrate. They are atomics written one after the other: a reader
    uses only one of them *)
Definition withRate (first : Z) (start : timespec) (perUSec : Z) : tsc :=
  let r := f64div (f64ofZ 1) (f64ofZ perUSec) in
  mkTsc first start (f64div r (f64ofZ 1000000)) (f64div r (f64ofZ 1000)) r.
(** calibrate, TscHelper.cpp 60-69: [tick] is the counter, [us] the microseconds of the steady clock since the start; uint64_t / int64_t is
    unsigned, and a division by 0 is undefined behaviour *)
Definition ticksPerUSec (first tick us : Z) : Z := u64 (tick - first) / u64 us.
Definition calibrate (first : Z) (start : timespec) (tick us : Z) : outcome tsc :=
  if u64 us =? 0 then UB else Ret (withRate first start (ticksPerUSec first tick us)).
(** ticksToDurationInSec, InMSec, InUSec, 72-84: the first two round, the last one cuts *)
Definition half : f64 := f64div (f64ofZ 1) (f64ofZ 2).
Definition durSec (c : tsc) (ticks : Z) : outcome Z := f64toU64 (f64add (f64mul (f64ofZ ticks) (tSec c)) half).
Definition durMSec (c : tsc) (ticks : Z) : outcome Z := f64toU64 (f64add (f64mul (f64ofZ ticks) (tMSec c)) half).
Definition durUSec (c : tsc) (ticks : Z) : outcome Z := f64toU64 (f64mul (f64ofZ ticks) (tUSec c)).
(** tickToTimePointInSec, InMSec, InUSec, 87-104; int64_t + uint64_t is unsigned *)
Definition pointSec (c : tsc) (tick : Z) : outcome Z := let* d := durSec c (u64 (tick - tFirst c)) in Ret (u64 (tvSec (tStart c) + d)).
Definition pointMSec (c : tsc) (tick : Z) : outcome Z :=
  let* d := durMSec c (u64 (tick - tFirst c)) in Ret (u64 (tvSec (tStart c) * 1000 + tvNsec (tStart c) / 1000000 + d)).
Definition pointUSec (c : tsc) (tick : Z) : outcome Z :=
  let* d := durUSec c (u64 (tick - tFirst c)) in Ret (u64 (tvSec (tStart c) * 1000000 + tvNsec (tStart c) / 1000 + d)).

(** ** Duration, with the conversion: elapsedInSec, InMSec, InUSec, Duration.cpp 47-65 *)
Definition elapsedSec (c : tsc) (d : dur) (now : Z) : outcome Z := durSec c (elapsedTicks d now).
Definition elapsedMSec (c : tsc) (d : dur) (now : Z) : outcome Z := durMSec c (elapsedTicks d now).
Definition elapsedUSec (c : tsc) (d : dur) (now : Z) : outcome Z := durUSec c (elapsedTicks d now).

(** ** WallClock *)
(** slowNowInSec, slowNowInMilliSec, slowNowInMicroSec, WallClock.cpp 14-32: [ts] is what clock_gettime fills in; int64_t *)
Definition slowSec (ts : timespec) : Z := tvSec ts.
Definition slowMSec (ts : timespec) : Z := wrap64 (tvSec ts * 1000 + tvNsec ts / 1000000).
Definition slowUSec (ts : timespec) : Z := wrap64 (tvSec ts * 1000000 + tvNsec ts / 1000).
(** fastNowInSec, fastNowInMilliSec, fastNowInMicroSec, 36-48 (on x86_64): the unsigned number becomes int64_t *)
Definition fastSec (c : tsc) (tick : Z) : outcome Z := let* p := pointSec c tick in Ret (wrap64 p).
Definition fastMSec (c : tsc) (tick : Z) : outcome Z := let* p := pointMSec c tick in Ret (wrap64 p).
Definition fastUSec (c : tsc) (tick : Z) : outcome Z := let* p := pointUSec c tick in Ret (wrap64 p).

(** ** SlowOpTracker, SlowOpTracker.h 17-39 *)
Record tracker := mkTr { trStart : Z; trDur : Z }.
Definition newTracker (nowMs : Z) : tracker := mkTr nowMs 0.
(** slow, 24-30: [flag] is FLAGS_slow_op_threshhold_ms. A difference that is no int64_t is undefined behaviour *)
Definition slow (flag nowMs threshold : Z) (t : tracker) : outcome (bool * tracker) :=
  let d := nowMs - trStart t in
  if negb (in_int64 d) then UB
  else let d := if d <? 0 then 0 else d in Ret (if 0 <? threshold then threshold <? d else flag <? d, mkTr (trStart t) d).
