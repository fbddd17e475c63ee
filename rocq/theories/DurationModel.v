(** Model of the stopwatch nebula::time::Duration. *)
From Coq Require Import List.
From Verif Require Import Prelude.
Import ListNotations.
Open Scope Z_scope.

(** The members of Duration on x86_64, Duration.h:36-40; ticks are uint64_t *)
Record dur := mkDur { paused : bool; accumulated : Z; startTick : Z }.

Inductive dop := DReset (paused : bool) | DPause | DResume.
(** reset, pause, resume, Duration.cpp:16-44; [now] is what readTsc returns *)
Definition dreset (p : bool) (now : Z) : dur := mkDur p 0 (if p then 0 else now).
Definition dstep (d : dur) (o : dop) (now : Z) : dur :=
  match o with
  | DReset p => dreset p now
  | DPause => if paused d then d else mkDur true (u64 (accumulated d + u64 (now - startTick d))) 0
  | DResume => if paused d then mkDur false (accumulated d) now else d
  end.
(** the number of ticks elapsedInSec, elapsedInMSec and elapsedInUSec convert, 47-65. The conversion multiplies
    by a calibrated floating point factor (TscHelper.cpp) and is not modelled. *)
Definition elapsedTicks (d : dur) (now : Z) : Z :=
  if paused d then accumulated d else u64 (u64 (now - startTick d) + accumulated d).
(** A stopwatch constructed at [t0] (Duration.h:17-19), then the calls made at the given times *)
Definition drun (p : bool) (t0 : Z) (ops : list (dop * Z)) : dur := fold_left (fun d e => dstep d (fst e) (snd e)) ops (dreset p t0).

(** * The other architectures, Duration.cpp:66-140: times are struct timespec *)
Record timespec := mkTs { tvSec : Z; tvNsec : Z }.
Record durN := mkDurN { pausedN : bool; accN : Z; startN : timespec }.
(** nanoDiff, 74-86; int64 arithmetic, the result converted to uint64 *)
Definition nanoDiff (start stop : timespec) : Z :=
  let '(es, en) := if tvNsec stop <? tvNsec start then (tvSec stop - 1, tvNsec stop + 1000000000) else (tvSec stop, tvNsec stop) in
  u64 ((es - tvSec start) * 1000000000 + (en - tvNsec start)).
Definition dresetN (p : bool) (now : timespec) : durN := mkDurN p 0 (if p then mkTs 0 0 else now).
Definition dstepN (d : durN) (o : dop) (now : timespec) : durN :=
  match o with
  | DReset p => dresetN p now
  | DPause => if pausedN d then d else mkDurN true (u64 (accN d + nanoDiff (startN d) now)) (mkTs 0 0)
  | DResume => if pausedN d then mkDurN false (accN d) now else d
  end.
(** elapsedInSec, elapsedInMSec, elapsedInUSec, 119-140: [per] is the number of nanoseconds in the unit *)
Definition elapsedN (d : durN) (now : timespec) (per : Z) : Z :=
  (if pausedN d then accN d else u64 (nanoDiff (startN d) now + accN d)) / per.
Definition drunN (p : bool) (t0 : timespec) (ops : list (dop * timespec)) : durN :=
  fold_left (fun d e => dstepN d (fst e) (snd e)) ops (dresetN p t0).
