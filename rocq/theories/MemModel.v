(** MemInfo: base/Memory.h 20-50, Memory.cpp 15-31. *)
From Coq Require Import Floats.SpecFloat.
From Verif Require Import Prelude ValueBase.
Local Open Scope Z_scope.

(** what sysinfo(2) fills in: totalram, freeram, bufferram are unsigned long (64 bits), mem_unit is unsigned int *)
Record sysInfo := mkSys { siTotal : Z; siFree : Z; siBuffer : Z; siUnit : Z }.
(** MemInfo::make and init, Memory.cpp 15-31: the result of sysinfo, or errno *)
Definition makeMem (r : sysInfo + Z) : option sysInfo := match r with inl i => Some i | inr _ => None end.

(** totalInKB, freeInKB, bufferInKB, Memory.h 24-34 *)
Definition inKB (ram unit : Z) : Z := u64 (ram * unit) / 1024.
Definition totalInKB (i : sysInfo) : Z := inKB (siTotal i) (siUnit i).
Definition freeInKB (i : sysInfo) : Z := inKB (siFree i) (siUnit i).
Definition bufferInKB (i : sysInfo) : Z := inKB (siBuffer i) (siUnit i).
(** usedInKB, 36-38 *)
Definition usedInKB (i : sysInfo) : Z := u64 (totalInKB i - freeInKB i - bufferInKB i).

(** float: IEEE 754 single precision *)
Notation f32 := spec_float.
Definition f32mul : f32 -> f32 -> f32 := SFmul 24 128.
(** an unsigned integer as a float: to the nearest, ties to even *)
Definition f32ofZ (z : Z) : f32 := binary_normalize 24 128 z 0 false.
(** 0.8f *)
Definition eightTenths : f32 := S754_finite false 13421773 (-24).
(** hitsHighWatermark, 40-42: both sides of the comparison are floats *)
Definition hitsHighWatermark (i : sysInfo) (ratio : f32) : bool :=
  SFltb (f32mul (f32ofZ (totalInKB i)) ratio) (f32ofZ (usedInKB i)).
Example eightTenths_is : SFdiv 24 128 (f32ofZ 8) (f32ofZ 10) = eightTenths.
Proof. reflexivity. Qed.
