(** Shared definitions: machine-integer ranges and wraps, outcomes of C++ code. *)
From Coq Require Export ZArith List Bool Lia.
From Coq Require Export ZifyBool ZifyNat ZifyN.
Export ListNotations.
Open Scope Z_scope.

(** Let [lia] reason about [/], [mod], [Z.quot] and [Z.rem]. *)
Ltac Zify.zify_post_hook ::= Z.to_euclidean_division_equations.

(** Two's complement ranges. *)
Definition int8_min := -128.
Definition int8_max := 127.
Definition int16_min := -32768.
Definition int16_max := 32767.
Definition int32_min := -2147483648.
Definition int32_max := 2147483647.
Definition int64_min := -9223372036854775808.
Definition int64_max := 9223372036854775807.
Definition two64 := 18446744073709551616.

Definition in_int16 (z : Z) : bool := (int16_min <=? z) && (z <=? int16_max).
Definition in_int32 (z : Z) : bool := (int32_min <=? z) && (z <=? int32_max).
Definition in_int64 (z : Z) : bool := (int64_min <=? z) && (z <=? int64_max).

(** Conversion of an integer to a narrower signed type (modular, as all supported compilers do). *)
Definition wrap16 (z : Z) : Z := (z + 32768) mod 65536 - 32768.
Definition wrap8 (z : Z) : Z := (z + 128) mod 256 - 128.
Definition wrap32 (z : Z) : Z := (z + 2147483648) mod 4294967296 - 2147483648.
Definition wrap64 (z : Z) : Z := (z + 9223372036854775808) mod 18446744073709551616 - 9223372036854775808.
Definition u64 (z : Z) : Z := z mod 18446744073709551616.
Definition u32 (z : Z) : Z := z mod 4294967296.
Definition u16 (z : Z) : Z := z mod 65536.

(** Result of running a piece of C++ code.
    [Ret a]   : normal result
    [Fatal]   : a failed CHECK / LOG(FATAL) (process abort) or an uncaught exception
    [UB]      : undefined behaviour
    [Diverge] : the loop does not finish within the fuel given to the model *)
Inductive outcome (A : Type) : Type :=
| Ret (a : A)
| Fatal
| UB
| Diverge.
Arguments Ret {A} a.
Arguments Fatal {A}.
Arguments UB {A}.
Arguments Diverge {A}.

Definition obind {A B} (o : outcome A) (f : A -> outcome B) : outcome B :=
  match o with
  | Ret a => f a
  | Fatal => Fatal
  | UB => UB
  | Diverge => Diverge
  end.

Notation "'let*' x ':=' e 'in' k" := (obind e (fun x => k))
  (at level 61, x pattern, e at next level, right associativity).

Lemma Ret_inj {A} (a b : A) : Ret a = Ret b -> a = b.
Proof. congruence. Qed.

(** Keep arithmetic symbolic during simplification. *)
#[global] Arguments Z.add : simpl never.
#[global] Arguments Z.sub : simpl never.
#[global] Arguments Z.mul : simpl never.
#[global] Arguments Z.opp : simpl never.
#[global] Arguments Z.div : simpl never.
#[global] Arguments Z.modulo : simpl never.
#[global] Arguments Z.quot : simpl never.
#[global] Arguments Z.rem : simpl never.
#[global] Arguments Z.pow : simpl never.
#[global] Arguments Z.of_nat : simpl never.
#[global] Arguments Z.to_nat : simpl never.

(** Split conjunctions only. *)
Ltac splits := repeat match goal with |- _ /\ _ => split end.
