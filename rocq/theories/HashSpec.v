(** Reference MurmurHash64A, stated over the little-endian number that the message denotes. *)
From Verif Require Import Prelude.

(** The number whose base-256 digits are the bytes, least significant first. *)
Fixpoint le_num (bytes : list Z) : Z :=
  match bytes with [] => 0 | b :: bs => b + 256 * le_num bs end.

Definition W : Z := 2 ^ 64.
Definition M : Z := 14313749767032793493.
Definition SEED : Z := 3339675911.
Definition xorshift47 (x : Z) : Z := Z.lxor x (x / 2 ^ 47).

(** Mixing one 64-bit word into the state. *)
Definition absorb (h w : Z) : Z := Z.lxor h (xorshift47 (w * M mod W) * M mod W) * M mod W.

(** [N] is the number of the remaining message of [8*k + t] bytes. *)
Fixpoint absorb_all (k : nat) (N h : Z) : Z * Z :=
  match k with
  | O => (h, N)
  | S k' => absorb_all k' (N / W) (absorb h (N mod W))
  end.

Definition murmur64A (bytes : list Z) : Z :=
  let n := length bytes in
  let h0 := Z.lxor SEED (Z.of_nat n * M mod W) in
  let '(h, rest) := absorb_all (n / 8) (le_num bytes) h0 in
  let h := if Nat.eqb (n mod 8) 0 then h else Z.lxor h rest * M mod W in
  xorshift47 (xorshift47 h * M mod W).

Definition bytes_ok (l : list Z) : Prop := Forall (fun b => 0 <= b < 256) l.

(** The part of a string a C-string reader sees. *)
Fixpoint before_nul (l : list Z) : list Z :=
  match l with [] => [] | b :: l' => if Z.eqb b 0 then [] else b :: before_nul l' end.
