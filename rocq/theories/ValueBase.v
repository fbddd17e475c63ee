(** Bytes, decimal text and double precision numbers used by the Value model.
    Doubles are the [spec_float] of the Coq standard library with 53 bits of precision and exponent
    bound 1024, rounding to nearest even (the C++ default on x86-64). *)
From Verif Require Export Prelude.
From Coq Require Export Floats.SpecFloat.
From Coq Require Import String Ascii Decimal DecimalString DecimalZ List.
Local Open Scope list_scope.
Local Open Scope Z_scope.

(** std::string: a list of bytes 0..255 *)
Definition str := list Z.
Definition B (s : string) : str := map (fun a => Z.of_N (N_of_ascii a)) (list_ascii_of_string s).
Fixpoint strEqb (a b : str) : bool :=
  match a, b with
  | [], [] => true
  | x :: a', y :: b' => Z.eqb x y && strEqb a' b'
  | _, _ => false
  end.
(** std::string operator<: lexicographic on unsigned bytes *)
Fixpoint strLtb (a b : str) : bool :=
  match a, b with
  | _, [] => false
  | [], _ :: _ => true
  | x :: a', y :: b' => (x <? y) || ((x =? y) && strLtb a' b')
  end.
(** s.c_str() read as a C string: the bytes before the first NUL *)
Fixpoint cstr (s : str) : str :=
  match s with [] => [] | b :: s' => if Z.eqb b 0 then [] else b :: cstr s' end.
Fixpoint joinStr (sep : str) (l : list str) : str :=
  match l with [] => [] | [x] => x | x :: l' => x ++ sep ++ joinStr sep l' end.

(** "%d" *)
Definition decZ (z : Z) : str := B (NilZero.string_of_int (Z.to_int z)).
(** "%0nd": the sign counts for the width *)
Definition padZ (n : nat) (z : Z) : str :=
  let d := decZ (Z.abs z) in
  let sign := if z <? 0 then [45] else [] in
  let w := (List.length sign + List.length d)%nat in
  sign ++ repeat 48 (n - w) ++ d.

(** Double precision *)
Definition f64 := spec_float.
Definition f64add := SFadd 53 1024.
Definition f64sub := SFsub 53 1024.
Definition f64mul := SFmul 53 1024.
Definition f64div := SFdiv 53 1024.
Definition f64neg := SFopp.
Definition f64abs := SFabs.
Definition f64ltb := SFltb.
Definition f64leb := SFleb.
Definition f64ofZ (z : Z) : f64 := binary_normalize 53 1024 z 0 false.
Definition f64valid (f : f64) : bool := valid_binary 53 1024 f.
(** kEpsilon = 1e-8, Value.h; the nearest double *)
Definition kEpsilon : f64 := S754_finite false 6044629098073146 (-79).
Definition f64isNaN (f : f64) : bool := match f with S754_nan => true | _ => false end.
(** The IEEE bit pattern (NaN: the default quiet NaN). *)
Definition f64bits (f : f64) : Z :=
  match f with
  | S754_zero s => if s then 9223372036854775808 else 0
  | S754_infinity s => (if s then 9223372036854775808 else 0) + 9218868437227405312
  | S754_nan => 9221120237041090560
  | S754_finite s m e =>
      (if s then 9223372036854775808 else 0) +
      (if Z.pos m <? 4503599627370496 then Z.pos m else (e + 1074) * 4503599627370496 + Z.pos m)
  end.
(** Truncation towards zero of a finite double; None for NaN and infinities. *)
Definition f64trunc (f : f64) : option Z :=
  match f with
  | S754_zero _ => Some 0
  | S754_finite s m e =>
      let v := if 0 <=? e then Z.pos m * 2 ^ e else Z.pos m / 2 ^ (- e) in
      Some (if s then - v else v)
  | _ => None
  end.
(** little-endian bytes of an integer *)
Fixpoint leBytes (n : nat) (z : Z) : str :=
  match n with O => [] | S n' => z mod 256 :: leBytes n' (z / 256) end.

Example kEpsilon_value : (* 1e-8 = 10^-8 correctly rounded *)
  SFdiv 53 1024 (f64ofZ 1) (f64ofZ 100000000) = kEpsilon.
Proof. vm_compute. reflexivity. Qed.
Example f64bits_one : f64bits (f64ofZ 1) = 0x3ff0000000000000 /\ f64bits (f64ofZ (-3)) = 0xc008000000000000.
Proof. vm_compute. auto. Qed.
Example decZ_example : decZ (-120) = [45; 49; 50; 48] /\ padZ 2 7 = [48; 55] /\ padZ 2 0 = [48; 48].
Proof. vm_compute. auto. Qed.
