(** Decimal text: what "%d" prints, the digit loop of the parsers reads back. *)
From Coq Require Import String Ascii Decimal DecimalString DecimalZ DecimalFacts List.
From Verif Require Import Prelude ValueBase EvalModel.
Import ListNotations.
Open Scope Z_scope.

(** the number written by a string of digits *)
Fixpoint uval (d : Decimal.uint) (acc : Z) : Z :=
  match d with
  | Nil => acc
  | D0 d => uval d (acc * 10 + 0) | D1 d => uval d (acc * 10 + 1) | D2 d => uval d (acc * 10 + 2) | D3 d => uval d (acc * 10 + 3)
  | D4 d => uval d (acc * 10 + 4) | D5 d => uval d (acc * 10 + 5) | D6 d => uval d (acc * 10 + 6) | D7 d => uval d (acc * 10 + 7)
  | D8 d => uval d (acc * 10 + 8) | D9 d => uval d (acc * 10 + 9)
  end.
Lemma uval_acc d : forall p, Z.pos (Pos.of_uint_acc d p) = uval d (Z.pos p).
Proof. induction d as [|d IH|d IH|d IH|d IH|d IH|d IH|d IH|d IH|d IH|d IH]; intros p; cbn [Pos.of_uint_acc uval]; [reflexivity|..]; rewrite IH; f_equal; lia. Qed.
Lemma uval_of_uint d : Z.of_N (Pos.of_uint d) = uval d 0.
Proof.
  induction d as [|d IH|d IH|d IH|d IH|d IH|d IH|d IH|d IH|d IH|d IH]; cbn [Pos.of_uint uval]; [reflexivity|exact IH|..]; cbn [Z.of_N]; rewrite uval_acc; reflexivity.
Qed.
Definition isDigit (c : Z) : bool := (48 <=? c) && (c <=? 57).
Definition stops (t : str) : bool := match t with [] => true | c :: _ => negb (isDigit c) end.
Lemma digits_app d : forall acc t, stops t = true ->
  digits (B (NilEmpty.string_of_uint d) ++ t) acc = (List.length (B (NilEmpty.string_of_uint d)), uval d acc).
Proof.
  induction d as [|d IH|d IH|d IH|d IH|d IH|d IH|d IH|d IH|d IH|d IH]; intros acc t Ht;
    [destruct t as [|c t]; cbn in *; [reflexivity|]; unfold isDigit in Ht; destruct ((48 <=? c) && (c <=? 57)); [discriminate|reflexivity]|..];
    cbn [NilEmpty.string_of_uint]; unfold B in *; cbn [list_ascii_of_string map app digits List.length]; rewrite IH by assumption; reflexivity.
Qed.
Lemma all_digits d : forallb isDigit (B (NilEmpty.string_of_uint d)) = true.
Proof. induction d as [|d IH|d IH|d IH|d IH|d IH|d IH|d IH|d IH|d IH|d IH]; [reflexivity|..]; unfold B in *; cbn; exact IH. Qed.

(** A number from 0 is printed as a non-empty string of digits that reads as this number. *)
Lemma decZ_nonneg z : 0 <= z -> decZ z <> [] /\ forallb isDigit (decZ z) = true /\
  forall t, stops t = true -> digits (decZ z ++ t) 0 = (List.length (decZ z), z).
Proof.
  intros Hz. unfold decZ. pose proof (DecimalZ.of_to z) as E.
  assert (P : exists u, Z.to_int z = Pos u) by (destruct z; cbn; eauto; lia). destruct P as [u P]. rewrite P in *. cbn [NilZero.string_of_int Z.of_int] in *.
  unfold Z.of_uint in E. rewrite uval_of_uint in E. rewrite <- E. clear E P Hz. destruct u as [|d|d|d|d|d|d|d|d|d|d].
  - cbn. splits; [discriminate|reflexivity|]. intros t Ht. destruct t as [|c t]; cbn in *; [reflexivity|]. unfold isDigit in Ht. destruct ((48 <=? c) && (c <=? 57)); [discriminate|reflexivity].
  - splits; [discriminate|apply (all_digits (D0 d))|intros t Ht; apply (digits_app (D0 d) 0 t Ht)].
  - splits; [discriminate|apply (all_digits (D1 d))|intros t Ht; apply (digits_app (D1 d) 0 t Ht)].
  - splits; [discriminate|apply (all_digits (D2 d))|intros t Ht; apply (digits_app (D2 d) 0 t Ht)].
  - splits; [discriminate|apply (all_digits (D3 d))|intros t Ht; apply (digits_app (D3 d) 0 t Ht)].
  - splits; [discriminate|apply (all_digits (D4 d))|intros t Ht; apply (digits_app (D4 d) 0 t Ht)].
  - splits; [discriminate|apply (all_digits (D5 d))|intros t Ht; apply (digits_app (D5 d) 0 t Ht)].
  - splits; [discriminate|apply (all_digits (D6 d))|intros t Ht; apply (digits_app (D6 d) 0 t Ht)].
  - splits; [discriminate|apply (all_digits (D7 d))|intros t Ht; apply (digits_app (D7 d) 0 t Ht)].
  - splits; [discriminate|apply (all_digits (D8 d))|intros t Ht; apply (digits_app (D8 d) 0 t Ht)].
  - splits; [discriminate|apply (all_digits (D9 d))|intros t Ht; apply (digits_app (D9 d) 0 t Ht)].
Qed.
(** A negative number is its absolute value behind a minus sign. *)
Lemma decZ_neg z : z < 0 -> decZ z = 45 :: decZ (- z).
Proof. intros H. destruct z; try lia. reflexivity. Qed.
