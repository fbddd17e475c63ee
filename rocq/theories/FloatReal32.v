(** Floats in single precision, as [FloatReal] for doubles. Real numbers bring in the axioms of the standard library listed in DESIGN.md. *)
From Coq Require Import ZArith Reals Psatz SpecFloat Bool.
From Flocq Require Import Core Relative BinarySingleNaN.
From Verif Require Import Prelude ValueBase MemModel.
Local Open Scope R_scope.

(** ** Floats as Flocq's *)
Definition Hprec : Prec_gt_0 24 := eq_refl.
Definition Hmax : Prec_lt_emax 24 128 := eq_refl.
Notation bf := (binary_float 24 128).
Lemma nearest_even_equiv s m l : round_nearest_even m l = choice_mode mode_NE s m l.
Proof. case l; [reflexivity|intro c]. case c; [ | reflexivity..]. now simpl; unfold Round.cond_incr; case Z.even. Qed.
Lemma round_aux_equiv sx mx ex lx : SpecFloat.binary_round_aux 24 128 sx mx ex lx = BinarySingleNaN.binary_round_aux 24 128 mode_NE sx mx ex lx.
Proof.
  unfold SpecFloat.binary_round_aux, BinarySingleNaN.binary_round_aux. set (q := shr_fexp _ _ _ _ _). case q; intros a b; simpl. now rewrite (nearest_even_equiv sx).
Qed.
Lemma normalize_equiv m e s : SpecFloat.binary_normalize 24 128 m e s = B2SF (BinarySingleNaN.binary_normalize 24 128 Hprec Hmax mode_NE m e s).
Proof.
  assert (R : forall s p e, SpecFloat.binary_round 24 128 s p e = BinarySingleNaN.binary_round 24 128 mode_NE s p e).
  { intros s' p e'. unfold SpecFloat.binary_round, BinarySingleNaN.binary_round, shl_align_fexp. set (q := shl_align _ _ _). case q as [mz ez]. apply round_aux_equiv. }
  case m as [|p|p]; [reflexivity|simpl; rewrite B2SF_SF2B; apply R..].
Qed.
Lemma mul_equiv (x y : bf) : f32mul (B2SF x) (B2SF y) = B2SF (@Bmult 24 128 Hprec Hmax mode_NE x y).
Proof. unfold f32mul. case x as [sx|sx| |sx mx ex Bx], y as [sy|sy| |sy my ey By]; try reflexivity. simpl. rewrite B2SF_SF2B. apply round_aux_equiv. Qed.
(** ** Values of floats *)
(** a float that is a number *)
Definition fin (x : f32) : Prop := valid_binary 24 128 x = true /\ is_finite_SF x = true.
Definition val (x : f32) : R := SF2R radix2 x.
(** rounding to the nearest float, ties to even *)
Definition rnd (x : R) : R := round radix2 (FLT_exp (-149) 24) ZnearestE x.
Definition flt (x : R) : Prop := generic_format radix2 (FLT_exp (-149) 24) x.
#[global] Instance vexp : Valid_exp (FLT_exp (-149) 24). Proof. apply FLT_exp_valid. reflexivity. Qed.
Lemma rnd_le x y : x <= y -> rnd x <= rnd y.
Proof. apply round_le; typeclasses eauto. Qed.
Lemma rnd_flt x : flt x -> rnd x = x.
Proof. apply round_generic. typeclasses eauto. Qed.
Lemma flt_pow n : (-149 <= n)%Z -> flt (bpow radix2 n).
Proof. intros H. apply generic_format_bpow. unfold FLT_exp. lia. Qed.
Lemma fin_flt x : fin x -> flt (val x).
Proof. intros [V _]. unfold val. rewrite <- (B2R_SF2B 24 128 x V). apply generic_format_B2R. Qed.
Lemma small_ok r : Rabs r <= bpow radix2 127 -> Rlt_bool (Rabs (rnd r)) (bpow radix2 128) = true.
Proof.
  intros H. apply Rlt_bool_true. apply Rle_lt_trans with (bpow radix2 127); [|apply bpow_lt; lia].
  apply Rabs_le_inv in H. apply Rabs_le. split.
  - apply Rle_trans with (rnd (- bpow radix2 127)); [|apply rnd_le; tauto]. rewrite rnd_flt; [apply Rle_refl|]. apply generic_format_opp, flt_pow. lia.
  - apply Rle_trans with (rnd (bpow radix2 127)); [apply rnd_le; tauto|]. rewrite rnd_flt; [apply Rle_refl|]. apply flt_pow. lia.
Qed.
Lemma B2SF_fin (z : bf) : is_finite z = true -> fin (B2SF z).
Proof. intros F. split; [apply valid_binary_B2SF|]. destruct z; cbn in *; congruence. Qed.
Lemma fin_SF2B x (V : valid_binary 24 128 x = true) : is_finite_SF x = true -> is_finite (SF2B x V) = true.
Proof. destruct x; cbn; congruence. Qed.
Lemma f32mul_val x y : fin x -> fin y -> Rabs (val x * val y) <= bpow radix2 127 -> fin (f32mul x y) /\ val (f32mul x y) = rnd (val x * val y).
Proof.
  intros [VX FX] [VY FY] S. apply small_ok in S.
  pose proof (Bmult_correct 24 128 Hprec Hmax mode_NE (SF2B x VX) (SF2B y VY)) as C. rewrite !B2R_SF2B in C.
  change (round radix2 (SpecFloat.fexp 24 128) (round_mode mode_NE)) with rnd in C. unfold val in *. rewrite S in C. destruct C as (C1 & C2 & _).
  pose proof (mul_equiv (SF2B x VX) (SF2B y VY)) as E. rewrite !B2SF_SF2B in E. rewrite E, SF2R_B2SF.
  split; [apply B2SF_fin; rewrite C2, !fin_SF2B by assumption; reflexivity|exact C1].
Qed.
Lemma f32ofZ_val z : Rabs (IZR z) <= bpow radix2 127 -> fin (f32ofZ z) /\ val (f32ofZ z) = rnd (IZR z).
Proof.
  intros S. apply small_ok in S. pose proof (binary_normalize_correct 24 128 Hprec Hmax mode_NE z 0 false) as C. cbv zeta in C.
  assert (F : F2R (Float radix2 z 0) = IZR z) by (unfold F2R; cbn; ring). rewrite F in C.
  change (round radix2 (SpecFloat.fexp 24 128) (round_mode mode_NE)) with rnd in C. rewrite S in C. destruct C as (C1 & C2 & _).
  unfold f32ofZ, val. rewrite normalize_equiv, SF2R_B2SF. split; [apply B2SF_fin, C2|exact C1].
Qed.
(** integers of 24 bits are floats *)
Lemma flt_int z : (Z.abs z <= 2 ^ 24)%Z -> flt (IZR z).
Proof.
  intros H. destruct (Z.eq_dec (Z.abs z) (2 ^ 24)) as [E|N].
  - destruct (Z.abs_eq_or_opp z) as [A|A].
    + replace z with (2 ^ 24)%Z by lia. change (IZR (2 ^ 24)) with (bpow radix2 24). apply flt_pow. lia.
    + replace z with (- 2 ^ 24)%Z by lia. rewrite opp_IZR. change (IZR (2 ^ 24)) with (bpow radix2 24). apply generic_format_opp, flt_pow. lia.
  - replace (IZR z) with (F2R (Float radix2 z 0)) by (unfold F2R; cbn; ring). apply generic_format_FLT. exists (Float radix2 z 0); [reflexivity|cbn in *; lia|cbn; lia].
Qed.
(** rounding errors are relative, away from the smallest numbers *)
Lemma rnd_rel x : bpow radix2 (-126) <= Rabs x -> Rabs (rnd x - x) <= bpow radix2 (-24) * Rabs x.
Proof.
  intros H. assert (P : (0 < 24)%Z) by lia. pose proof (relative_error_N_FLT radix2 (-149) 24 eq_refl (fun z => negb (Z.even z)) x) as E.
  cbn [Z.add Z.sub] in E. specialize (E H). change (/ 2 * bpow radix2 (- (24) + 1)) with (/ 2 * bpow radix2 (-23)) in E.
  replace (bpow radix2 (-24)) with (/ 2 * bpow radix2 (-23)); [exact E|]. change (-23)%Z with (1 + -24)%Z. rewrite bpow_plus. cbn [bpow Z.pow_pos Pos.iter]. change (IZR (radix2 * 1)) with 2. lra.
Qed.
