(** Facts about double precision comparison. *)
From Verif Require Import ValueBase.
Local Open Scope Z_scope.

(** |a - b| = |b - a| *)
Lemma SFabs_round_sign : forall s t m e, SFabs (binary_round 53 1024 s m e) = SFabs (binary_round 53 1024 t m e).
Proof.
  intros s t m e. unfold binary_round. destruct (shl_align m e _) as [mz ez]. unfold binary_round_aux.
  destruct (shr_fexp 53 1024 (Z.pos mz) ez loc_Exact) as [r e'].
  destruct (shr_fexp 53 1024 (round_nearest_even (shr_m r) (loc_of_shr_record r)) e' loc_Exact) as [r2 e2].
  destruct (shr_m r2); auto. destruct (Z.leb e2 (1024 - 53)); auto.
Qed.
Lemma SFabs_normalize_opp : forall m e z, SFabs (binary_normalize 53 1024 (- m) e z) = SFabs (binary_normalize 53 1024 m e z).
Proof. intros [|m|m] e z; cbn [Z.opp binary_normalize]; auto; apply SFabs_round_sign. Qed.
Lemma f64sub_abs_sym : forall a b, f64abs (f64sub a b) = f64abs (f64sub b a).
Proof.
  unfold f64abs, f64sub. intros [s|s| |s m e] [t|t| |t n f]; auto; try (destruct s, t; reflexivity).
  cbn [SFsub]. rewrite (Z.min_comm f e).
  match goal with |- SFabs (binary_normalize _ _ (?x - ?y) _ _) = _ => replace (x - y) with (- (y - x)) by lia end.
  apply SFabs_normalize_opp.
Qed.

(** An integer that orders the valid doubles: the value in units of 2^-1074, infinities beyond. *)
Definition fkey (f : f64) : Z :=
  match f with
  | S754_zero _ => 0
  | S754_nan => 0
  | S754_infinity s => if s then - 2 ^ 2098 else 2 ^ 2098
  | S754_finite s m e => if s then - (Z.pos m * 2 ^ (e + 1074)) else Z.pos m * 2 ^ (e + 1074)
  end.

Lemma digits2_bounds : forall m, 2 ^ (Z.pos (digits2_pos m) - 1) <= Z.pos m < 2 ^ Z.pos (digits2_pos m).
Proof.
  induction m as [m IH|m IH|]; cbn [digits2_pos].
  - rewrite Pos2Z.inj_succ. replace (Z.succ (Z.pos (digits2_pos m)) - 1) with (Z.succ (Z.pos (digits2_pos m) - 1)) by lia.
    rewrite !Z.pow_succ_r by lia. lia.
  - rewrite Pos2Z.inj_succ. replace (Z.succ (Z.pos (digits2_pos m)) - 1) with (Z.succ (Z.pos (digits2_pos m) - 1)) by lia.
    rewrite !Z.pow_succ_r by lia. lia.
  - cbn. lia.
Qed.

Lemma valid_finite : forall s m e, f64valid (S754_finite s m e) = true ->
  -1074 <= e <= 971 /\ Z.pos m < 2 ^ 53 /\ (e = -1074 \/ 2 ^ 52 <= Z.pos m).
Proof.
  intros s m e H. unfold f64valid, valid_binary, bounded, canonical_mantissa in H.
  apply andb_true_iff in H. destruct H as [H1 H2]. apply Zeq_bool_eq in H1. apply Z.leb_le in H2.
  unfold fexp, emin in H1. pose proof (digits2_bounds m) as D. set (d := Z.pos (digits2_pos m)) in *.
  assert (d <= 53) by lia.
  split; [lia|]. split.
  - apply Z.lt_le_trans with (2 ^ d); [tauto|]. apply Z.pow_le_mono_r; lia.
  - destruct (Z.eq_dec e (-1074)) as [E|E]; [auto|right].
    assert (d = 53) by lia. assert (d - 1 = 52) as E2 by lia. rewrite E2 in D. tauto.
Qed.
Lemma finite_key_bound : forall m e, f64valid (S754_finite false m e) = true -> 0 < Z.pos m * 2 ^ (e + 1074) < 2 ^ 2098.
Proof.
  intros m e H. apply valid_finite in H. destruct H as [H1 [H2 _]].
  assert (0 < 2 ^ (e + 1074)) by (apply Z.pow_pos_nonneg; lia).
  split; [nia|]. apply Z.lt_le_trans with (2 ^ 53 * 2 ^ (e + 1074)); [nia|].
  rewrite <- Z.pow_add_r by lia. apply Z.pow_le_mono_r; lia.
Qed.
Lemma finite_key_compare : forall m1 e1 m2 e2,
  f64valid (S754_finite false m1 e1) = true -> f64valid (S754_finite false m2 e2) = true ->
  match Z.compare e1 e2 with Lt => Lt | Gt => Gt | Eq => Pcompare m1 m2 Eq end
  = (Z.pos m1 * 2 ^ (e1 + 1074) ?= Z.pos m2 * 2 ^ (e2 + 1074)).
Proof.
  assert (L : forall m1 e1 m2 e2, f64valid (S754_finite false m1 e1) = true -> f64valid (S754_finite false m2 e2) = true ->
              e1 < e2 -> Z.pos m1 * 2 ^ (e1 + 1074) < Z.pos m2 * 2 ^ (e2 + 1074)).
  { intros m1 e1 m2 e2 H1 H2 L. apply valid_finite in H1, H2. destruct H1 as [A1 [A2 _]], H2 as [B1 [_ [B2|B2]]]; [lia|].
    apply Z.lt_le_trans with (2 ^ 53 * 2 ^ (e1 + 1074)).
    - assert (0 < 2 ^ (e1 + 1074)) by (apply Z.pow_pos_nonneg; lia). nia.
    - apply Z.le_trans with (2 ^ 52 * 2 ^ (e2 + 1074)).
      + rewrite <- !Z.pow_add_r by lia. apply Z.pow_le_mono_r; lia.
      + assert (0 < 2 ^ (e2 + 1074)) by (apply Z.pow_pos_nonneg; lia). nia. }
  intros m1 e1 m2 e2 H1 H2. destruct (Z.compare_spec e1 e2) as [E|E|E].
  - subst e2. assert (0 < 2 ^ (e1 + 1074)) by (apply valid_finite in H1; apply Z.pow_pos_nonneg; lia).
    rewrite (Z.mul_comm (Z.pos m1)), (Z.mul_comm (Z.pos m2)).
    change (Pos.compare_cont Eq m1 m2) with (Pos.compare m1 m2). change (Pos.compare m1 m2) with (Z.pos m1 ?= Z.pos m2).
    apply Zmult_compare_compat_l. lia.
  - symmetry. apply Z.compare_lt_iff. auto.
  - symmetry. apply Z.compare_gt_iff. auto.
Qed.

Lemma SFcompare_key : forall a b, f64valid a = true -> f64valid b = true -> f64isNaN a = false -> f64isNaN b = false ->
  SFcompare a b = Some (fkey a ?= fkey b).
Proof.
  assert (P : 0 < 2 ^ 2098) by (apply Z.pow_pos_nonneg; lia).
  assert (Bnd : forall s m e, f64valid (S754_finite s m e) = true -> 0 < Z.pos m * 2 ^ (e + 1074) < 2 ^ 2098).
  { intros s m e H. apply finite_key_bound. exact H. }
  intros [s|s| |s m e] [t|t| |t n f] Va Vb Na Nb; try discriminate; cbn [SFcompare fkey]; f_equal.
  all: try (pose proof (Bnd _ _ _ Va)); try (pose proof (Bnd _ _ _ Vb)).
  all: repeat match goal with b : bool |- _ => destruct b end; auto.
  all: try (symmetry; first [apply Z.compare_lt_iff; lia|apply Z.compare_gt_iff; lia|apply Z.compare_eq_iff; lia]).
  - rewrite Z.compare_opp. change (f64valid (S754_finite false m e) = true) in Va. change (f64valid (S754_finite false n f) = true) in Vb.
    rewrite <- (finite_key_compare n f m e Vb Va). rewrite (Z.compare_antisym e f).
    destruct (e ?= f); cbn; auto. change (Pos.compare_cont Eq) with Pos.compare. now rewrite (Pos.compare_antisym m n).
  - now apply finite_key_compare.
Qed.
Lemma SFltb_key : forall a b, f64valid a = true -> f64valid b = true -> f64isNaN a = false -> f64isNaN b = false ->
  f64ltb a b = (fkey a <? fkey b).
Proof.
  intros. unfold f64ltb, SFltb. rewrite SFcompare_key by auto. unfold Z.ltb. destruct (fkey a ?= fkey b); auto.
Qed.

(** Integers up to 2^53 convert exactly. *)
Lemma digits2_shift : forall d m, digits2_pos (shift_pos d m) = (digits2_pos m + d)%positive.
Proof.
  intros d m. unfold shift_pos. revert d. apply Pos.peano_ind.
  - cbn. lia.
  - intros d IH. rewrite Pos.iter_succ. cbn [digits2_pos]. rewrite IH. lia.
Qed.
Lemma round_exact : forall s m e, e <= 971 -> fexp 53 1024 (Z.pos (digits2_pos m) + e) = e ->
  binary_round_aux 53 1024 s (Z.pos m) e loc_Exact = S754_finite s m e.
Proof.
  intros s m e He H. unfold binary_round_aux, shr_fexp. cbn [Zdigits2]. rewrite H, Z.sub_diag. cbn [shr shr_record_of_loc].
  cbn [shr_m loc_of_shr_record round_nearest_even Zdigits2]. rewrite H, Z.sub_diag. cbn [shr shr_record_of_loc shr_m].
  change (1024 - 53) with 971. now rewrite (proj2 (Z.leb_le _ _) He).
Qed.
Definition isSmall (z : Z) : bool := (-9007199254740992 <=? z) && (z <=? 9007199254740992).
Lemma round_small : forall s m, Z.pos m < 2 ^ 53 ->
  let r := binary_round 53 1024 s m 0 in
  f64valid r = true /\ f64isNaN r = false /\ fkey r = (if s then -1 else 1) * (Z.pos m * 2 ^ 1074).
Proof.
  intros s m Hm. cbv zeta. pose proof (digits2_bounds m) as D.
  assert (Hd : Z.pos (digits2_pos m) <= 53).
  { destruct (Z.le_gt_cases (Z.pos (digits2_pos m)) 53) as [|G]; auto. exfalso.
    assert (2 ^ 53 <= 2 ^ (Z.pos (digits2_pos m) - 1)) by (apply Z.pow_le_mono_r; lia). lia. }
  assert (FE : fexp 53 1024 (Z.pos (digits2_pos m)) = Z.pos (digits2_pos m) - 53) by (unfold fexp, emin; lia).
  unfold binary_round. rewrite Z.add_0_r, FE. unfold shl_align. rewrite Z.sub_0_r.
  destruct (Z.pos (digits2_pos m) - 53) as [|d|d] eqn:E.
  - rewrite round_exact by (rewrite ?Z.add_0_r, ?FE; lia). splits; auto.
    + cbn. unfold bounded, canonical_mantissa. rewrite Z.add_0_r, FE. reflexivity.
    + cbn [fkey]. rewrite Z.add_0_l. destruct s; lia.
  - lia.
  - assert (DS : Z.pos (digits2_pos (shift_pos d m)) = 53) by (rewrite digits2_shift; lia).
    assert (Z.neg d = Z.pos (digits2_pos m) - 53) by lia.
    rewrite round_exact; [|lia|rewrite DS; unfold fexp, emin; lia]. splits; auto.
    + cbn [f64valid valid_binary]. unfold f64valid, valid_binary, bounded, canonical_mantissa. rewrite DS. apply andb_true_iff. split.
      * unfold fexp, emin. replace (Z.max (53 + Z.neg d - 53) (3 - 1024 - 53)) with (Z.neg d) by lia. apply Zeq_is_eq_bool. reflexivity.
      * apply Z.leb_le. lia.
    + cbn [fkey]. rewrite Zpower.shift_pos_correct. change (Z.pow_pos 2 d) with (2 ^ Z.pos d).
      assert (2 ^ 1074 = 2 ^ Z.pos d * 2 ^ (Z.neg d + 1074)) as ->.
      { rewrite <- Z.pow_add_r by lia. f_equal. lia. }
      destruct s; ring.
Qed.
Lemma f64ofZ_small : forall z, isSmall z = true ->
  f64valid (f64ofZ z) = true /\ f64isNaN (f64ofZ z) = false /\ fkey (f64ofZ z) = z * 2 ^ 1074.
Proof.
  intros z H. unfold isSmall in H. apply andb_true_iff in H. destruct H as [H1 H2]. apply Z.leb_le in H1, H2.
  destruct (Z.eq_dec z 9007199254740992) as [->|N1]; [splits; vm_compute; reflexivity|].
  destruct (Z.eq_dec z (-9007199254740992)) as [->|N2]; [splits; vm_compute; reflexivity|].
  unfold f64ofZ. destruct z as [|m|m]; cbn [binary_normalize].
  - splits; reflexivity.
  - destruct (round_small false m) as [A [B C]]; [change (2 ^ 53) with 9007199254740992; lia|]. splits; [exact A|exact B|rewrite C; lia].
  - destruct (round_small true m) as [A [B C]]; [change (2 ^ 53) with 9007199254740992; lia|]. splits; [exact A|exact B|rewrite C; lia].
Qed.

(** Rounding never produces NaN. *)
Lemma shr_nonneg : forall n r, 0 <= shr_m r -> 0 <= shr_m (iter_pos shr_1 n r).
Proof.
  assert (S : forall r, 0 <= shr_m r -> 0 <= shr_m (shr_1 r)).
  { intros [m a b] H. cbn in *. destruct m as [|[m|m|]|m]; cbn; lia. }
  induction n as [n IH|n IH|]; intros r H; cbn [iter_pos]; auto.
Qed.
Lemma shr_fexp_nonneg : forall m e l, 0 <= m -> 0 <= shr_m (fst (shr_fexp 53 1024 m e l)).
Proof.
  intros m e l H. unfold shr_fexp, shr.
  assert (0 <= shr_m (shr_record_of_loc m l)) by (destruct l as [|[]]; cbn; auto).
  destruct (fexp 53 1024 (Zdigits2 m + e) - e); cbn [fst]; auto using shr_nonneg.
Qed.
Lemma round_nearest_nonneg : forall m l, 0 <= m -> 0 <= round_nearest_even m l.
Proof. intros m [|[]] H; cbn; try lia. destruct (Z.even m); lia. Qed.
Lemma round_aux_not_nan : forall s m e l, 0 <= m -> f64isNaN (binary_round_aux 53 1024 s m e l) = false.
Proof.
  intros s m e l H. unfold binary_round_aux.
  pose proof (shr_fexp_nonneg m e l H) as N1. destruct (shr_fexp 53 1024 m e l) as [r e1]. cbn [fst] in N1.
  pose proof (shr_fexp_nonneg (round_nearest_even (shr_m r) (loc_of_shr_record r)) e1 loc_Exact (round_nearest_nonneg _ _ N1)) as N2.
  destruct (shr_fexp 53 1024 (round_nearest_even (shr_m r) (loc_of_shr_record r)) e1 loc_Exact) as [r2 e2]. cbn [fst] in N2.
  destruct (shr_m r2); auto; [|lia]. destruct (Z.leb e2 (1024 - 53)); auto.
Qed.
Lemma normalize_not_nan : forall m e z, f64isNaN (binary_normalize 53 1024 m e z) = false.
Proof.
  intros [|m|m] e z; auto; cbn [binary_normalize]; unfold binary_round; destruct (shl_align m e _) as [mz ez];
    apply round_aux_not_nan; lia.
Qed.
Lemma f64ofZ_not_nan : forall z, f64isNaN (f64ofZ z) = false.
Proof. intros. apply normalize_not_nan. Qed.
(** The difference of two comparable doubles is not NaN. *)
Lemma sub_not_nan : forall a b, f64ltb a b = true -> f64isNaN (f64sub a b) = false.
Proof.
  intros [s|s| |s m e] [t|t| |t n f] H; try discriminate H; auto; try (destruct s, t; try discriminate H; reflexivity).
  apply normalize_not_nan.
Qed.
Lemma leb_ltb : forall a b, f64isNaN a = false -> f64isNaN b = false -> f64leb a b = negb (f64ltb b a).
Proof.
  assert (K : forall a b, f64isNaN a = false -> f64isNaN b = false -> exists c, SFcompare a b = Some c /\ SFcompare b a = Some (CompOpp c)).
  { intros [s|s| |s m e] [t|t| |t n f] Ha Hb; try discriminate; cbn [SFcompare]; eexists; (split; [reflexivity|]);
      try (destruct s; reflexivity); try (destruct t; reflexivity); try (destruct s, t; reflexivity).
    change (Pos.compare_cont Eq) with Pos.compare. rewrite (Z.compare_antisym e f), (Pos.compare_antisym m n).
    destruct s, t; cbn; auto; destruct (e ?= f), (m ?= n)%positive; reflexivity. }
  intros a b Ha Hb. unfold f64leb, f64ltb, SFleb, SFltb. destruct (K a b Ha Hb) as [c [-> ->]]. destruct c; reflexivity.
Qed.
