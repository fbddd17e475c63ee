(** Exactness of double precision operations on integers below 2^53. *)
From Verif Require Import Prelude ValueBase FloatProofs.
Local Open Scope Z_scope.

(** Shifting right by [n] places divides; zeros shifted out leave the result exact. *)
Lemma shr1_div r : 0 <= shr_m r -> shr_m (shr_1 r) = shr_m r / 2.
Proof. destruct r as [[|[m|m|]|m] a b]; cbn [shr_1 shr_m]; intros H; lia. Qed.
Lemma shr_div n : forall r, 0 <= shr_m r -> shr_m (iter_pos shr_1 n r) = shr_m r / 2 ^ Z.pos n.
Proof.
  induction n as [n IH|n IH|]; intros r H; cbn [iter_pos].
  - assert (P : 0 < 2 ^ Z.pos n) by (apply Z.pow_pos_nonneg; lia). assert (H1 : 0 <= shr_m (shr_1 r)) by (rewrite shr1_div by assumption; lia).
    rewrite IH by (rewrite IH by assumption; apply Z.div_pos; lia). rewrite IH, shr1_div by assumption. rewrite !Z.div_div by lia. f_equal.
    replace (Z.pos n~1) with (1 + Z.pos n + Z.pos n) by lia. rewrite !Z.pow_add_r by lia. lia.
  - rewrite !IH; try assumption; [|rewrite IH by assumption; apply Z.div_pos; [assumption|apply Z.pow_pos_nonneg; lia]].
    rewrite Z.div_div by (try apply Z.pow_nonzero; try apply Z.pow_pos_nonneg; lia). f_equal. rewrite <- Z.pow_add_r by lia. f_equal. lia.
  - rewrite shr1_div by assumption. reflexivity.
Qed.
Lemma shr_exact n : forall p m, Z.pos p = m * 2 ^ Z.pos n -> iter_pos shr_1 n (Build_shr_record (Z.pos p) false false) = Build_shr_record m false false.
Proof.
  assert (One : forall p m, Z.pos p = m * 2 -> shr_1 (Build_shr_record (Z.pos p) false false) = Build_shr_record m false false).
  { intros p m E. destruct p as [p|p|]; try lia. cbn. f_equal. lia. }
  induction n as [n IH|n IH|]; intros p m E; cbn [iter_pos].
  - replace (Z.pos n~1) with (Z.pos n + Z.pos n + 1) in E by lia. rewrite !Z.pow_add_r in E by lia. assert (0 < 2 ^ Z.pos n) by (apply Z.pow_pos_nonneg; lia).
    assert (0 < m) by nia. destruct m as [|m|m]; try lia.
    rewrite (One p (Z.pos m * 2 ^ Z.pos n * 2 ^ Z.pos n)) by lia. destruct (Z.pos m * 2 ^ Z.pos n) as [|q|q] eqn:Eq; try nia.
    destruct (Z.pos q * 2 ^ Z.pos n) as [|w|w] eqn:Ew; try nia. rewrite (IH w (Z.pos q)) by lia. apply IH. lia.
  - replace (Z.pos n~0) with (Z.pos n + Z.pos n) in E by lia. rewrite Z.pow_add_r in E by lia. assert (0 < 2 ^ Z.pos n) by (apply Z.pow_pos_nonneg; lia).
    assert (0 < m) by nia. destruct (m * 2 ^ Z.pos n) as [|q|q] eqn:Eq; try nia. rewrite (IH p (Z.pos q)) by lia. apply IH. lia.
  - apply One. exact E.
Qed.

(** The double with value q * 2^k *)
Definition canon (s : bool) (q : positive) (k : Z) : f64 :=
  let F := fexp 53 1024 (Z.pos (digits2_pos q) + k) in S754_finite s (Z.to_pos (Z.pos q * 2 ^ (k - F))) F.
Lemma digits_unique m d : 0 < d -> 2 ^ (d - 1) <= Z.pos m < 2 ^ d -> Z.pos (digits2_pos m) = d.
Proof.
  intros Hd H. pose proof (digits2_bounds m) as D. destruct (Z.lt_trichotomy (Z.pos (digits2_pos m)) d) as [L | [L | L]]; [|exact L|]; exfalso.
  - assert (2 ^ Z.pos (digits2_pos m) <= 2 ^ (d - 1)) by (apply Z.pow_le_mono_r; lia). lia.
  - assert (2 ^ d <= 2 ^ (Z.pos (digits2_pos m) - 1)) by (apply Z.pow_le_mono_r; lia). lia.
Qed.
Lemma digits_mul q j p : 0 <= j -> Z.pos p = Z.pos q * 2 ^ j -> Z.pos (digits2_pos p) = Z.pos (digits2_pos q) + j.
Proof.
  intros Hj E. apply digits_unique; [lia|]. rewrite E. pose proof (digits2_bounds q) as D. assert (0 < 2 ^ j) by (apply Z.pow_pos_nonneg; lia).
  replace (Z.pos (digits2_pos q) + j - 1) with (Z.pos (digits2_pos q) - 1 + j) by lia. rewrite !Z.pow_add_r by lia. nia.
Qed.
Lemma round_canon s q k p e j : 0 <= j -> Z.pos p = Z.pos q * 2 ^ j -> k = e + j -> Z.pos (digits2_pos q) <= 53 -> -1074 <= k -> Z.pos (digits2_pos q) + k <= 1024 ->
  binary_round 53 1024 s p e = canon s q k.
Proof.
  intros Hj E -> Hd Hk Hm. pose proof (digits_mul q j p Hj E) as Dp. unfold binary_round, canon.
  replace (Z.pos (digits2_pos q) + (e + j)) with (Z.pos (digits2_pos p) + e) by lia. set (F := fexp 53 1024 (Z.pos (digits2_pos p) + e)).
  assert (HF : F = Z.max (Z.pos (digits2_pos p) + e - 53) (-1074)) by reflexivity. assert (HF1 : F <= e + j) by lia. assert (HF2 : F <= 971) by lia.
  unfold shl_align. destruct (F - e) as [|n|n] eqn:Ed.
  - assert (F = e) by lia. rewrite round_exact by (fold F; lia). f_equal; [|lia]. replace (e + j - F) with j by lia. rewrite <- E. reflexivity.
  - (* bits to drop, all zero *)
    unfold binary_round_aux, shr_fexp. cbn [Zdigits2 shr_record_of_loc]. fold F. rewrite Ed. unfold shr at 1.
    assert (0 < 2 ^ (e + j - F)) by (apply Z.pow_pos_nonneg; lia). destruct (Z.pos q * 2 ^ (e + j - F)) as [|m|m] eqn:Em; try lia.
    rewrite (shr_exact n p (Z.pos m)). 2:{ rewrite E, <- Em, <- Z.mul_assoc, <- Z.pow_add_r by lia. f_equal. f_equal. lia. }
    replace (e + Z.pos n) with F by lia. cbn [shr_m loc_of_shr_record round_nearest_even Zdigits2 shr_record_of_loc].
    assert (Dm : Z.pos (digits2_pos m) = Z.pos (digits2_pos q) + (e + j - F)) by (apply digits_mul; lia).
    replace (Z.pos (digits2_pos m) + F) with (Z.pos (digits2_pos p) + e) by lia. fold F. rewrite Z.sub_diag. cbn [shr shr_m].
    change (1024 - 53) with 971. rewrite (proj2 (Z.leb_le _ _) HF2). reflexivity.
  - (* shifted left *)
    assert (DS : Z.pos (digits2_pos (shift_pos n p)) = Z.pos (digits2_pos p) + Z.pos n) by (rewrite digits2_shift; lia).
    rewrite round_exact; [|exact HF2|rewrite DS; replace (Z.pos (digits2_pos p) + Z.pos n + F) with (Z.pos (digits2_pos p) + e) by lia; reflexivity].
    f_equal. apply Pos2Z.inj. rewrite Zpower.shift_pos_correct, E. change (Z.pow_pos 2 n) with (2 ^ Z.pos n).
    assert (0 < 2 ^ (e + j - F)) by (apply Z.pow_pos_nonneg; lia). rewrite Z2Pos.id by lia. replace (e + j - F) with (j + Z.pos n) by lia. rewrite Z.pow_add_r by lia. lia.
Qed.

Lemma digits_small m : Z.pos m < 2 ^ 53 -> Z.pos (digits2_pos m) <= 53.
Proof.
  intros Hm. pose proof (digits2_bounds m) as D. destruct (Z.le_gt_cases (Z.pos (digits2_pos m)) 53) as [|G]; auto. exfalso.
  assert (2 ^ 53 <= 2 ^ (Z.pos (digits2_pos m) - 1)) by (apply Z.pow_le_mono_r; lia). lia.
Qed.
(** The double of a small integer *)
Lemma round_int s m : Z.pos m < 2 ^ 53 -> binary_round 53 1024 s m 0 = canon s m 0.
Proof. intros H. pose proof (digits_small m H). apply (round_canon s m 0 m 0 0); lia. Qed.
Lemma round_scaled s m p ez : Z.pos m < 2 ^ 53 -> ez <= 0 -> Z.pos p = Z.pos m * 2 ^ (- ez) -> binary_round 53 1024 s p ez = canon s m 0.
Proof. intros H He E. pose proof (digits_small m H). apply (round_canon s m 0 p ez (- ez)); lia. Qed.
Lemma canon_int s m : Z.pos m < 2 ^ 53 -> exists M F, canon s m 0 = S754_finite s M F /\ F = Z.pos (digits2_pos m) - 53 /\ Z.pos M = Z.pos m * 2 ^ (- F).
Proof.
  intros H. pose proof (digits_small m H) as D. unfold canon. do 2 eexists. split; [reflexivity|]. assert (E : fexp 53 1024 (Z.pos (digits2_pos m) + 0) = Z.pos (digits2_pos m) - 53) by (unfold fexp, emin; lia).
  rewrite E. split; [reflexivity|]. assert (0 < 2 ^ (0 - (Z.pos (digits2_pos m) - 53))) by (apply Z.pow_pos_nonneg; lia). rewrite Z2Pos.id by lia. f_equal.
Qed.
Lemma align_exact m M F ez : F <= 0 -> ez <= F -> Z.pos M = Z.pos m * 2 ^ (- F) -> Z.pos (fst (shl_align M F ez)) = Z.pos m * 2 ^ (- ez).
Proof.
  intros HF He E. unfold shl_align. destruct (ez - F) as [|d|d] eqn:Ed; try lia; cbn [fst].
  - rewrite E. f_equal. f_equal. lia.
  - rewrite Zpower.shift_pos_correct, E. change (Z.pow_pos 2 d) with (2 ^ Z.pos d). replace (- ez) with (Z.pos d + - F) by lia. rewrite Z.pow_add_r by lia. lia.
Qed.
Lemma ofZ_form z : z <> 0 -> Z.abs z < 2 ^ 53 -> exists s M F, f64ofZ z = S754_finite s M F /\ F <= 0 /\ cond_Zopp s (Z.pos M) = z * 2 ^ (- F) /\
  (forall ez, ez <= F -> cond_Zopp s (Z.pos (fst (shl_align M F ez))) = z * 2 ^ (- ez)) /\ Z.pos (digits2_pos M) = 53 /\ -52 <= F /\ s = (z <? 0).
Proof.
  intros H0 H. destruct z as [|m|m]; [congruence| |]; cbn in H; pose proof (digits_small m H) as D.
  - destruct (canon_int false m H) as (M & F & E & HF & HM). exists false, M, F. assert (F <= 0) by lia. splits; try lia; try reflexivity.
    + unfold f64ofZ. cbn [binary_normalize]. rewrite round_int by assumption. exact E.
    + exact HM.
    + intros ez He. cbn [cond_Zopp]. apply (align_exact m M F ez); assumption.
    + rewrite (digits_mul m (- F) M); lia.
  - destruct (canon_int true m H) as (M & F & E & HF & HM). exists true, M, F. assert (F <= 0) by lia. splits; try lia; try reflexivity.
    + unfold f64ofZ. cbn [binary_normalize]. rewrite round_int by assumption. exact E.
    + cbn [cond_Zopp]. rewrite HM. lia.
    + intros ez He. cbn [cond_Zopp]. rewrite (align_exact m M F ez) by assumption. lia.
    + rewrite (digits_mul m (- F) M); lia.
Qed.
Lemma normalize_scaled z y ez : Z.abs z < 2 ^ 53 -> ez <= 0 -> y = z * 2 ^ (- ez) -> binary_normalize 53 1024 y ez false = f64ofZ z.
Proof.
  intros H He E. assert (P : 0 < 2 ^ (- ez)) by (apply Z.pow_pos_nonneg; lia). unfold f64ofZ. destruct z as [|m|m]; cbn in H.
  - subst y. reflexivity.
  - destruct y as [|p|p]; try nia. cbn [binary_normalize]. rewrite round_int by assumption. apply round_scaled; assumption.
  - destruct y as [|p|p]; try nia. cbn [binary_normalize]. rewrite round_int by assumption. apply round_scaled; try assumption. nia.
Qed.
(** Sums of small integers are exact. *)
Lemma f64add_int a b : Z.abs a < 2 ^ 53 -> Z.abs b < 2 ^ 53 -> Z.abs (a + b) < 2 ^ 53 -> f64add (f64ofZ a) (f64ofZ b) = f64ofZ (a + b).
Proof.
  intros Ha Hb Hs. destruct (Z.eq_dec a 0) as [->|Na].
  - rewrite Z.add_0_l. change (f64ofZ 0) with (S754_zero false). destruct (Z.eq_dec b 0) as [->|Nb]; [reflexivity|]. destruct (ofZ_form b Nb Hb) as (s & M & F & -> & _). reflexivity.
  - destruct (ofZ_form a Na Ha) as (s & M & F & E & HF & _ & A & _). destruct (Z.eq_dec b 0) as [->|Nb].
    + rewrite Z.add_0_r, E. reflexivity.
    + rewrite E. destruct (ofZ_form b Nb Hb) as (s2 & M2 & F2 & -> & HF2 & _ & A2 & _). unfold f64add, SFadd. apply normalize_scaled; [assumption|lia|].
      rewrite A, A2 by lia. lia.
Qed.
Lemma f64sub_int a b : Z.abs a < 2 ^ 53 -> Z.abs b < 2 ^ 53 -> Z.abs (a - b) < 2 ^ 53 -> f64sub (f64ofZ a) (f64ofZ b) = f64ofZ (a - b).
Proof.
  intros Ha Hb Hs. destruct (Z.eq_dec b 0) as [->|Nb].
  - rewrite Z.sub_0_r. change (f64ofZ 0) with (S754_zero false). destruct (Z.eq_dec a 0) as [->|Na]; [reflexivity|]. destruct (ofZ_form a Na Ha) as (s & M & F & -> & _). reflexivity.
  - destruct (Z.eq_dec a 0) as [->|Na].
    + rewrite Z.sub_0_l. change (f64ofZ 0) with (S754_zero false). destruct b as [|m|m]; [congruence| |]; cbn in Hb; [change (- Z.pos m) with (Z.neg m)|change (- Z.neg m) with (Z.pos m)]; unfold f64ofZ; cbn [binary_normalize]; rewrite !round_int by assumption; reflexivity.
    + destruct (ofZ_form a Na Ha) as (s & M & F & -> & HF & _ & A & _). destruct (ofZ_form b Nb Hb) as (s2 & M2 & F2 & -> & HF2 & _ & A2 & _). unfold f64sub, SFsub. apply normalize_scaled; [assumption|lia|].
      rewrite A, A2 by lia. lia.
Qed.

(** A product whose factors have 53 digits keeps its size. *)
Lemma mul_big s p e : 105 <= Z.pos (digits2_pos p) -> -104 <= e -> 
  match binary_round_aux 53 1024 s (Z.pos p) e loc_Exact with S754_infinity _ => True | S754_finite t _ e' => t = s /\ -52 <= e' | _ => False end.
Proof.
  intros Hd He. unfold binary_round_aux, shr_fexp. cbn [Zdigits2 shr_record_of_loc]. set (d := Z.pos (digits2_pos p)) in *.
  assert (F1 : fexp 53 1024 (d + e) = d + e - 53) by (unfold fexp, emin; lia). rewrite F1. replace (d + e - 53 - e) with (d - 53) by lia.
  unfold shr at 1. destruct (d - 53) as [|n|n] eqn:En; try lia. set (r1 := iter_pos shr_1 n (Build_shr_record (Z.pos p) false false)).
  assert (M1 : 2 ^ 52 <= shr_m r1).
  { unfold r1. rewrite shr_div by (cbn; lia). cbn [shr_m]. pose proof (digits2_bounds p) as D. fold d in D. apply Z.div_le_lower_bound; [apply Z.pow_pos_nonneg; lia|].
    replace (d - 1) with (Z.pos n + 52) in D by lia. rewrite Z.pow_add_r in D by lia. lia. }
  assert (M2 : 2 ^ 52 <= round_nearest_even (shr_m r1) (loc_of_shr_record r1)).
  { destruct (loc_of_shr_record r1) as [|[]]; cbn [round_nearest_even]; try lia. destruct (Z.even _); lia. }
  clearbody r1. set (m2 := round_nearest_even (shr_m r1) (loc_of_shr_record r1)) in *. clearbody m2. destruct m2 as [|m2|m2]; try lia. cbn [Zdigits2].
  pose proof (digits2_bounds m2) as D2. set (d2 := Z.pos (digits2_pos m2)) in *.
  assert (53 <= d2). { destruct (Z.le_gt_cases 53 d2) as [|G]; auto. exfalso. assert (2 ^ d2 <= 2 ^ 52) by (apply Z.pow_le_mono_r; lia). lia. }
  assert (F2 : fexp 53 1024 (d2 + (e + Z.pos n)) = d2 + (e + Z.pos n) - 53) by (unfold fexp, emin; lia). rewrite F2. replace (d2 + (e + Z.pos n) - 53 - (e + Z.pos n)) with (d2 - 53) by lia.
  unfold shr. destruct (d2 - 53) as [|k|k] eqn:Ek; try lia.
  - cbn [shr_m]. destruct (_ <=? _); [|exact I]. split; [reflexivity|lia].
  - rewrite shr_div by (cbn; lia). cbn [shr_m]. assert (0 < 2 ^ Z.pos k) by (apply Z.pow_pos_nonneg; lia).
    assert (0 < Z.pos m2 / 2 ^ Z.pos k). { apply Z.div_str_pos. split; [lia|]. apply Z.le_trans with (2 ^ (d2 - 1)); [apply Z.pow_le_mono_r; lia|apply D2]. }
    destruct (Z.pos m2 / 2 ^ Z.pos k) as [|m3|m3]; try lia. destruct (_ <=? _); [|exact I]. split; [reflexivity|lia].
Qed.
