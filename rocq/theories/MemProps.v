(** C159: how much memory is used, and whether it is too much. *)
From Coq Require Import ZArith Reals Psatz SpecFloat Bool.
From Flocq Require Import Core Relative BinarySingleNaN.
From Verif Require Import Prelude ValueBase MemModel FloatReal32.
Local Open Scope Z_scope.

(** * Specification *)
(** sysinfo is consistent: what is free and what is in buffers is part of the whole, and the whole has less than 2^64 bytes *)
Definition plausible (i : sysInfo) : Prop :=
  0 <= siFree i /\ 0 <= siBuffer i /\ siFree i + siBuffer i <= siTotal i /\ 1 <= siUnit i /\ siTotal i * siUnit i < 2 ^ 64.
(** the bytes that are neither free nor in buffers *)
Definition usedBytes (i : sysInfo) : Z := (siTotal i - siFree i - siBuffer i) * siUnit i.
(** a ratio worth giving: a float between 2^-60 and 1 *)
Definition proper (r : f32) : Prop := fin r /\ (bpow radix2 (-60) <= val r <= 1)%R.

(** * The numbers *)
Lemma plausible_u64 i : plausible i ->
  totalInKB i = siTotal i * siUnit i / 1024 /\ freeInKB i = siFree i * siUnit i / 1024 /\ bufferInKB i = siBuffer i * siUnit i / 1024.
Proof.
  intros (A & B & C & D & E). unfold totalInKB, freeInKB, bufferInKB, inKB, u64. change 18446744073709551616 with (2 ^ 64).
  rewrite !Z.mod_small; auto; nia.
Qed.
(** The kilobytes used are the bytes used, up to two: nothing wraps around. *)
Theorem C159_used : forall i, plausible i ->
  usedBytes i / 1024 <= usedInKB i <= usedBytes i / 1024 + 2 /\ usedInKB i <= totalInKB i /\
  usedInKB i + freeInKB i + bufferInKB i = totalInKB i.
Proof.
  intros i P. pose proof (plausible_u64 i P) as (Et & Ef & Eb). destruct P as (A & B & C & D & E).
  assert (S : siTotal i * siUnit i = usedBytes i + siFree i * siUnit i + siBuffer i * siUnit i) by (unfold usedBytes; ring).
  assert (U : 0 <= usedBytes i) by (unfold usedBytes; nia). assert (F : 0 <= siFree i * siUnit i) by nia. assert (G : 0 <= siBuffer i * siUnit i) by nia.
  unfold usedInKB. rewrite Et, Ef, Eb, S in *. revert U F G E. generalize (usedBytes i) (siFree i * siUnit i) (siBuffer i * siUnit i). intros u f b U F G E.
  assert (X : 0 <= (u + f + b) / 1024 - f / 1024 - b / 1024 < 2 ^ 64) by lia.
  unfold u64. change 18446744073709551616 with (2 ^ 64). rewrite Z.mod_small by exact X. lia.
Qed.

(** * The comparison *)
Local Open Scope R_scope.
Lemma kb_range i : plausible i -> (0 <= usedInKB i <= totalInKB i)%Z /\ (totalInKB i < 2 ^ 54)%Z.
Proof.
  intros P. destruct (C159_used i P) as (U & L & _). pose proof (plausible_u64 i P) as (Et & _). destruct P as (A & B & C & D & E).
  assert (0 <= usedBytes i)%Z by (unfold usedBytes; nia). split; [lia|]. rewrite Et. change (2 ^ 54)%Z with (2 ^ 64 / 1024)%Z. lia.
Qed.
Lemma int_small z : (0 <= z < 2 ^ 54)%Z -> Rabs (IZR z) <= bpow radix2 54.
Proof.
  intros H. rewrite Rabs_pos_eq by (apply IZR_le; lia). change (bpow radix2 54) with (IZR (2 ^ 54)). apply IZR_le. lia.
Qed.
Lemma ofZ z : (0 <= z < 2 ^ 54)%Z -> fin (f32ofZ z) /\ val (f32ofZ z) = rnd (IZR z).
Proof. intros H. apply f32ofZ_val. eapply Rle_trans; [apply int_small; auto|]. apply bpow_le. lia. Qed.
Lemma lt_val x y : fin x -> fin y -> SFltb x y = Rlt_bool (val x) (val y).
Proof.
  intros [VX FX] [VY FY]. pose proof (Bltb_correct 24 128 (SF2B x VX) (SF2B y VY) (fin_SF2B _ _ FX) (fin_SF2B _ _ FY)) as C.
  unfold Bltb in C. rewrite !B2SF_SF2B, !B2R_SF2B in C. exact C.
Qed.
Lemma rnd_0 : rnd 0 = 0.
Proof. apply rnd_flt. apply generic_format_0. Qed.
Lemma rnd_int z : (0 <= z < 2 ^ 54)%Z -> 0 <= rnd (IZR z) <= bpow radix2 54 /\ Rabs (rnd (IZR z) - IZR z) <= bpow radix2 (-24) * IZR z.
Proof.
  intros H. assert (P : 0 <= IZR z) by (apply IZR_le; lia). splits.
  - rewrite <- rnd_0. apply rnd_le. auto.
  - rewrite <- (rnd_flt (bpow radix2 54)) by (apply flt_pow; lia). apply rnd_le. eapply Rle_trans; [apply Rle_abs|apply int_small; auto].
  - destruct (Z.eq_dec z 0) as [->|N].
    + rewrite rnd_0, Rminus_0_r, Rabs_R0. lra.
    + pose proof (rnd_rel (IZR z)) as X. rewrite (Rabs_pos_eq (IZR z)) in X by auto. apply X.
      apply Rle_trans with 1; [change 1 with (bpow radix2 0); apply bpow_le; lia|]. apply IZR_le. lia.
Qed.
Lemma rnd_int_1 z : (1 <= z)%Z -> 1 <= rnd (IZR z).
Proof. intros H. rewrite <- (rnd_flt 1); [apply rnd_le, IZR_le; lia|]. change 1 with (bpow radix2 0). apply flt_pow. lia. Qed.
(** the comparison, in real numbers *)
Lemma hits_real i r : plausible i -> proper r ->
  hitsHighWatermark i r = Rlt_bool (rnd (rnd (IZR (totalInKB i)) * val r)) (rnd (IZR (usedInKB i))).
Proof.
  intros P [Fr [R1 R2]]. destruct (kb_range i P) as [[U1 U2] T]. unfold hitsHighWatermark.
  destruct (ofZ (totalInKB i)) as [F1 V1]; [lia|]. destruct (ofZ (usedInKB i)) as [F2 V2]; [lia|].
  destruct (rnd_int (totalInKB i)) as [[B1 B2] _]; [lia|]. pose proof (bpow_gt_0 radix2 (-60)) as Pr.
  destruct (f32mul_val (f32ofZ (totalInKB i)) r) as [F3 V3]; auto.
  { rewrite V1. rewrite Rabs_pos_eq by (apply Rmult_le_pos; lra). apply Rle_trans with (bpow radix2 54 * 1); [apply Rmult_le_compat; lra|].
    rewrite Rmult_1_r. apply bpow_le. lia. }
  rewrite lt_val by auto. rewrite V3, V1, V2. reflexivity.
Qed.
(** More memory in use of the same whole does not take the mark away. *)
Theorem C159_monotone : forall i j r, plausible i -> plausible j -> proper r -> totalInKB i = totalInKB j -> (usedInKB i <= usedInKB j)%Z ->
  hitsHighWatermark i r = true -> hitsHighWatermark j r = true.
Proof.
  intros i j r Pi Pj Pr T U H. rewrite hits_real in * by auto. rewrite <- T. apply Rlt_bool_true.
  destruct (Rlt_bool_spec (rnd (rnd (IZR (totalInKB i)) * val r)) (rnd (IZR (usedInKB i)))) as [L|L]; [|discriminate].
  eapply Rlt_le_trans; [exact L|]. apply rnd_le, IZR_le. auto.
Qed.
(** The mark is hit at the given part of the whole, up to a relative error of 2^-22: three roundings to 24 bits. *)
Lemma bpow24 : bpow radix2 (-24) = / 16777216.
Proof. reflexivity. Qed.
Lemma bpow22 : bpow radix2 (-22) = / 4194304.
Proof. reflexivity. Qed.
Lemma product i r : plausible i -> proper r ->
  (1 - / 16777216) * (1 - / 16777216) * (IZR (totalInKB i) * val r) <= rnd (rnd (IZR (totalInKB i)) * val r)
    <= (1 + / 16777216) * (1 + / 16777216) * (IZR (totalInKB i) * val r).
Proof.
  intros P [Fr [R1 R2]]. destruct (kb_range i P) as [[U1 U2] T]. destruct (rnd_int (totalInKB i)) as [[B1 B2] E]; [lia|].
  pose proof (bpow_gt_0 radix2 (-60)) as Pr. rewrite bpow24 in E. set (t := IZR (totalInKB i)) in *.
  assert (T0 : 0 <= t) by (apply IZR_le; lia). apply Rabs_le_inv in E.
  destruct (Z.eq_dec (totalInKB i) 0) as [Z0|N].
  - assert (Et : t = 0) by (unfold t; rewrite Z0; reflexivity). rewrite Et, rnd_0, !Rmult_0_l, rnd_0. lra.
  - assert (O : 1 <= rnd t) by (apply rnd_int_1; lia).
    pose proof (rnd_rel (rnd t * val r)) as X. rewrite (Rabs_pos_eq (rnd t * val r)) in X by (apply Rmult_le_pos; lra).
    assert (X1 : bpow radix2 (-126) <= rnd t * val r).
    { apply Rle_trans with (bpow radix2 (-60)); [apply bpow_le; lia|]. apply Rle_trans with (1 * val r); [lra|]. apply Rmult_le_compat_r; lra. }
    specialize (X X1). rewrite bpow24 in X. apply Rabs_le_inv in X. assert (Pos : 0 <= rnd t * val r) by (apply Rmult_le_pos; lra).
    assert (A : (1 - / 16777216) * (t * val r) <= rnd t * val r <= (1 + / 16777216) * (t * val r)).
    { rewrite <- !Rmult_assoc. split; apply Rmult_le_compat_r; lra. }
    split.
    + rewrite Rmult_assoc. apply Rle_trans with ((1 - / 16777216) * (rnd t * val r)); [|lra]. apply Rmult_le_compat_l; lra.
    + rewrite Rmult_assoc. apply Rle_trans with ((1 + / 16777216) * (rnd t * val r)); [lra|]. apply Rmult_le_compat_l; lra.
Qed.
Theorem C159_within : forall i r, plausible i -> proper r ->
  (hitsHighWatermark i r = true -> (1 - bpow radix2 (-22)) * (val r * IZR (totalInKB i)) <= IZR (usedInKB i)) /\
  (hitsHighWatermark i r = false -> IZR (usedInKB i) <= (1 + bpow radix2 (-22)) * (val r * IZR (totalInKB i))).
Proof.
  intros i r P Pr. rewrite hits_real by auto. pose proof (product i r P Pr) as M. destruct (kb_range i P) as [[U1 U2] T].
  destruct (rnd_int (usedInKB i)) as [[_ _] E]; [lia|]. rewrite bpow24 in E. rewrite bpow22. apply Rabs_le_inv in E.
  assert (U0 : 0 <= IZR (usedInKB i)) by (apply IZR_le; lia). assert (T0 : 0 <= IZR (totalInKB i)) by (apply IZR_le; lia).
  destruct Pr as [_ [R1 R2]]. pose proof (bpow_gt_0 radix2 (-60)) as Pp.
  assert (V : 0 <= IZR (totalInKB i) * val r) by (apply Rmult_le_pos; lra). rewrite (Rmult_comm (val r)).
  revert M E U0 V. generalize (IZR (totalInKB i) * val r). generalize (IZR (usedInKB i)). intros u v M E U0 V. split; intros H.
  - destruct (Rlt_bool_spec (rnd (rnd (IZR (totalInKB i)) * val r)) (rnd u)) as [L|L]; [|discriminate]. lra.
  - destruct (Rlt_bool_spec (rnd (rnd (IZR (totalInKB i)) * val r)) (rnd u)) as [L|L]; [discriminate|]. lra.
Qed.

(** * Concrete cases *)
Local Open Scope Z_scope.
(** 16 GB in units of bytes, 13 GB used *)
Definition sample : sysInfo := mkSys 17179869184 2147483648 1073741824 1.
Lemma eight_proper : proper eightTenths.
Proof.
  split; [split; reflexivity|]. unfold val, eightTenths. cbn [SF2R]. unfold F2R. cbn [cond_Zopp Fnum Fexp].
  rewrite bpow24. split; [|lra]. apply Rle_trans with (bpow radix2 (-1)); [apply bpow_le; lia|]. change (bpow radix2 (-1)) with (/ 2)%R. lra.
Qed.
Example C159_example : plausible sample /\ usedInKB sample = 13631488 /\ totalInKB sample = 16777216 /\ hitsHighWatermark sample eightTenths = true.
Proof. unfold plausible. vm_compute. intuition congruence. Qed.
(** With 128 GB, four kilobytes over the mark are not seen: the mark is not exact. *)
Theorem C159_exact_refuted : exists i, plausible i /\ 10 * usedInKB i > 8 * totalInKB i + 40 /\
  hitsHighWatermark i eightTenths = false.
Proof.
  exists (mkSys 137438953472 27487785984 0 1). unfold plausible. vm_compute. intuition congruence.
Qed.

Print Assumptions C159_used. Print Assumptions C159_monotone. Print Assumptions C159_within. Print Assumptions C159_exact_refuted.
