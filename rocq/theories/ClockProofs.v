(** Rounding errors of the fast clock; see ClockProps. *)
From Coq Require Import ZArith Reals Psatz Bool.
From Flocq Require Import Core.
From Verif Require Import Prelude ValueBase DurationModel FloatReal ClockModel.
Local Open Scope R_scope.

Definition u : R := bpow radix2 (-53).
Lemma u_val : u = / 9007199254740992. Proof. reflexivity. Qed.
Lemma u_pos : 0 < u < / 1000000. Proof. rewrite u_val. lra. Qed.
(** [y] is [x] with a relative error of at most [e] *)
Definition near (e x y : R) : Prop := x * (1 - e) <= y <= x * (1 + e).
Lemma near_refl x : near 0 x x. Proof. unfold near. lra. Qed.
Lemma near_weak e f x y : 0 <= x -> e <= f -> near e x y -> near f x y.
Proof. unfold near. intros X L [A B]. split; nra. Qed.
Lemma near_rnd e x y : bpow radix2 (-1000) <= x -> 0 <= e <= / 2 -> near e x y -> near (e + 2 * u) x (rnd y).
Proof.
  intros X E [A B]. pose proof u_pos as U. assert (0 < x) by (apply Rlt_le_trans with (2 := X), bpow_gt_0).
  assert (Y : bpow radix2 (-1022) <= y).
  { apply Rle_trans with (x * / 2); [|nra]. apply Rle_trans with (bpow radix2 (-1001)); [apply bpow_le; lia|].
    replace (bpow radix2 (-1001)) with (bpow radix2 (-1000) * / 2); [nra|]. change (-1000)%Z with (1 + -1001)%Z. rewrite bpow_plus. change (bpow radix2 1) with 2. lra. }
  assert (0 < y) by (apply Rlt_le_trans with (2 := Y), bpow_gt_0).
  pose proof (rnd_rel y) as R. rewrite (Rabs_pos_eq y) in R by lra. specialize (R Y). fold u in R. apply Rabs_le_inv in R. unfold near. split; nra.
Qed.
Lemma near_mul e f x y a b : 0 < x -> 0 < a -> 0 <= e <= / 2 -> 0 <= f <= / 2 -> near e x y -> near f a b -> near (e + f + e * f) (x * a) (y * b).
Proof.
  unfold near. intros X A E F [L1 U1] [L2 U2]. assert (0 < y) by nra. assert (0 < b) by nra. split.
  - apply Rle_trans with ((x * (1 - e)) * (a * (1 - f))); [|apply Rmult_le_compat; nra].
    assert (0 < x * a) by nra. assert (0 <= e * f) by nra. nra.
  - apply Rle_trans with ((x * (1 + e)) * (a * (1 + f))); [apply Rmult_le_compat; nra|]. nra.
Qed.
Lemma near_div e x y k : 0 < k -> near e x y -> near e (x / k) (y / k).
Proof. unfold near. intros K [A B]. assert (0 < / k) by (apply Rinv_0_lt_compat; lra). unfold Rdiv. split; nra. Qed.
Lemma near_add e x y k : 0 <= k -> 0 <= e -> near e x y -> near e (x + k) (y + k).
Proof. unfold near. intros K E [A B]. split; nra. Qed.

(** sizes that occur here *)
Lemma upper r : 0 <= r <= 1180591620717411303424 -> Rabs r <= bpow radix2 1023.
Proof. intros H. rewrite Rabs_pos_eq by lra. apply Rle_trans with (bpow radix2 70); [exact (proj2 H)|apply bpow_le; lia]. Qed.
Lemma lower r : / 1427247692705959881058285969449495136382746624 <= r -> bpow radix2 (-1000) <= r.
Proof. intros H. apply Rle_trans with (bpow radix2 (-150)); [apply bpow_le; lia|exact H]. Qed.

(** ** The factors *)
Lemma int_val z : (0 <= z <= 9007199254740992)%Z -> fin (f64ofZ z) /\ val (f64ofZ z) = IZR z.
Proof.
  intros H. destruct (f64ofZ_val z) as [F V]; [apply upper; split; [apply IZR_le; lia|apply IZR_le; lia]|]. split; [exact F|]. rewrite V. apply rnd_flt, flt_int. lia.
Qed.
Lemma half_val : fin half /\ val half = / 2.
Proof.
  unfold half. destruct (int_val 1) as [F1 V1]; [lia|]. destruct (int_val 2) as [F2 V2]; [lia|].
  destruct (f64div_val _ _ F1 F2) as [F V]; [rewrite V2; lra|rewrite V1, V2; apply upper; lra|]. split; [exact F|]. rewrite V, V1, V2.
  replace (1 / 2) with (bpow radix2 (-1)) by (change (bpow radix2 (-1)) with (/ 2); lra). rewrite rnd_flt; [reflexivity|apply flt_pow; lia].
Qed.
Section Rate.
Variable first : Z.
Variable start : timespec.
Variable n : Z.
Hypothesis Hn : (1 <= n <= 9007199254740992)%Z.
Let c := withRate first start n.
Let Rn : 1 <= IZR n <= 9007199254740992. Proof. split; apply IZR_le; lia. Qed.
Lemma inv_n : / 9007199254740992 <= / IZR n <= 1.
Proof. pose proof Rn. split; [apply Rinv_le; lra|]. replace 1 with (/ 1) by lra. apply Rinv_le; lra. Qed.
Lemma usec_rate : fin (tUSec c) /\ near (2 * u) (/ IZR n) (val (tUSec c)).
Proof.
  pose proof Rn. pose proof inv_n as I. destruct (int_val 1) as [F1 V1]; [lia|]. destruct (int_val n) as [F2 V2]; [lia|].
  unfold c, withRate. cbn [tUSec]. destruct (f64div_val _ _ F1 F2) as [F V]; [rewrite V2; lra|rewrite V1, V2; unfold Rdiv; apply upper; lra|].
  split; [exact F|]. rewrite V, V1, V2. replace (1 / IZR n) with (/ IZR n) by (unfold Rdiv; lra). pose proof u_pos.
  apply near_weak with (0 + 2 * u); [lra..|]. apply near_rnd; [apply lower; lra|lra|apply near_refl].
Qed.
Lemma unit_rate k : (1000 <= k <= 1000000)%Z -> fin (f64div (tUSec c) (f64ofZ k)) /\ near (4 * u) (/ IZR (n * k)) (val (f64div (tUSec c) (f64ofZ k))).
Proof.
  intros Hk. destruct usec_rate as [F N]. destruct (int_val k) as [F2 V2]; [lia|]. pose proof inv_n as I. pose proof u_pos as U.
  assert (Rk : 1000 <= IZR k <= 1000000) by (split; apply IZR_le; lia).
  assert (Ik : / 1000000 <= / IZR k <= / 1000) by (split; apply Rinv_le; lra).
  assert (E : / IZR (n * k) = / IZR n / IZR k) by (rewrite mult_IZR; pose proof Rn; field; lra).
  assert (P : / 9007199254740992000000 <= / IZR n / IZR k <= 1) by (unfold Rdiv; split; nra).
  assert (N' := near_div _ _ _ (IZR k) ltac:(lra) N).
  destruct (f64div_val _ _ F F2) as [G V]; [rewrite V2; lra|rewrite V2; apply upper; unfold near in N'; split; nra|].
  split; [exact G|]. rewrite V, V2, E. apply near_weak with (2 * u + 2 * u); [lra..|]. apply near_rnd; [apply lower; lra|lra|exact N'].
Qed.
(** a product of a number of ticks and a factor *)
Lemma ticks_val t : (0 <= t < 18446744073709551616)%Z -> fin (f64ofZ t) /\ (t = 0%Z /\ val (f64ofZ t) = 0 \/ (1 <= t)%Z /\ near (2 * u) (IZR t) (val (f64ofZ t))).
Proof.
  intros H. destruct (f64ofZ_val t) as [F V]; [apply upper; split; [apply IZR_le; lia|apply IZR_le; lia]|]. split; [exact F|].
  destruct (Z.eq_dec t 0) as [-> | N]; [left; split; [reflexivity|rewrite V; apply rnd_flt, (flt_int 0); lia]|right]. split; [lia|].
  assert (1 <= IZR t) by (apply IZR_le; lia). rewrite V. pose proof u_pos. apply near_weak with (0 + 2 * u); [lra..|]. apply near_rnd; [apply lower; lra|lra|apply near_refl].
Qed.
Lemma product t f k : (0 <= t < 18446744073709551616)%Z -> (1 <= k <= 1000000)%Z -> fin f -> near (4 * u) (/ IZR (n * k)) (val f) ->
  fin (f64mul (f64ofZ t) f) /\ val (f64mul (f64ofZ t) f) = rnd (val (f64ofZ t) * val f) /\ near (9 * u) (IZR t / IZR (n * k)) (val (f64mul (f64ofZ t) f)).
Proof.
  intros Ht Hk F N. destruct (ticks_val t Ht) as [G T]. pose proof u_pos as U.
  assert (Rt : 0 <= IZR t <= 18446744073709551616) by (split; apply IZR_le; lia).
  assert (Rk : 1 <= IZR k <= 1000000) by (split; apply IZR_le; lia).
  assert (Q : / 9007199254740992000000 <= / IZR (n * k) <= 1).
  { rewrite mult_IZR. pose proof Rn. split; [apply Rinv_le; nra|]. replace 1 with (/ 1) by lra. apply Rinv_le; nra. }
  destruct T as [[T0 Z0] | [T1 NT]].
  - assert (V0 : val (f64ofZ t) * val f = 0) by (rewrite Z0; ring).
    destruct (f64mul_val _ _ G F) as [H V]; [rewrite V0; apply upper; lra|]. splits; [exact H|exact V|]. rewrite V, V0, T0.
    rewrite rnd_flt by (apply (flt_int 0); lia). unfold near, Rdiv. lra.
  - assert (P1 : 1 <= IZR t) by (apply IZR_le; lia).
    assert (M : near (2 * u + 4 * u + 2 * u * (4 * u)) (IZR t / IZR (n * k)) (val (f64ofZ t) * val f)) by (apply near_mul; try assumption; lra).
    assert (M' : near (7 * u) (IZR t / IZR (n * k)) (val (f64ofZ t) * val f)) by (apply near_weak with (3 := M); [unfold Rdiv; nra|nra]).
    assert (B : / 9007199254740992000000 <= IZR t / IZR (n * k) <= 18446744073709551616) by (unfold Rdiv; split; nra).
    destruct (f64mul_val _ _ G F) as [H V]; [apply upper; unfold near in M'; split; nra|]. splits; [exact H|exact V|]. rewrite V.
    apply near_weak with (7 * u + 2 * u); [lra..|]. apply near_rnd; [apply lower; lra|lra|exact M'].
Qed.
Lemma toU64_val f : fin f -> 0 <= val f < 18446744073709551616 -> f64toU64 f = Ret (Zfloor (val f)).
Proof.
  intros F B. unfold f64toU64. rewrite (f64trunc_val f F). rewrite Ztrunc_floor by lra.
  assert (0 <= Zfloor (val f))%Z by (apply Zfloor_lub; apply B).
  assert (Zfloor (val f) < 18446744073709551616)%Z by (apply lt_IZR, Rle_lt_trans with (2 := proj2 B), Zfloor_lb).
  replace (0 <=? Zfloor (val f))%Z with true by lia. replace (Zfloor (val f) <? 18446744073709551616)%Z with true by lia. reflexivity.
Qed.
Lemma add_half f x e : fin f -> 0 <= e <= 10 * u -> 0 <= x <= 18446744073709551616 -> near e x (val f) ->
  fin (f64add f half) /\ val (f64add f half) = rnd (val f + / 2) /\ near (e + 2 * u) (x + / 2) (val (f64add f half)).
Proof.
  intros F E X N. destruct half_val as [FH VH]. pose proof u_pos as U. assert (N' := near_add _ _ _ (/ 2) ltac:(lra) (proj1 E) N).
  destruct (f64add_val _ _ F FH) as [G V]; [rewrite VH; apply upper; unfold near in N'; split; nra|]. rewrite VH in V. splits; [exact G|exact V|]. rewrite V.
  apply near_rnd; [apply lower; lra|lra|exact N'].
Qed.
End Rate.
