(** Property C43, continued: SUM of doubles, AVG and STD. *)
From Coq Require Import String List QArith Lqa.
From Verif Require Import Prelude DateModel Trans ValueBase ValueModel FloatProofs FloatExact GraphModel EvalModel AggModel AggProps.
Import ListNotations.
Open Scope Z_scope.

(** * Specification *)
Definition numeric (v : value) : bool := match v with VInt _ | VFloat _ => true | _ => false end.
(** The double a number stands for *)
Definition toF (v : value) : f64 := match v with VInt z => f64ofZ z | VFloat f => f | _ => S754_nan end.
(** The sum of the doubles, from the left *)
Definition sumF (ks : list value) : f64 := fold_left f64add (map toF ks) (f64ofZ 0).
Definition nOf {A} (l : list A) : Z := Z.of_nat (List.length l).
(** Every number and every partial sum is an integer below 2^53. *)
Fixpoint exactFrom (s : Z) (zs : list Z) : Prop := match zs with [] => True | z :: zs' => Z.abs z < 2 ^ 53 /\ Z.abs (s + z) < 2 ^ 53 /\ exactFrom (s + z) zs' end.

(** Mean and mean squared deviation, one number at a time, over any arithmetic *)
Record arith (T : Type) := mkAr { plus : T -> T -> T; minus : T -> T -> T; times : T -> T -> T; over : T -> T -> T; ofInt : Z -> T }.
Arguments plus {T}. Arguments minus {T}. Arguments times {T}. Arguments over {T}. Arguments ofInt {T}.
Definition devStep {T} (A : arith T) (st : Z * T * T) (x : T) : Z * T * T :=
  let '(n, mean, dev) := st in let c := ofInt A (n + 1) in let d := minus A x mean in
  (n + 1, plus A mean (over A d c),
   plus A (times A (over A (minus A c (ofInt A 1)) (times A c c)) (times A d d)) (times A (over A (minus A c (ofInt A 1)) c) dev)).
Definition devs {T} (A : arith T) (xs : list T) : Z * T * T := fold_left (devStep A) xs (0, ofInt A 0, ofInt A 0).
Definition doubles : arith f64 := mkAr f64 f64add f64sub f64mul f64div f64ofZ.
Definition rationals : arith Q := mkAr Q Qplus Qminus Qmult Qdiv inject_Z.

(** * The steps *)
Lemma ofZ_big n : 0 < n < 2 ^ 53 -> bigEnough (f64ofZ n) = true.
Proof.
  intros H. destruct (ofZ_form n) as (s & M & F & -> & _ & _ & _ & _ & HF & ->); try lia. replace (n <? 0) with false by lia. unfold bigEnough, f64ltb, SFltb, f64abs, kEpsilon. cbn [SFabs SFcompare].
  replace (-79 ?= F) with Lt by (symmetry; apply Z.compare_lt_iff; lia). reflexivity.
Qed.
Lemma sq_big n : 0 < n < 2 ^ 53 -> bigEnough (f64mul (f64ofZ n) (f64ofZ n)) = true.
Proof.
  intros H. destruct (ofZ_form n) as (s & M & F & -> & _ & _ & _ & HD & HF & ->); try lia. replace (n <? 0) with false by lia. unfold f64mul, SFmul.
  assert (D : 105 <= Z.pos (digits2_pos (M * M))).
  { pose proof (digits2_bounds M) as B1. rewrite HD in B1. change (53 - 1) with 52 in B1. pose proof (digits2_bounds (M * M)) as B2. rewrite Pos2Z.inj_mul in B2.
    destruct (Z.le_gt_cases 105 (Z.pos (digits2_pos (M * M)))) as [|G]; auto. exfalso. assert (2 ^ Z.pos (digits2_pos (M * M)) <= 2 ^ 104) by (apply Z.pow_le_mono_r; lia).
    assert (2 ^ 52 * 2 ^ 52 = 2 ^ 104) by reflexivity. nia. }
  pose proof (mul_big (xorb false false) (M * M) (F + F) D ltac:(lia)) as K. destruct (binary_round_aux _ _ _ _ _ _) as [| | |t m e]; try contradiction; [reflexivity|]. destruct K as [-> K].
  unfold bigEnough, f64ltb, SFltb, f64abs, kEpsilon. cbn [SFabs SFcompare xorb]. replace (-79 ?= e) with Lt by (symmetry; apply Z.compare_lt_iff; lia). reflexivity.
Qed.

Section S.
Context (X : externals).
Notation rows f := (aggRows X f false).
Notation keptOf := AggProps.keptOf.

Lemma numeric_flags v : numeric v = true -> isNull v = false /\ isEmpty v = false /\ isNumericV v = true.
Proof. destruct v; try discriminate; auto. Qed.
Lemma vaddF x v : numeric v = true -> vadd X (VFloat x) v = Ret (VFloat (f64add x (toF v))).
Proof. destruct v; try discriminate; reflexivity. Qed.

Lemma avg_rows ks : forall a s n r0, (forall v, In v ks -> numeric v = true) -> 0 <= n -> n + nOf ks < 2 ^ 53 ->
  asum a = VFloat s -> acnt a = VFloat (f64ofZ n) -> ares a = VFloat r0 -> ks <> [] ->
  exists b, rows AAvg a ks = Ret b /\ ares b = VFloat (f64div (fold_left f64add (map toF ks) s) (f64ofZ (n + nOf ks))).
Proof.
  induction ks as [|v ks IH]; intros a s n r0 Hn Hn0 Hlt Hs Hc Hr Hne; [congruence|]. cbn [aggRows aggEval aggStep]. unfold aggAvg. rewrite Hr. cbn [isBadNull isNull].
  destruct (numeric_flags v) as (F1 & F2 & F3); [apply Hn; cbn; auto|]. rewrite F1, F2, F3. cbn [negb andb orb]. cbv zeta. rewrite Hs, Hc, vaddF by (apply Hn; cbn; auto). cbn [obind].
  unfold nOf in *. cbn [List.length] in Hlt. change (vadd X (VFloat (f64ofZ n)) (VInt 1)) with (Ret (VFloat (f64add (f64ofZ n) (f64ofZ 1)))). rewrite f64add_int by lia. cbn [obind].
  unfold vdiv. cbn [nullOrEmpty isNull isEmpty orb andb]. rewrite ofZ_big by lia. cbn [obind]. destruct ks as [|w ks].
  - eexists. split; [reflexivity|]. reflexivity.
  - edestruct (IH (mkAgg (VFloat (f64ofZ (n + 1))) (VFloat (f64add s (toF v))) (aavg a) (adev a) (VFloat (f64div (f64add s (toF v)) (f64ofZ (n + 1)))) (auniq a)) (f64add s (toF v)) (n + 1))
      as (b & E & R); try reflexivity; try lia; [intros; apply Hn; cbn; auto|discriminate|].
    exists b. split; [exact E|]. rewrite R. cbn [map fold_left List.length]. do 3 f_equal. lia.
Qed.

(** AVG is the sum of the kept numbers, as doubles, divided by their number. *)
Theorem C43_average : forall l, keptOf l <> [] -> (forall v, In v (keptOf l) -> numeric v = true) -> nOf (keptOf l) < 2 ^ 53 ->
  aggValue X AAvg false l = Ret (VFloat (f64div (sumF (keptOf l)) (f64ofZ (nOf (keptOf l))))).
Proof.
  intros l Hne Hn Hlt. rewrite value_kept by (try discriminate; assumption). set (ks := keptOf l) in *. clearbody ks. unfold aggValue.
  destruct (avg_rows ks (mkAgg (VFloat f64zero) (VFloat f64zero) (VFloat f64zero) (VFloat f64zero) (VFloat f64zero) []) f64zero 0 f64zero) as (b & E & R); auto; try lia; try reflexivity.
  assert (E' : rows AAvg aggNew ks = Ret b); [|rewrite E'; cbn [obind]; rewrite R; reflexivity]. rewrite <- E. destruct ks as [|v ks]; [congruence|]. cbn [aggRows aggEval aggStep].
  destruct (numeric_flags v) as (F1 & F2 & F3); [apply Hn; cbn; auto|]. unfold aggAvg. cbn [aggNew ares isBadNull isNull kNull]. rewrite F1, F2, F3. reflexivity.
Qed.
Lemma sumF_exact zs : forall s, Z.abs s < 2 ^ 53 -> exactFrom s zs -> fold_left f64add (map toF (ints zs)) (f64ofZ s) = f64ofZ (fold_left Z.add zs s).
Proof.
  induction zs as [|z zs IH]; intros s Hs H; [reflexivity|]. destruct H as (H1 & H2 & H3). cbn [ints map fold_left toF]. rewrite f64add_int by assumption. apply IH; assumption.
Qed.
(** AVG of integers is the exact sum divided by the number of them, rounded once. *)
Theorem C43_average_ints : forall l zs, keptOf l = ints zs -> zs <> [] -> exactFrom 0 zs -> nOf zs < 2 ^ 53 ->
  aggValue X AAvg false l = Ret (VFloat (f64div (f64ofZ (fold_left Z.add zs 0)) (f64ofZ (nOf zs)))).
Proof.
  intros l zs E Hne Hx Hlt. assert (N : nOf (ints zs) = nOf zs) by (unfold nOf, ints; rewrite map_length; reflexivity).
  rewrite C43_average; rewrite E, ?N; auto.
  - unfold sumF. rewrite sumF_exact by (try assumption; cbn; lia). reflexivity.
  - destruct zs; [congruence|discriminate].
  - intros v Hv. apply in_map_iff in Hv. destruct Hv as (z & <- & _). reflexivity.
Qed.

(** * STD *)
Lemma vsubF v x : numeric v = true -> vsub v (VFloat x) = Ret (VFloat (f64sub (toF v) x)).
Proof. destruct v; try discriminate; reflexivity. Qed.
Lemma vdivF x y : bigEnough y = true -> vdiv (VFloat x) (VFloat y) = Ret (VFloat (f64div x y)).
Proof. intros H. unfold vdiv. cbn [nullOrEmpty isNull isEmpty orb andb]. rewrite H. reflexivity. Qed.
Lemma std_rows ks : forall a n mean dev r0, (forall v, In v ks -> numeric v = true) -> 0 <= n -> n + nOf ks < 2 ^ 53 ->
  aavg a = VFloat mean -> adev a = VFloat dev -> acnt a = VFloat (f64ofZ n) -> ares a = VFloat r0 -> ks <> [] ->
  exists b, rows AStd a ks = Ret b /\ ares b = VFloat (f64sqrt (snd (fold_left (devStep doubles) (map toF ks) (n, mean, dev)))).
Proof.
  induction ks as [|v ks IH]; intros a n mean dev r0 Hn Hn0 Hlt Hs Hd Hc Hr Hne; [congruence|]. cbn [aggRows aggEval aggStep]. unfold aggStd. rewrite Hr. cbn [isBadNull isNull].
  assert (Nv : numeric v = true) by (apply Hn; cbn; auto). destruct (numeric_flags v Nv) as (F1 & F2 & F3). rewrite F1, F2, F3. cbn [negb andb orb]. cbv zeta. rewrite Hs, Hd, Hc.
  unfold nOf in *. cbn [List.length] in Hlt. change (vadd X (VFloat (f64ofZ n)) (VInt 1)) with (Ret (VFloat (f64add (f64ofZ n) (f64ofZ 1)))). rewrite f64add_int by lia. cbn [obind].
  change (vsub (VFloat (f64ofZ (n + 1))) (VInt 1)) with (Ret (VFloat (f64sub (f64ofZ (n + 1)) (f64ofZ 1)))). cbn [obind].
  assert (VM : forall x y, vmul (VFloat x) (VFloat y) = Ret (VFloat (f64mul x y))) by reflexivity. assert (VA : forall x y, vadd X (VFloat x) (VFloat y) = Ret (VFloat (f64add x y))) by reflexivity.
  rewrite VM. cbn [obind]. rewrite vdivF by (apply sq_big; lia). cbn [obind]. rewrite vsubF by assumption. cbn [obind]. rewrite !VM. cbn [obind]. rewrite VM. cbn [obind].
  rewrite vdivF by (apply ofZ_big; lia). cbn [obind]. rewrite VM. cbn [obind]. rewrite VA. cbn [obind]. rewrite vdivF by (apply ofZ_big; lia). cbn [obind]. rewrite VA. cbn [obind]. destruct ks as [|w ks].
  - eexists. split; [reflexivity|]. reflexivity.
  - match goal with |- exists b, rows AStd ?a' _ = _ /\ _ => edestruct (IH a' (n + 1)) as (b & E & R); try reflexivity; try lia; [intros; apply Hn; cbn; auto|discriminate|] end.
    exists b. split; [exact E|]. rewrite R. reflexivity.
Qed.
(** STD is the square root of the deviation computed in double precision by the steps of [devs] ... *)
Theorem C43_std_steps : forall l, keptOf l <> [] -> (forall v, In v (keptOf l) -> numeric v = true) -> nOf (keptOf l) < 2 ^ 53 ->
  aggValue X AStd false l = Ret (VFloat (f64sqrt (snd (devs doubles (map toF (keptOf l)))))).
Proof.
  intros l Hne Hn Hlt. rewrite value_kept by (try discriminate; assumption). set (ks := keptOf l) in *. clearbody ks. unfold aggValue.
  destruct (std_rows ks (mkAgg (VFloat f64zero) (VFloat f64zero) (VFloat f64zero) (VFloat f64zero) (VFloat f64zero) []) 0 f64zero f64zero f64zero) as (b & E & R); auto; try lia; try reflexivity.
  assert (E' : rows AStd aggNew ks = Ret b); [|rewrite E'; cbn [obind]; rewrite R; reflexivity]. rewrite <- E. destruct ks as [|v ks]; [congruence|]. cbn [aggRows aggEval aggStep].
  destruct (numeric_flags v) as (F1 & F2 & F3); [apply Hn; cbn; auto|]. unfold aggStd. cbn [aggNew ares isBadNull isNull kNull]. rewrite F1, F2, F3. reflexivity.
Qed.

(** SUM of integers followed by any numbers from the first double on *)
Theorem C43_sum_doubles : forall l zs f rest, keptOf l = ints zs ++ VFloat f :: rest -> noOverflow zs -> (forall v, In v rest -> numeric v = true) ->
  aggValue X ASum false l = Ret (VFloat (fold_left f64add (map toF rest) (f64add (f64ofZ (sumZ zs)) f))).
Proof.
  intros l zs f rest Hk Hno Hn. rewrite value_kept by (try discriminate; rewrite Hk; destruct zs; discriminate). rewrite Hk. unfold aggValue. rewrite rows_app.
  assert (G : forall rest a x, ares a = VFloat x -> (forall v, In v rest -> numeric v = true) -> exists b, rows ASum a rest = Ret b /\ ares b = VFloat (fold_left f64add (map toF rest) x)).
  { clear. induction rest as [|v rest IH]; intros a x Ha Hn; [exists a; auto|]. cbn [aggRows aggEval aggStep]. unfold aggSum. rewrite Ha. cbn [isBadNull isNull].
    destruct (numeric_flags v) as (F1 & F2 & F3); [apply Hn; cbn; auto|]. rewrite F1, F2, F3. cbn [negb andb orb]. cbv zeta. rewrite Ha. cbn [isNull]. rewrite vaddF by (apply Hn; cbn; auto). cbn [obind].
    destruct (IH (setRes a (VFloat (f64add x (toF v)))) (f64add x (toF v)) eq_refl) as (b & E & R); [intros; apply Hn; cbn; auto|]. exists b. auto. }
  assert (Z0 : exists a0, rows ASum aggNew (ints zs) = Ret a0 /\ (ares a0 = VInt (sumZ zs) \/ (zs = [] /\ a0 = aggNew))).
  { destruct zs as [|z zs]; [eexists; split; [reflexivity|auto]|]. pose proof (C43_sum X (ints (z :: zs)) (z :: zs)) as K. unfold aggValue in K.
    destruct (rows ASum aggNew (ints (z :: zs))) as [a0| | |]; cbn [obind] in K.
    - exists a0. split; [reflexivity|left]. assert (K' : Ret (ares a0) = Ret (VInt (sumZ (z :: zs)))); [|apply Ret_inj in K'; exact K']. apply K; [|discriminate|assumption].
      clear. generalize (z :: zs). induction l as [|y l IH]; [reflexivity|]. cbn. f_equal. exact IH.
    - exfalso. discriminate K; [|discriminate|assumption]. clear. generalize (z :: zs). induction l as [|y l IH]; [reflexivity|]. cbn. f_equal. exact IH.
    - exfalso. discriminate K; [|discriminate|assumption]. clear. generalize (z :: zs). induction l as [|y l IH]; [reflexivity|]. cbn. f_equal. exact IH.
    - exfalso. discriminate K; [|discriminate|assumption]. clear. generalize (z :: zs). induction l as [|y l IH]; [reflexivity|]. cbn. f_equal. exact IH. }
  destruct Z0 as (a0 & -> & Z0). cbn [obind aggRows aggEval aggStep]. unfold aggSum.
  destruct Z0 as [Ha | [-> ->]].
  - rewrite Ha. cbn [isBadNull isNull isEmpty isNumericV negb andb orb]. cbv zeta. rewrite Ha. cbn [isNull]. change (vadd X (VInt (sumZ zs)) (VFloat f)) with (Ret (VFloat (f64add (f64ofZ (sumZ zs)) f))). cbn [obind].
    destruct (G rest (setRes a0 (VFloat (f64add (f64ofZ (sumZ zs)) f))) _ eq_refl Hn) as (b & -> & R). cbn [obind]. rewrite R. reflexivity.
  - cbn [aggNew ares isBadNull isNull kNull isEmpty isNumericV negb andb orb setRes]. change (vadd X (VInt 0) (VFloat f)) with (Ret (VFloat (f64add (f64ofZ 0) f))). cbn [obind].
    match goal with |- context [aggRows X ASum false ?a rest] => destruct (G rest a (f64add (f64ofZ 0) f) eq_refl Hn) as (b & -> & R) end. cbn [obind]. rewrite R. reflexivity.
Qed.
End S.

(** ... which in exact arithmetic is the population variance, the mean being the sum divided by the number. *)
Open Scope Q_scope.
Definition sumQ (xs : list Q) : Q := fold_right Qplus 0 xs.
Lemma sumQ_app xs ys : sumQ (xs ++ ys) == sumQ xs + sumQ ys.
Proof. unfold sumQ. induction xs as [|x xs IH]; cbn [app fold_right]; [ring|]. rewrite IH. ring. Qed.
Lemma nOf_app {A} (xs : list A) y : nOf (xs ++ [y]) = (nOf xs + 1)%Z.
Proof. unfold nOf. rewrite app_length. cbn. lia. Qed.
Lemma nOf_pos {A} (xs : list A) : xs <> [] -> 0 < inject_Z (nOf xs).
Proof. intros H. destruct xs; [congruence|]. unfold nOf. change 0 with (inject_Z 0). rewrite <- Zlt_Qlt. cbn. lia. Qed.
(** n * mean = sum and n * n * dev = n * (sum of squares) - sum * sum *)
Lemma devs_inv xs : exists mean dev, devs rationals xs = (nOf xs, mean, dev) /\ inject_Z (nOf xs) * mean == sumQ xs /\
  inject_Z (nOf xs) * inject_Z (nOf xs) * dev == inject_Z (nOf xs) * sumQ (map (fun x => x * x) xs) - sumQ xs * sumQ xs.
Proof.
  induction xs as [|x xs (mean & dev & E & Hm & Hd)] using rev_ind.
  - exists 0, 0. splits; reflexivity.
  - unfold devs in *. rewrite fold_left_app, E. cbn [fold_left devStep rationals plus minus times over ofInt]. rewrite nOf_app. do 2 eexists. split; [reflexivity|].
    rewrite map_app, !sumQ_app, inject_Z_plus. cbn [map sumQ fold_right]. set (n := inject_Z (nOf xs)) in *. set (s := sumQ xs) in *. set (q := sumQ (map (fun x => x * x) xs)) in *.
    assert (Hn : 0 <= n). { unfold n, nOf. change 0 with (inject_Z 0). rewrite <- Zle_Qle. lia. }
    change (inject_Z 1) with 1. assert (Hn1 : ~ n + 1 == 0) by (intros X; lra). split.
    + setoid_replace ((n + 1) * (mean + (x - mean) / (n + 1))) with (n * mean + x) by (field; exact Hn1). rewrite Hm. ring.
    + setoid_replace ((n + 1) * (n + 1) * ((n + 1 - 1) / ((n + 1) * (n + 1)) * ((x - mean) * (x - mean)) + (n + 1 - 1) / (n + 1) * dev))
        with (n * (x - mean) * (x - mean) + n * n * dev + n * dev) by (field; exact Hn1).
      rewrite Hd. destruct (Qeq_dec n 0) as [Z0|NZ].
      * rewrite Z0 in *. assert (s == 0) as -> by (rewrite <- Hm; ring). assert (xs = []) as ->. { unfold n, nOf in Z0. destruct xs; [reflexivity|]. exfalso. unfold Qeq in Z0. cbn in Z0. lia. } unfold q. cbn. ring.
      * assert (M : mean == s / n) by (rewrite <- Hm; field; exact NZ). assert (D : dev == (n * q - s * s) / (n * n)) by (rewrite <- Hd; field; exact NZ). rewrite M, D. field. exact NZ.
Qed.
Theorem C43_std_is_deviation : forall xs, xs <> [] -> let '(n, mean, dev) := devs rationals xs in
  mean == sumQ xs / inject_Z n /\ dev == sumQ (map (fun x => (x - mean) * (x - mean)) xs) / inject_Z n /\ n = nOf xs.
Proof.
  intros xs Hne. destruct (devs_inv xs) as (mean & dev & -> & Hm & Hd). pose proof (nOf_pos xs Hne) as P. set (n := inject_Z (nOf xs)) in *. assert (NZ : ~ n == 0) by (intros X; rewrite X in P; exact (Qlt_irrefl 0 P)).
  splits; [rewrite <- Hm; field; exact NZ| |reflexivity].
  assert (K : sumQ (map (fun x => (x - mean) * (x - mean)) xs) == sumQ (map (fun x => x * x) xs) - 2 * mean * sumQ xs + n * mean * mean).
  { unfold n. clear. induction xs as [|x xs IH]; [change (inject_Z (nOf (@nil Q))) with 0; cbn [map sumQ fold_right]; ring|]. cbn [map sumQ fold_right] in *. unfold sumQ in IH. rewrite IH. unfold nOf. cbn [List.length]. rewrite Nat2Z.inj_succ. unfold Z.succ. rewrite inject_Z_plus. change (inject_Z 1) with 1. ring. }
  assert (D : dev == (n * sumQ (map (fun x => x * x) xs) - sumQ xs * sumQ xs) / (n * n)) by (rewrite <- Hd; field; exact NZ). rewrite D, K, <- Hm. field. exact NZ.
Qed.
Close Scope Q_scope.

Example C43_float_ex : forall X,
  aggValue X AAvg false [VInt 1; VNull NNull; VInt 4] = Ret (VFloat (f64div (f64ofZ 5) (f64ofZ 2))) /\ exactFrom 0 [1; 4] /\
  aggValue X AStd false [VInt 2; VInt 4; VInt 4; VInt 4; VInt 5; VInt 5; VInt 7; VInt 9] = Ret (VFloat (f64ofZ 2)) /\
  aggValue X ASum false [VInt 2; VFloat (f64div (f64ofZ 1) (f64ofZ 2)); VInt 1] = Ret (VFloat (f64div (f64ofZ 7) (f64ofZ 2))) /\
  (snd (devs rationals [2#1; 4#1; 4#1; 4#1; 5#1; 5#1; 7#1; 9#1]) == 4#1)%Q.
Proof. intros X. splits; vm_compute; repeat split. Qed.

Print Assumptions C43_average. Print Assumptions C43_average_ints. Print Assumptions C43_std_steps. Print Assumptions C43_std_is_deviation. Print Assumptions C43_sum_doubles.
