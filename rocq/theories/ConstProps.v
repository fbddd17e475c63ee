(** C184: the numbers e() and pi(), FunctionManager.cpp 484-493, 634-643, against the real numbers. *)
From Coq Require Import String List ZArith Reals Lra Lia QArith Qreals Ratan Rfunctions SpecFloat.
From Flocq Require Import Core BinarySingleNaN.
From Verif Require Import Prelude ValueBase ValueModel EvalModel FuncModel FuncTableModel FuncLawProps FloatReal.
Import ListNotations.
Local Open Scope R_scope.

(** ** Series as sums of fractions *)
Section Series.
Context (q : nat -> Q) (r : nat -> R) (same : forall n, Q2R (q n) = r n).
Fixpoint qsum (n : nat) : Q := match n with O => Qred (q 0) | S m => Qred (qsum m + q (S m)) end.
Lemma Q2R_red x : Q2R (Qred x) = Q2R x.
Proof. apply Qeq_eqR, Qred_correct. Qed.
Lemma qsum_real n : Q2R (qsum n) = sum_f_R0 r n.
Proof. induction n as [|n IH]; cbn [qsum sum_f_R0]; rewrite Q2R_red; [apply same|]. rewrite Q2R_plus, IH, same. reflexivity. Qed.
End Series.
Definition qpow (x : Q) (n : nat) : Q := Nat.iter n (fun y => Qred (x * y)) 1%Q.
Lemma qpow_real x n : Q2R (qpow x n) = Q2R x ^ n.
Proof. induction n as [|n IH]; [unfold Q2R; cbn; lra|]. change (qpow x (S n)) with (Qred (x * qpow x n)). rewrite Q2R_red, Q2R_mult, IH. reflexivity. Qed.
Definition qinv (n : positive) : Q := (1 # n)%Q.
Lemma qinv_real n : Q2R (qinv n) = / IZR (Z.pos n).
Proof. unfold Q2R, qinv. cbn. lra. Qed.
Lemma INR_pos n : INR (S n) = IZR (Z.pos (Pos.of_succ_nat n)).
Proof. rewrite INR_IZR_INZ. f_equal. Qed.

(** ** pi by arctangents *)
Definition qarc (x : Q) (n : nat) : Q := (qpow x (2 * n + 1) * qinv (Pos.of_succ_nat (2 * n)))%Q.
Definition qpiTerm (n : nat) : Q := (qpow (-1) n * ((2 # 1) * qarc (1 # 3) n + qarc (1 # 7) n))%Q.
Lemma qarc_real k n : Q2R (qarc (1 # k) n) = Ratan_seq (/ IZR (Z.pos k)) n.
Proof.
  unfold qarc, Ratan_seq. rewrite Q2R_mult, qpow_real, qinv_real. change (Q2R (1 # k)) with (Q2R (qinv k)). rewrite qinv_real.
  replace (2 * n + 1)%nat with (S (2 * n)) by lia. rewrite <- INR_pos. reflexivity.
Qed.
Lemma qpi_real n : Q2R (qpiTerm n) = tg_alt PI_2_3_7_tg n.
Proof.
  unfold qpiTerm, tg_alt, PI_2_3_7_tg. rewrite Q2R_mult, Q2R_plus, Q2R_mult, qpow_real, !qarc_real.
  replace (Q2R (2 # 1)) with 2 by (unfold Q2R; cbn; lra). replace (Q2R (-1)) with (-1) by (unfold Q2R; cbn; lra). reflexivity.
Qed.
Lemma pi_between n : Q2R (qsum qpiTerm (S (2 * n))) <= PI / 4 <= Q2R (qsum qpiTerm (2 * n)).
Proof. rewrite !(qsum_real _ _ qpi_real). apply PI_2_3_7_ineq. Qed.

(** ** e by factorials *)
Fixpoint qfact (n : nat) : Z := match n with O => 1 | S m => Z.of_nat (S m) * qfact m end%Z.
Lemma qfact_pos n : (0 < qfact n)%Z.
Proof. induction n as [|n IH]; cbn [qfact]; lia. Qed.
Lemma qfact_real n : INR (fact n) = IZR (qfact n).
Proof. induction n as [|n IH]; [reflexivity|]. cbn [qfact]. rewrite fact_simpl, mult_INR, mult_IZR, IH, INR_IZR_INZ. reflexivity. Qed.
Definition qeTerm (n : nat) : Q := qinv (Z.to_pos (qfact n)).
Definition rTerm (n : nat) : R := / INR (fact n) * 1 ^ n.
Lemma rTerm_pos n : 0 < rTerm n.
Proof. unfold rTerm. rewrite pow1, Rmult_1_r. apply Rinv_0_lt_compat, INR_fact_lt_0. Qed.
Lemma qe_real n : Q2R (qeTerm n) = rTerm n.
Proof. unfold qeTerm, rTerm. rewrite qinv_real, Z2Pos.id by apply qfact_pos. rewrite qfact_real, pow1. lra. Qed.
Lemma e_series : Un_cv (sum_f_R0 rTerm) (exp 1).
Proof. unfold exp. destruct (exist_exp 1) as [l H]. exact H. Qed.
Lemma bound_decreases n k : (1 <= n)%nat -> sum_f_R0 rTerm (k + n) + rTerm (k + n) <= sum_f_R0 rTerm n + rTerm n.
Proof.
  intros H. induction k as [|k IH]; [cbn; lra|]. cbn [Nat.add sum_f_R0]. enough (2 * rTerm (S (k + n)) <= rTerm (k + n)) by lra. clear IH.
  unfold rTerm. rewrite !pow1, !Rmult_1_r, fact_simpl, mult_INR. pose proof (INR_fact_lt_0 (k + n)) as P. assert (2 <= INR (S (k + n))) by (change 2 with (INR 2); apply le_INR; lia).
  rewrite Rinv_mult_distr by lra. rewrite <- Rmult_assoc. rewrite <- (Rmult_1_l (/ INR (fact (k + n)))) at 2. apply Rmult_le_compat_r; [left; apply Rinv_0_lt_compat; exact P|].
  apply Rmult_le_reg_r with (INR (S (k + n))); [lra|]. rewrite Rmult_assoc, Rinv_l by lra. lra.
Qed.
Lemma e_between n : (1 <= n)%nat -> Q2R (qsum qeTerm n) <= exp 1 <= Q2R (qsum qeTerm n + qeTerm n).
Proof.
  intros H. rewrite Q2R_plus, !(qsum_real _ _ qe_real), qe_real. split.
  - apply sum_incr; [exact e_series|]. intros k. left. apply rTerm_pos.
  - apply Rnot_lt_le. intros L. destruct (e_series (exp 1 - (sum_f_R0 rTerm n + rTerm n)) ltac:(lra)) as [N C]. specialize (C (N + n)%nat ltac:(lia)).
    pose proof (bound_decreases n N H) as D. pose proof (rTerm_pos (N + n)). unfold R_dist in C. apply Rabs_def2 in C as [_ C]. lra.
Qed.

(** ** The constants *)
Definition qval (m : positive) (e : positive) : Q := (Z.pos m # (2 ^ e))%Q.
Lemma qval_real m e : val (S754_finite false m (Z.neg e)) = Q2R (qval m e).
Proof. unfold val, SF2R, F2R, Q2R, qval. cbn [cond_Zopp Fnum Fexp Qnum Qden bpow]. f_equal. f_equal. f_equal. symmetry. rewrite Pos2Z.inj_pow. reflexivity. Qed.
Lemma close x lo hi m e (d : Q) : Q2R lo <= x <= Q2R hi -> Qle_bool (qval m e - d) lo = true -> Qle_bool hi (qval m e + d) = true ->
  Rabs (val (S754_finite false m (Z.neg e)) - x) <= Q2R d.
Proof.
  intros [L U] A C. apply Qle_bool_iff, Qle_Rle in A, C. rewrite Q2R_minus in A. rewrite Q2R_plus in C. rewrite qval_real. apply Rabs_le. lra.
Qed.
(** Between 2 and 4 doubles are 2 ^ -51 apart: e() and pi() are the doubles nearest to e and pi. *)
Theorem C184_constants : forall X W o, exists e p, calls X W o "e" [] (VFloat e) /\ calls X W o "pi" [] (VFloat p) /\
  Rabs (val e - exp 1) <= / 2 ^ 52 /\ Rabs (val p - PI) <= / 2 ^ 52.
Proof.
  intros X W o. exists kE, kPi. split; [reflexivity|]. split; [reflexivity|].
  assert (D : Q2R (1 # 2 ^ 52) = / 2 ^ 52) by (unfold Q2R; cbn; lra). rewrite <- D. split.
  - apply (close _ _ _ _ _ _ (e_between 20 ltac:(lia))); vm_compute; reflexivity.
  - assert (P : Q2R ((4 # 1) * qsum qpiTerm 41) <= PI <= Q2R ((4 # 1) * qsum qpiTerm 40)).
    { pose proof (pi_between 20) as K. rewrite !Q2R_mult. replace (Q2R (4 # 1)) with 4 by (unfold Q2R; cbn; lra). change (S (2 * 20)) with 41%nat in K. change (2 * 20)%nat with 40%nat in K. lra. }
    apply (close _ _ _ _ _ _ P); vm_compute; reflexivity.
Qed.
Print Assumptions C184_constants.
