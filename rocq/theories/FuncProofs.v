(** Lemmas about the built-in functions. *)
From Coq Require Import String List.
From Verif Require Import Prelude Trans ValueBase ValueModel GraphModel EvalModel FuncModel.
Import ListNotations.
Open Scope Z_scope.

Lemma sizeOf_nonneg {A} (l : list A) : 0 <= sizeOf l.
Proof. unfold sizeOf. lia. Qed.
Lemma sizeOf_app {A} (a b : list A) : sizeOf (a ++ b) = sizeOf a + sizeOf b.
Proof. unfold sizeOf. rewrite app_length. lia. Qed.
Lemma sizeOf_firstn {A} (l : list A) z : 0 <= z -> sizeOf (firstn (Z.to_nat z) l) = Z.min z (sizeOf l).
Proof. intros H. unfold sizeOf. rewrite firstn_length. lia. Qed.

(** substr splits the string in three. *)
Lemma substrAt_spec s pos len : 0 <= pos <= sizeOf s -> 0 <= len ->
  exists pre post, s = pre ++ substrAt s pos len ++ post /\ sizeOf pre = pos /\
    sizeOf (substrAt s pos len) = Z.min len (sizeOf s - pos).
Proof.
  intros Hp Hl. unfold substrAt.
  exists (firstn (Z.to_nat pos) s), (skipn (Z.to_nat (Z.min len (sizeOf s - pos))) (skipn (Z.to_nat pos) s)).
  splits.
  - rewrite !firstn_skipn. reflexivity.
  - rewrite sizeOf_firstn by lia. lia.
  - rewrite sizeOf_firstn by lia. unfold sizeOf in *. rewrite skipn_length. lia.
Qed.
Lemma substrAt_all s len : sizeOf s <= len -> substrAt s 0 len = s.
Proof.
  intros H. unfold substrAt. change (Z.to_nat 0) with 0%nat. cbn [skipn]. rewrite firstn_all2; [reflexivity|].
  unfold sizeOf in *. rewrite Z.sub_0_r. lia.
Qed.

(** The padding loop writes whole copies of the pad. *)
Lemma padLoop_ok extra : extra <> [] -> forall fuel size stream, 0 <= size -> (Z.to_nat size < fuel)%nat ->
  exists k r, padLoop fuel extra size stream = Ret (r, stream ++ List.concat (repeat extra k)) /\
    0 <= r <= sizeOf extra /\ size = Z.of_nat k * sizeOf extra + r.
Proof.
  intros Hne. assert (Hpos : 0 < sizeOf extra) by (destruct extra; [congruence|unfold sizeOf; cbn; lia]).
  induction fuel as [|f IH]; intros size stream Hs Hf; [lia|]. cbn [padLoop].
  destruct (Z.ltb_spec (sizeOf extra) size) as [H | H].
  - destruct (IH (size - sizeOf extra) (stream ++ extra)) as (k & r & -> & Hr & Hk); [lia|lia|].
    exists (S k), r. splits; [|lia|lia|lia].
    cbn [repeat List.concat]. rewrite <- app_assoc. reflexivity.
  - exists 0%nat, size. cbn. rewrite app_nil_r. splits; auto; lia.
Qed.
Lemma padLoop_stuck fuel size stream : 0 < size -> padLoop fuel [] size stream = Diverge.
Proof.
  revert size stream. induction fuel as [|f IH]; intros size stream H; [reflexivity|]. cbn [padLoop].
  change (sizeOf (@nil Z)) with 0. replace (0 <? size) with true by (symmetry; apply Z.ltb_lt; lia).
  apply IH. lia.
Qed.
Lemma padLoop_zero fuel extra stream : padLoop (S fuel) extra 0 stream = Ret (0, stream).
Proof. cbn. pose proof (sizeOf_nonneg extra). destruct (Z.ltb_spec (sizeOf extra) 0); [lia|reflexivity]. Qed.

(** Copies of the pad and a prefix of it: position i holds byte i mod size of the pad. *)
Lemma cycle_nth (extra : str) k r i : (r <= List.length extra)%nat -> (0 < List.length extra)%nat ->
  (i < k * List.length extra + r)%nat ->
  nth_error (List.concat (repeat extra k) ++ firstn r extra) i = nth_error extra (i mod List.length extra).
Proof.
  intros Hr Hp. revert i. induction k as [|k IH]; intros i Hi.
  - cbn in *. rewrite (Nat.mod_small i) by lia. rewrite <- (firstn_skipn r extra) at 2.
    rewrite nth_error_app1; [reflexivity|]. rewrite firstn_length. lia.
  - cbn [repeat List.concat]. rewrite <- app_assoc. destruct (Nat.lt_ge_cases i (List.length extra)).
    + rewrite nth_error_app1 by assumption. rewrite Nat.mod_small by assumption. reflexivity.
    + rewrite nth_error_app2 by assumption. rewrite IH by lia.
      rewrite <- (Nat.mod_add (i - List.length extra) 1) by lia. f_equal. f_equal. lia.
Qed.
Lemma concat_repeat_length (extra : str) k : List.length (List.concat (repeat extra k)) = (k * List.length extra)%nat.
Proof. induction k; cbn [repeat List.concat]; [reflexivity|]. rewrite app_length, IHk. lia. Qed.

(** The arithmetic progression. *)
Fixpoint progression (n : nat) (i step : Z) : list value :=
  match n with O => [] | S n' => VInt i :: progression n' (i + step) step end.
Lemma progression_nth n : forall i step k,
  nth_error (progression n i step) k = if (k <? n)%nat then Some (VInt (i + Z.of_nat k * step)) else None.
Proof.
  induction n as [|n IH]; intros i step [|k]; cbn [progression nth_error]; try reflexivity.
  - change (0 <? S n)%nat with true. cbv iota. do 2 f_equal. lia.
  - rewrite IH. change (S k <? S n)%nat with (k <? n)%nat. destruct (k <? n)%nat; [|reflexivity].
    f_equal. f_equal. lia.
Qed.

Definition goesOn (i last step : Z) : bool := if 0 <? step then i <=? last else last <=? i.
(** The loop runs as long as it is inside the bound and every addition stays in int64. *)
Lemma rangeLoop_ok last step n : forall fuel i res, (n < fuel)%nat ->
  (forall k, (k < n)%nat -> goesOn (i + Z.of_nat k * step) last step = true /\ in_int64 (i + Z.of_nat (S k) * step) = true) ->
  goesOn (i + Z.of_nat n * step) last step = false ->
  rangeLoop fuel i last step res = Ret (res ++ progression n i step).
Proof.
  induction n as [|n IH]; intros [|f] i res Hf Hk Hend; try lia; cbn [rangeLoop progression].
  - rewrite Z.mul_0_l, Z.add_0_r in Hend. unfold goesOn in Hend. rewrite Hend, app_nil_r. reflexivity.
  - destruct (Hk 0%nat) as [H1 H2]; [lia|]. rewrite Z.mul_0_l, Z.add_0_r in H1. unfold goesOn in H1. rewrite H1.
    replace (i + Z.of_nat 1 * step) with (i + step) in H2 by lia. rewrite H2.
    rewrite (IH f (i + step) (res ++ [VInt i])).
    + rewrite <- app_assoc. reflexivity.
    + lia.
    + intros k Hlt. destruct (Hk (S k)) as [A1 A2]; [lia|].
      replace (i + step + Z.of_nat k * step) with (i + Z.of_nat (S k) * step) by lia.
      replace (i + step + Z.of_nat (S k) * step) with (i + Z.of_nat (S (S k)) * step) by lia. auto.
    + rewrite <- Hend. f_equal. lia.
Qed.
Lemma rangeLoop_ub last step n : forall fuel i res, (n < fuel)%nat ->
  (forall k, (k < n)%nat -> goesOn (i + Z.of_nat k * step) last step = true /\ in_int64 (i + Z.of_nat (S k) * step) = true) ->
  goesOn (i + Z.of_nat n * step) last step = true -> in_int64 (i + Z.of_nat (S n) * step) = false ->
  rangeLoop fuel i last step res = UB.
Proof.
  induction n as [|n IH]; intros [|f] i res Hf Hk Hend Hov; try lia; cbn [rangeLoop].
  - rewrite Z.mul_0_l, Z.add_0_r in Hend. unfold goesOn in Hend. rewrite Hend.
    replace (i + Z.of_nat 1 * step) with (i + step) in Hov by lia. rewrite Hov. reflexivity.
  - destruct (Hk 0%nat) as [H1 H2]; [lia|]. rewrite Z.mul_0_l, Z.add_0_r in H1. unfold goesOn in H1. rewrite H1.
    replace (i + Z.of_nat 1 * step) with (i + step) in H2 by lia. rewrite H2.
    apply IH.
    + lia.
    + intros k Hlt. destruct (Hk (S k)) as [A1 A2]; [lia|].
      replace (i + step + Z.of_nat k * step) with (i + Z.of_nat (S k) * step) by lia.
      replace (i + step + Z.of_nat (S k) * step) with (i + Z.of_nat (S (S k)) * step) by lia. auto.
    + rewrite <- Hend. f_equal. lia.
    + rewrite <- Hov. f_equal. lia.
Qed.

(** Splitting *)
Lemma isPrefix_spec p s : isPrefix p s = true <-> exists t, s = p ++ t.
Proof.
  revert s. induction p as [|x p IH]; intros s; cbn.
  - split; [eauto|reflexivity].
  - destruct s as [|y s].
    + split; [discriminate|]. intros (t & H). discriminate H.
    + rewrite andb_true_iff, Z.eqb_eq, IH. split.
      * intros (-> & t & ->). eauto.
      * intros (t & H). injection H as <- ->. eauto.
Qed.
