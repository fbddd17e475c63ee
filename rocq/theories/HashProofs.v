From Coq Require Import Btauto.
From Verif Require Import Prelude HashModel HashSpec.

Lemma le_num_range l : bytes_ok l -> 0 <= le_num l < 256 ^ Z.of_nat (length l).
Proof.
  induction 1 as [|b l Hb _ IH]; [cbn; lia|].
  cbn [le_num length]. rewrite Nat2Z.inj_succ, Z.pow_succ_r by lia. lia.
Qed.

Lemma add_disjoint b x : 0 <= b < 256 -> b + 256 * x = Z.lxor b (Z.shiftl x 8).
Proof.
  intros Hb. rewrite Z.shiftl_mul_pow2 by lia. change (2 ^ 8) with 256. rewrite (Z.mul_comm x 256).
  apply Z.add_nocarry_lxor. apply Z.bits_inj'. intros n Hn. rewrite Z.land_spec, Z.bits_0.
  destruct (Z_lt_le_dec n 8).
  - replace (256 * x) with (x * 2 ^ 8) by lia. rewrite Z.mul_pow2_bits_low by lia. apply andb_false_r.
  - destruct (Z.eq_dec b 0) as [-> | Hb0]; [rewrite Z.bits_0; reflexivity|].
    rewrite (Z.bits_above_log2 b n); [reflexivity|lia|].
    apply Z.log2_lt_pow2; [lia|]. pose proof (Z.pow_le_mono_r 2 8 n). lia.
Qed.
Lemma lor_disjoint b x : 0 <= b < 256 -> Z.lor b (Z.shiftl x 8) = b + 256 * x.
Proof.
  intros Hb. rewrite add_disjoint by assumption. symmetry. apply Z.lxor_lor.
  apply Z.bits_inj'. intros n Hn. rewrite Z.land_spec, Z.bits_0.
  destruct (Z_lt_le_dec n 8).
  - rewrite Z.shiftl_spec_low by lia. apply andb_false_r.
  - destruct (Z.eq_dec b 0) as [-> | Hb0]; [rewrite Z.bits_0; reflexivity|].
    rewrite (Z.bits_above_log2 b n); [reflexivity|lia|].
    apply Z.log2_lt_pow2; [lia|]. pose proof (Z.pow_le_mono_r 2 8 n). lia.
Qed.

Lemma le_num_app a b : le_num (a ++ b) = le_num a + 256 ^ Z.of_nat (length a) * le_num b.
Proof.
  induction a as [|x a IH]; cbn [le_num app length]; [cbn; lia|].
  rewrite IH, Nat2Z.inj_succ, Z.pow_succ_r by lia. lia.
Qed.

Lemma shl64_byte b k : 0 <= b < 256 -> 0 <= k <= 56 -> shl64 b k = Z.shiftl b k.
Proof.
  intros Hb Hk. unfold shl64, two64. apply Z.mod_small. rewrite Z.shiftl_mul_pow2 by lia.
  pose proof (Z.pow_le_mono_r 2 k 56). pose proof (Z.pow_pos_nonneg 2 k).
  change (2 ^ 64) with (256 * 2 ^ 56). nia.
Qed.

(** Reading through a memory that extends the message. *)
Lemma rd8_app pre b post : rd8 (pre ++ b :: post) (length pre) = Ret b.
Proof. unfold rd8. rewrite nth_error_app2, Nat.sub_diag by lia. reflexivity. Qed.

Lemma rd8_nth pre l post k b : nth_error l k = Some b -> rd8 (pre ++ l ++ post) (length pre + k) = Ret b.
Proof.
  intros H. unfold rd8. rewrite nth_error_app2 by lia. replace (length pre + k - length pre)%nat with k by lia.
  rewrite nth_error_app1; [rewrite H; reflexivity|]. apply nth_error_Some. congruence.
Qed.

Lemma rd8_hd pre b l post : rd8 (pre ++ (b :: l) ++ post) (length pre) = Ret b.
Proof. apply (rd8_app pre b (l ++ post)). Qed.

Lemma rd64_ok pre w post : length w = 8%nat -> bytes_ok w -> rd64 (pre ++ w ++ post) (length pre) = Ret (le_num w).
Proof.
  intros Hl Hb. destruct w as [|b0 [|b1 [|b2 [|b3 [|b4 [|b5 [|b6 [|b7 [|? ?]]]]]]]]]; try discriminate.
  unfold rd64. rewrite <- (Nat.add_0_r (length pre)) at 1.
  repeat (erewrite rd8_nth by reflexivity; cbn [obind]).
  f_equal. repeat match goal with H : bytes_ok (_ :: _) |- _ => inversion H; clear H; subst end.
  repeat match goal with H : Forall _ (_ :: _) |- _ => inversion H; clear H; subst end.
  cbn [le_num].
  rewrite <- (lor_disjoint b6 (b7 + 256 * 0)) by assumption.
  rewrite <- (lor_disjoint b5) by assumption. rewrite <- (lor_disjoint b4) by assumption.
  rewrite <- (lor_disjoint b3) by assumption. rewrite <- (lor_disjoint b2) by assumption.
  rewrite <- (lor_disjoint b1) by assumption. rewrite <- (lor_disjoint b0) by assumption.
  rewrite !Z.shiftl_lor, !Z.shiftl_shiftl by lia.
  replace (b7 + 256 * 0) with b7 by lia. reflexivity.
Qed.

Lemma shr47 x : shr64 x mr = x / 2 ^ 47.
Proof. unfold shr64, mr. apply Z.shiftr_div_pow2. lia. Qed.

Lemma murmurLoop_ok words : forall pre msg post h,
  (8 * words <= length msg)%nat -> bytes_ok msg ->
  exists rest, murmurLoop words (pre ++ msg ++ post) (length pre) h =
    Ret (fst (absorb_all words (le_num msg) h), (length pre + 8 * words)%nat) /\
    rest = skipn (8 * words) msg /\ snd (absorb_all words (le_num msg) h) = le_num rest.
Proof.
  induction words as [|words IH]; intros pre msg post h Hl Hb; cbn [murmurLoop absorb_all].
  - exists msg. rewrite Nat.mul_0_r, Nat.add_0_r. auto.
  - set (w := firstn 8 msg). set (msg' := skipn 8 msg).
    assert (Hmsg : msg = w ++ msg') by (symmetry; apply firstn_skipn).
    assert (Hw : length w = 8%nat) by (unfold w; rewrite firstn_length; lia).
    assert (Hl' : (8 * words <= length msg')%nat) by (unfold msg'; rewrite skipn_length; lia).
    assert (Hbw : bytes_ok w /\ bytes_ok msg') by (rewrite Hmsg in Hb; apply Forall_app; exact Hb).
    destruct Hbw as [Hbw Hbm].
    clearbody w msg'. subst msg.
    rewrite <- app_assoc. rewrite rd64_ok by assumption. cbn [obind].
    pose proof (le_num_range w Hbw) as Hr. rewrite Hw in Hr. change (256 ^ Z.of_nat 8) with W in Hr.
    assert (Hdiv : le_num (w ++ msg') / W = le_num msg' /\ le_num (w ++ msg') mod W = le_num w).
    { rewrite le_num_app, Hw. change (256 ^ Z.of_nat 8) with W.
      replace (le_num w + W * le_num msg') with (le_num msg' * W + le_num w) by lia.
      unfold W in *. split; [rewrite Z.div_add_l by lia; rewrite Z.div_small by lia; lia|].
      rewrite Z.add_comm, Z.mod_add by lia. apply Z.mod_small. lia. }
    destruct Hdiv as [-> ->].
    destruct (IH (pre ++ w) msg' post (absorb h (le_num w)) Hl' Hbm) as (rest & H1 & H2 & H3).
    exists rest. rewrite app_length, Hw in H1. rewrite <- app_assoc in H1.
    split; [|split].
    + rewrite shr47. unfold mul64, mm. change two64 with W.
      change 14313749767032793493 with M. unfold absorb, xorshift47 in H1.
      rewrite H1. f_equal. f_equal. lia.
    + rewrite H2, skipn_app, Hw. rewrite (skipn_all2 w) by lia. cbn [app]. f_equal. lia.
    + exact H3.
Qed.

(** xor of the shifted bytes is xor with the number. *)
Lemma murmurTail_ok pre t post h : (length t < 8)%nat -> bytes_ok t ->
  murmurTail (length t) (pre ++ t ++ post) (length pre) h =
  Ret (if Nat.eqb (length t) 0 then h else Z.lxor h (le_num t) * M mod W).
Proof.
  intros Hl Hb. unfold murmurTail.
  assert (Hx : forall h0 b, mul64 (Z.lxor h0 b) mm = Z.lxor h0 b * M mod W) by reflexivity.
  destruct t as [|b0 [|b1 [|b2 [|b3 [|b4 [|b5 [|b6 [|? ?]]]]]]]]; cbn [length] in *; try lia;
    cbn [Nat.leb Nat.sub]; cbn [obind Nat.eqb];
    repeat (erewrite rd8_nth by reflexivity; cbn [obind]);
    try rewrite rd8_hd; cbn [obind];
    try reflexivity; rewrite Hx; do 3 f_equal;
    repeat match goal with H : bytes_ok (_ :: _) |- _ => inversion H; clear H; subst end;
    repeat match goal with H : Forall _ (_ :: _) |- _ => inversion H; clear H; subst end;
    cbn [le_num]; rewrite ?shl64_byte by lia;
    repeat (rewrite add_disjoint by assumption);
    rewrite ?Z.shiftl_lxor, ?Z.shiftl_shiftl by lia;
    repeat match goal with |- context [Z.add (Zpos ?a) (Zpos ?b)] =>
      let v := eval compute in (Z.add (Zpos a) (Zpos b)) in change (Z.add (Zpos a) (Zpos b)) with v end;
    rewrite ?Z.shiftl_0_l, ?Z.lxor_0_r.
  all: apply Z.bits_inj'; intros n Hn; rewrite ?Z.lxor_spec; btauto.
Qed.

Lemma land7 n : Nat.land n 7 = (n mod 8)%nat.
Proof. change 7%nat with (Nat.ones 3). rewrite Nat.land_ones. reflexivity. Qed.

Lemma murmur_ok bytes post : bytes_ok bytes -> murmur (bytes ++ post) (length bytes) = Ret (murmur64A bytes).
Proof.
  intros Hb. unfold murmur, murmur64A. set (n := length bytes).
  change mseed with SEED. unfold mul64 at 1. change mm with M. change two64 with W.
  set (h0 := Z.lxor SEED (Z.of_nat n * M mod W)).
  pose proof (Nat.div_mod n 8 ltac:(lia)) as Hdm.
  pose proof (Nat.mod_upper_bound n 8 ltac:(lia)) as Hmb.
  destruct (murmurLoop_ok (n / 8) [] bytes post h0) as (rest & H1 & H2 & H3); [fold n; lia|assumption|].
  cbn [app length] in H1. rewrite H1. cbn [obind].
  destruct (absorb_all (n / 8) (le_num bytes) h0) as [h N]. cbn [fst snd] in *.
  rewrite land7.
  assert (Hrl : length rest = (n mod 8)%nat) by (subst rest; rewrite skipn_length; fold n; lia).
  rewrite <- Hrl.
  assert (Hsplit : bytes = firstn (8 * (n / 8)) bytes ++ rest) by (subst rest; symmetry; apply firstn_skipn).
  assert (Hfl : length (firstn (8 * (n / 8)) bytes) = (8 * (n / 8))%nat) by (rewrite firstn_length; fold n; lia).
  assert (Hbr : bytes_ok rest) by (rewrite Hsplit in Hb; apply Forall_app in Hb; apply Hb).
  pose proof (murmurTail_ok (firstn (8 * (n / 8)) bytes) rest post h ltac:(lia) Hbr) as Ht.
  rewrite Hfl, app_assoc, <- Hsplit in Ht. cbn [plus]. rewrite Ht. cbn [obind].
  rewrite H3. f_equal. rewrite !shr47. reflexivity.
Qed.

Lemma strlen_before_nul id : strlen (id ++ [0]) = Ret (length (before_nul id)).
Proof.
  induction id as [|b id IH]; cbn; [reflexivity|]. destruct (Z.eqb b 0); [reflexivity|].
  rewrite IH. reflexivity.
Qed.
Lemma firstn_before_nul id : firstn (length (before_nul id)) (id ++ [0]) = before_nul id.
Proof.
  induction id as [|b id IH]; cbn; [reflexivity|]. destruct (Z.eqb b 0); [reflexivity|]. cbn. rewrite IH. reflexivity.
Qed.
Lemma before_nul_ok id : bytes_ok id -> bytes_ok (before_nul id).
Proof.
  induction 1 as [|b id Hb H IH]; cbn; [constructor|]. destruct (Z.eqb b 0); constructor; assumption.
Qed.

(** The number a vertex id is placed by. *)
Definition placement (id : list Z) : Z :=
  if Nat.eqb (length id) 8 then le_num id else murmur64A (before_nul id).

Lemma murmur64A_nonneg bytes : bytes_ok bytes -> 0 <= murmur64A bytes.
Proof.
  intros Hb. unfold murmur64A. destruct (absorb_all _ _ _) as [h r].
  unfold xorshift47. set (x := Z.lxor _ _ * M mod W).
  assert (Hx : 0 <= x) by (unfold x, W; apply Z.mod_pos_bound; lia).
  apply Z.lxor_nonneg. split; intros _; [|exact Hx]. apply Z.div_pos; lia.
Qed.

Lemma partId_ok numParts id : bytes_ok id -> 0 < numParts <= 2147483647 ->
  partId numParts id = Ret (placement id mod numParts + 1).
Proof.
  intros Hb Hn. unfold partId, placement.
  assert (Hfin : forall vid, 0 <= vid ->
    (if Z.eqb numParts 0 then UB
     else let pid := wrap32 (vid mod u64 numParts + 1) in if 0 <? pid then Ret pid else Fatal)
    = Ret (vid mod numParts + 1)).
  { intros vid Hv. replace (Z.eqb numParts 0) with false by lia.
    assert (Hu : u64 numParts = numParts) by (unfold u64; apply Z.mod_small; lia). rewrite Hu.
    pose proof (Z.mod_pos_bound vid numParts ltac:(lia)).
    generalize dependent (vid mod numParts). intros x Hx. unfold wrap32.
    replace ((x + 1 + 2147483648) mod 4294967296 - 2147483648) with (x + 1) by lia. cbv zeta. replace (0 <? x + 1) with true by lia. reflexivity. }
  destruct (Nat.eqb_spec (length id) 8) as [H8 | H8].
  - pose proof (rd64_ok [] id [] H8 Hb) as Hrd. rewrite app_nil_r in Hrd. cbn [app length] in Hrd.
    rewrite Hrd. cbn [obind].
    apply Hfin. apply le_num_range in Hb. lia.
  - rewrite strlen_before_nul. cbn [obind]. rewrite firstn_before_nul.
    pose proof (murmur_ok (before_nul id) [] (before_nul_ok id Hb)) as Hm. rewrite app_nil_r in Hm.
    rewrite Hm. cbn [obind]. apply Hfin. apply murmur64A_nonneg. apply before_nul_ok. assumption.
Qed.
