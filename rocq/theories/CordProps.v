(** Theorems for C17 (Cord) and C18 (ICord). *)
From Verif Require Import Prelude CordModel CordSpec CordProofs.

(** C17: after any history of writes and clears of a Cord with any positive block content size, the
    size, str(), appendTo() and what applyTo() shows are those of the bytes written since the last clear. *)
Theorem C17_cord_exact_builder :
  forall (B : nat) (h : list sop), (0 < B)%nat ->
  exists c, cord_run (cordNew B) h = Ret c /\
    clen c = length (content [] h) /\
    cordStr c = Ret (content [] h) /\
    (forall s, cordAppendTo c s = Ret (s ++ content [] h, length (content [] h))) /\
    exists chunks, concat chunks = content [] h /\
      Forall (fun ch => 0 < length ch <= B)%nat chunks /\
      forall (S : Type) (visit : S -> list Z -> S * bool) s,
        cordApply c visit s = Ret (visit_all visit s chunks).
Proof.
  intros B h HB.
  assert (R0 : cordRep B (cordNew B) []) by (apply CREmpty; reflexivity).
  destruct (cordRun_ok B h HB _ _ R0) as (c & Hrun & R). exists c.
  splits; auto.
  - apply (cordAppendTo_ok B c _ [] R).
  - unfold cordStr. rewrite (proj1 (cordAppendTo_ok B c _ [] R)). reflexivity.
  - intros s. apply (cordAppendTo_ok B c _ s R).
  - apply (cordApply_ok B c _ R).
Qed.
Print Assumptions C17_cord_exact_builder.

Example C17_example :
  exists c, cord_run (cordNew 3) [SWrite [1; 2; 3; 4]; SWrite []; SWrite [5; 6]; SWrite [7]] = Ret c /\
    cordStr c = Ret [1; 2; 3; 4; 5; 6; 7] /\ length (cmem c) = 3%nat.
Proof. eexists. split; [vm_compute; reflexivity|]. split; vm_compute; reflexivity. Qed.

(** Appending another non-empty Cord of the same block size. *)
Theorem C17_cord_append_cord :
  forall (B : nat) (h1 h2 : list sop) c1 c2, (0 < B)%nat ->
  cord_run (cordNew B) h1 = Ret c1 -> cord_run (cordNew B) h2 = Ret c2 -> content [] h2 <> [] ->
  exists c, cordAppendCord c1 c2 = Ret c /\ cordStr c = Ret (content [] h1 ++ content [] h2) /\
    clen c = (length (content [] h1) + length (content [] h2))%nat.
Proof.
  intros B h1 h2 c1 c2 HB H1 H2 Hne.
  assert (R0 : cordRep B (cordNew B) []) by (apply CREmpty; reflexivity).
  destruct (cordRun_ok B h1 HB _ _ R0) as (c1' & Hr1 & R1). rewrite Hr1 in H1. apply Ret_inj in H1. subst c1'.
  destruct (cordRun_ok B h2 HB _ _ R0) as (c2' & Hr2 & R2). rewrite Hr2 in H2. apply Ret_inj in H2. subst c2'.
  destruct (cordAppendCord_ok B c1 _ c2 _ HB R1 R2 Hne) as (c & Hc & R).
  exists c. splits; auto.
  - unfold cordStr. rewrite (proj1 (cordAppendTo_ok B c _ [] R)). reflexivity.
  - rewrite (proj2 (cordAppendTo_ok B c _ [] R)). apply app_length.
Qed.
Print Assumptions C17_cord_append_cord.

Example C17_append_example :
  exists c1 c2 c, cord_run (cordNew 2) [SWrite [1; 2; 3]] = Ret c1 /\ cord_run (cordNew 2) [SWrite [4; 5; 6; 7]] = Ret c2 /\
    cordAppendCord c1 c2 = Ret c /\ cordStr c = Ret [1; 2; 3; 4; 5; 6; 7].
Proof. do 3 eexists. split; [vm_compute; reflexivity|]. split; [vm_compute; reflexivity|].
  split; [vm_compute; reflexivity|]. vm_compute; reflexivity. Qed.

(** Appending an empty Cord reads through its null block pointer, for every block size and every
    receiving Cord: blockPt_ of an empty Cord is the full content size. *)
Theorem C17_append_empty_cord_refuted :
  forall (B : nat) (h : list sop) c, (0 < B)%nat -> cord_run (cordNew B) h = Ret c ->
  cordAppendCord c (cordNew B) = UB.
Proof. reflexivity. Qed.
Print Assumptions C17_append_empty_cord_refuted.

(** Appending a Cord with smaller blocks reads past the end of the block content. *)
Theorem C17_append_mixed_block_sizes_refuted :
  exists c1 c2, cord_run (cordNew 4) [SWrite [1]] = Ret c1 /\
    cord_run (cordNew 2) [SWrite [2; 3; 4]] = Ret c2 /\ cordAppendCord c1 c2 = UB.
Proof. do 2 eexists. split; [vm_compute; reflexivity|]. split; [vm_compute; reflexivity|]. vm_compute; reflexivity. Qed.
Print Assumptions C17_append_mixed_block_sizes_refuted.

(** The typed operators write the little-endian representation: its length is the size of the type and
    it determines the value modulo 2^(8n). *)
Theorem C17_typed_writes :
  forall (B n : nat) (v : Z) (h : list sop) c, (0 < B)%nat -> cord_run (cordNew B) h = Ret c ->
  exists c', cordPut c (leBytes n v) = Ret c' /\ cordStr c' = Ret (content [] h ++ leBytes n v) /\
    length (leBytes n v) = n /\
    fold_right (fun b acc => b + 256 * acc) 0 (leBytes n v) = v mod 256 ^ Z.of_nat n.
Proof.
  intros B n v h c HB Hrun.
  assert (R0 : cordRep B (cordNew B) []) by (apply CREmpty; reflexivity).
  destruct (cordRun_ok B h HB _ _ R0) as (c1 & Hr1 & R1). rewrite Hr1 in Hrun. apply Ret_inj in Hrun. subst c1.
  destruct (cordPut_ok B c _ (leBytes n v) HB R1) as (c' & Hp & R').
  exists c'. splits; auto.
  - unfold cordStr. rewrite (proj1 (cordAppendTo_ok B c' _ [] R')). reflexivity.
  - apply leBytes_len.
  - clear. revert v. induction n as [|n IH]; intros v.
    + cbn. rewrite Z.mod_1_r. reflexivity.
    + cbn [leBytes fold_right]. rewrite IH. rewrite Nat2Z.inj_succ, Z.pow_succ_r by lia.
      rewrite Z.rem_mul_r by lia. reflexivity.
Qed.
Print Assumptions C17_typed_writes.

(** C18: for writes only, ICord's size, str() and appendTo() are exact. *)
Theorem C18_icord_exact_builder :
  forall (B : nat) (h : list sop), pow2 B -> writes_only h ->
  exists c, icord_run (icordNew B) h = Ret c /\
    ilen c = length (content [] h) /\
    icordStr c = Ret (content [] h) /\
    (forall s, icordAppendTo c s = Ret (s ++ content [] h, length (content [] h))).
Proof.
  intros B h HP Hw.
  destruct (icordRun_ok B h HP Hw _ _ _ _ (icordNew_rep B)) as (c & f & l & Hrun & R). exists c.
  splits; auto.
  - apply (ir_len _ _ _ _ _ R).
  - unfold icordStr. rewrite (icordAppendTo_ok B c _ f l [] HP R). reflexivity.
  - intros s. apply (icordAppendTo_ok B c _ f l s HP R).
Qed.
Print Assumptions C18_icord_exact_builder.

(** applyTo shows exactly the bytes when the last block is not full. *)
Theorem C18_icord_apply_partial_block :
  forall (B : nat) (h : list sop) c, pow2 B -> writes_only h -> icord_run (icordNew B) h = Ret c ->
  (length (content [] h) mod B <> 0)%nat ->
  exists chunks, concat chunks = content [] h /\ Forall (fun ch => 0 < length ch <= B)%nat chunks /\
    forall (S : Type) (visit : S -> list Z -> S * bool) s,
      icordApply c visit s = Ret (visit_all visit s chunks).
Proof.
  intros B h c HP Hw Hrun Hm.
  destruct (icordRun_ok B h HP Hw _ _ _ _ (icordNew_rep B)) as (c1 & f & l & Hr1 & R).
  rewrite Hr1 in Hrun. apply Ret_inj in Hrun. subst c1.
  eapply icordApply_ok; eassumption.
Qed.
Print Assumptions C18_icord_apply_partial_block.

Example C18_example :
  exists c, icord_run (icordNew 4) [SWrite [1; 2; 3]; SWrite [4; 5; 6; 7; 8; 9]] = Ret c /\
    icordStr c = Ret [1; 2; 3; 4; 5; 6; 7; 8; 9] /\
    icordApply c (fun s ch => (s ++ [ch], true)) [] = Ret ([[1; 2; 3; 4]; [5; 6; 7; 8]; [9]], true) /\
    pow2 4 /\ Nat.modulo (length (content [] [SWrite [1; 2; 3]; SWrite [4; 5; 6; 7; 8; 9]])) 4 <> 0%nat.
Proof. eexists. split; [vm_compute; reflexivity|]. split; [vm_compute; reflexivity|].
  split; [vm_compute; reflexivity|]. split; [exists 2%nat; reflexivity|]. vm_compute; lia. Qed.

(** << of an ICord whose last block is not full, or that is empty, appends exactly its bytes. *)
Theorem C18_icord_append_icord :
  forall (B : nat) (h1 h2 : list sop) c1 c2, pow2 B -> writes_only h1 -> writes_only h2 ->
  icord_run (icordNew B) h1 = Ret c1 -> icord_run (icordNew B) h2 = Ret c2 ->
  (content [] h2 = [] \/ length (content [] h2) mod B <> 0)%nat ->
  exists c, icordAppendICord c1 c2 = Ret c /\ icordStr c = Ret (content [] h1 ++ content [] h2).
Proof.
  intros B h1 h2 c1 c2 HP W1 W2 H1 H2 Hm.
  destruct (icordRun_ok B h1 HP W1 _ _ _ _ (icordNew_rep B)) as (c1' & f1 & l1 & Hr1 & R1).
  rewrite Hr1 in H1. apply Ret_inj in H1. subst c1'.
  destruct (icordRun_ok B h2 HP W2 _ _ _ _ (icordNew_rep B)) as (c2' & f2 & l2 & Hr2 & R2).
  rewrite Hr2 in H2. apply Ret_inj in H2. subst c2'.
  destruct (icordAppendICord_ok B c1 _ f1 l1 c2 _ f2 l2 HP R1 R2 Hm) as (c & f & l & Hc & R).
  exists c. split; [assumption|]. unfold icordStr. rewrite (icordAppendTo_ok B c _ f l [] HP R). reflexivity.
Qed.
Print Assumptions C18_icord_append_icord.

(** Whenever the bytes fill the blocks exactly, applyTo drops the last block, for every history. *)
Theorem C18_icord_apply_full_block_refuted :
  forall (B : nat) (h : list sop) c, pow2 B -> writes_only h -> icord_run (icordNew B) h = Ret c ->
  content [] h <> [] -> (length (content [] h) mod B = 0)%nat ->
  exists chunks, concat chunks = firstn (length (content [] h) - B) (content [] h) /\
    concat chunks <> content [] h /\
    forall (S : Type) (visit : S -> list Z -> S * bool) s,
      icordApply c visit s = Ret (visit_all visit s chunks).
Proof.
  intros B h c HP Hw Hrun Hne Hm.
  destruct (icordRun_ok B h HP Hw _ _ _ _ (icordNew_rep B)) as (c1 & f & l & Hr1 & R).
  rewrite Hr1 in Hrun. apply Ret_inj in Hrun. subst c1.
  destruct (icordApply_full B c _ f l HP R Hne Hm) as (chunks & Hc & Hv).
  exists chunks. splits; auto. rewrite Hc. intros E.
  apply (f_equal (@length Z)) in E. rewrite firstn_length in E.
  pose proof (pow2_pos B HP). destruct (content [] h) as [|z zs]; [contradiction|]. cbn [length] in *. lia.
Qed.
Print Assumptions C18_icord_apply_full_block_refuted.

Theorem C18_icord_full_block_refuted :
  exists c c2 c', icord_run (icordNew 4) [SWrite [1; 2; 3; 4]] = Ret c /\ icordStr c = Ret [1; 2; 3; 4] /\
    icordApply c (fun s ch => (s ++ ch, true)) [] = Ret ([], true) /\
    icord_run (icordNew 4) [SWrite [9]] = Ret c2 /\
    icordAppendICord c2 c = Ret c' /\ icordStr c' = Ret [9].
Proof.
  do 3 eexists. split; [vm_compute; reflexivity|]. split; [vm_compute; reflexivity|].
  split; [vm_compute; reflexivity|]. split; [vm_compute; reflexivity|].
  split; [vm_compute; reflexivity|]. vm_compute; reflexivity.
Qed.
Print Assumptions C18_icord_full_block_refuted.

(** After clear() the next non-empty write goes through a null pointer, whatever happened before. *)
Theorem C18_icord_write_after_clear_refuted :
  forall (c : icord) (bytes : list Z), bytes <> [] -> icordPut (icordClear c) bytes = UB.
Proof. intros c [|b bytes] H; [contradiction|reflexivity]. Qed.
Print Assumptions C18_icord_write_after_clear_refuted.
