(** Theorems for C21 and C22. *)
From Verif Require Import Prelude HashModel HashSpec HashProofs.

(** C21: the unrolled implementation computes the reference MurmurHash64A of exactly the given bytes,
    whatever follows them in memory; with nothing behind them it reads no byte outside. *)
Theorem C21_murmur_is_reference :
  forall bytes post : list Z, bytes_ok bytes -> murmur (bytes ++ post) (length bytes) = Ret (murmur64A bytes).
Proof. exact murmur_ok. Qed.
Print Assumptions C21_murmur_is_reference.

(** The results are 64-bit numbers, and the published libstdc++ value (the comment in the header says the
    hash is identical to std::hash): the hash of the empty string. *)
Theorem C21_murmur_range :
  forall bytes : list Z, bytes_ok bytes -> 0 <= murmur64A bytes < 2 ^ 64.
Proof.
  intros bytes Hb. split; [apply murmur64A_nonneg; assumption|].
  unfold murmur64A. destruct (absorb_all _ _ _) as [h r]. unfold xorshift47.
  set (x := Z.lxor _ _ * M mod W).
  assert (Hx : 0 <= x < 2 ^ 64) by (unfold x, W; apply Z.mod_pos_bound; lia).
  set (y := x / 2 ^ 47). assert (Hy : 0 <= y < 2 ^ 64) by (unfold y; lia).
  clearbody x y.
  destruct (Z.eq_dec (Z.lxor x y) 0) as [-> | Hne]; [lia|].
  assert (0 <= Z.lxor x y) by (apply Z.lxor_nonneg; lia).
  apply Z.log2_lt_cancel. rewrite Z.log2_pow2 by lia.
  eapply Z.le_lt_trans; [apply Z.log2_lxor; lia|].
  assert (Hl : forall z, 0 <= z < 2 ^ 64 -> Z.log2 z < 64).
  { intros z Hz. destruct (Z.eq_dec z 0) as [-> | ?]; [cbn; lia|]. apply Z.log2_lt_pow2; lia. }
  apply Z.max_lub_lt; apply Hl; assumption.
Qed.
Print Assumptions C21_murmur_range.

Example C21_empty : murmur64A [] = 6142509188972423790.
Proof. vm_compute. reflexivity. Qed.
Example C21_eleven_bytes :
  murmur [104; 101; 108; 108; 111; 32; 119; 111; 114; 108; 100; 99; 99] 11 =
  Ret (murmur64A [104; 101; 108; 108; 111; 32; 119; 111; 114; 108; 100]) /\
  bytes_ok [104; 101; 108; 108; 111; 32; 119; 111; 114; 108; 100].
Proof. split; [vm_compute; reflexivity|]. repeat constructor; lia. Qed.

(** C22: partId is total and its result is in 1..numParts; 8-byte ids are placed by their
    little-endian integer value. *)
Theorem C22_part_id_in_range :
  forall (numParts : Z) (id : list Z), bytes_ok id -> 0 < numParts <= 2147483647 ->
  exists p, partId numParts id = Ret p /\ 1 <= p <= numParts /\
    (length id = 8%nat -> p = le_num id mod numParts + 1) /\
    (length id <> 8%nat -> p = murmur64A (before_nul id) mod numParts + 1).
Proof.
  intros numParts id Hb Hn. exists (placement id mod numParts + 1).
  rewrite partId_ok by assumption. pose proof (Z.mod_pos_bound (placement id) numParts ltac:(lia)).
  splits; try lia; auto.
  - intros H8. unfold placement. rewrite H8. reflexivity.
  - intros H8. unfold placement. replace (Nat.eqb (length id) 8) with false by lia. reflexivity.
Qed.
Print Assumptions C22_part_id_in_range.

Example C22_example :
  partId 10 [1; 1; 0; 0; 0; 0; 0; 0] = Ret 8 /\ (257 mod 10 + 1 = 8) /\
  partId 100 [97; 98; 99] = Ret (murmur64A [97; 98; 99] mod 100 + 1).
Proof. split; [vm_compute; reflexivity|]. split; [reflexivity|]. vm_compute; reflexivity. Qed.

(** For an 8-byte id made from a 64-bit integer v, the partition is that of v read as unsigned. *)
Theorem C22_integer_ids :
  forall (numParts v : Z) (id : list Z), bytes_ok id -> length id = 8%nat -> 0 < numParts <= 2147483647 ->
  le_num id = v mod 2 ^ 64 -> partId numParts id = Ret ((v mod 2 ^ 64) mod numParts + 1).
Proof.
  intros numParts v id Hb H8 Hn Hv. rewrite partId_ok by assumption. unfold placement. rewrite H8. cbn [Nat.eqb].
  rewrite Hv. reflexivity.
Qed.
Print Assumptions C22_integer_ids.

(** The hash sees only the bytes before the first NUL: ids that differ only behind a NUL always share a
    partition, although they are different vertex ids. *)
Theorem C22_ids_with_nul_share_partition :
  forall (numParts : Z) (a b c : list Z), bytes_ok (a ++ 0 :: b) -> bytes_ok (a ++ 0 :: c) ->
  0 < numParts <= 2147483647 ->
  length (a ++ 0 :: b) <> 8%nat -> length (a ++ 0 :: c) <> 8%nat ->
  partId numParts (a ++ 0 :: b) = partId numParts (a ++ 0 :: c).
Proof.
  intros numParts a b c Hb Hc Hn Hl1 Hl2. rewrite !partId_ok by assumption. unfold placement.
  replace (Nat.eqb (length (a ++ 0 :: b)) 8) with false by lia.
  replace (Nat.eqb (length (a ++ 0 :: c)) 8) with false by lia.
  assert (Hp : forall x, before_nul (a ++ 0 :: x) = before_nul a).
  { intros x. clear. induction a as [|y a IH]; cbn; [reflexivity|]. destruct (Z.eqb y 0); [reflexivity|]. rewrite IH. reflexivity. }
  rewrite !Hp. reflexivity.
Qed.
Print Assumptions C22_ids_with_nul_share_partition.
