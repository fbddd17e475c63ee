(** Theorems for C19. *)
From Verif Require Import Prelude StatusModel StatusSpec StatusProofs.

(** C19: after any sequence of constructions, copies and moves over any number of Status objects, every
    object reports ok(), code() and message() of the abstract Status it should hold. *)
Theorem C19_status_history :
  forall (n : nat) (os : list sop) (i : nat), Forall (op_ok n) os -> (i < n)%nat ->
  let w := srun (sinit n) os in
  let s := arun (fun _ => None) os i in
  isOk w i = (match s with None => true | Some _ => false end) /\
  codeOf w i = (match s with None => 0 | Some (c, _) => c end) /\
  messageOf w i = (match s with None => [] | Some (_, m) => m end).
Proof.
  intros n os i Hf Hi w s. subst w s.
  apply (rep_observe n); [|assumption]. apply rep_run; [assumption|]. apply rep_init.
Qed.
Print Assumptions C19_status_history.

Example C19_example :
  let os := [OpMake 0 101 [104; 105]; OpCopy 1 0; OpMove 2 0; OpMove 2 2; OpMake 1 404 [120]; OpCopyCtor 3 2] in
  Forall (op_ok 4) os /\
  (let w := srun (sinit 4) os in
   map (fun i => (isOk w i, codeOf w i, messageOf w i)) [0; 1; 2; 3]%nat =
   [(true, 0, []); (false, 404, [120]); (false, 101, [104; 105]); (false, 101, [104; 105])]).
Proof.
  split; [|vm_compute; reflexivity].
  repeat (apply Forall_cons; [cbn; lia|]). apply Forall_nil.
Qed.

(** Moving leaves the source OK and the target with the old content; copying leaves the source alone. *)
Theorem C19_move_and_copy :
  forall (n : nat) (os : list sop) (i j : nat), Forall (op_ok n) os -> (i < n)%nat -> (j < n)%nat -> i <> j ->
  let w := srun (sinit n) os in
  let mv := moveAssign w i j in
  let cp := copyAssign w i j in
  isOk mv j = true /\ isOk mv i = isOk w j /\ codeOf mv i = codeOf w j /\ messageOf mv i = messageOf w j /\
  (forall k, (k < n)%nat -> k <> i -> isOk cp k = isOk w k /\ codeOf cp k = codeOf w k /\ messageOf cp k = messageOf w k) /\
  isOk cp i = isOk w j /\ codeOf cp i = codeOf w j /\ messageOf cp i = messageOf w j.
Proof.
  intros n os i j Hf Hi Hj Hij w mv cp.
  assert (R : rep n w (arun (fun _ => None) os)) by (apply rep_run; [assumption|apply rep_init]).
  set (a := arun (fun _ => None) os) in *.
  assert (Rm : rep n mv (astep a (OpMove i j))) by (apply (rep_step n w a (OpMove i j)); [split; assumption|assumption]).
  assert (Rc : rep n cp (astep a (OpCopy i j))) by (apply (rep_step n w a (OpCopy i j)); [split; assumption|assumption]).
  cbn [astep] in Rm, Rc. replace (Nat.eqb i j) with false in Rm by lia.
  pose proof (rep_observe n mv _ i Rm Hi) as (M1 & M2 & M3).
  pose proof (rep_observe n mv _ j Rm Hj) as (M4 & M5 & M6).
  pose proof (rep_observe n cp _ i Rc Hi) as (K1 & K2 & K3).
  pose proof (rep_observe n w _ j R Hj) as (W1 & W2 & W3).
  assert (Hother : forall k, (k < n)%nat -> k <> i ->
    isOk cp k = isOk w k /\ codeOf cp k = codeOf w k /\ messageOf cp k = messageOf w k).
  { intros k Hk Hki. pose proof (rep_observe n cp _ k Rc Hk) as (L1 & L2 & L3).
    pose proof (rep_observe n w _ k R Hk) as (L4 & L5 & L6).
    unfold aset in L1, L2, L3. replace (Nat.eqb k i) with false in L1, L2, L3 by lia.
    rewrite L1, L2, L3, L4, L5, L6. auto. }
  unfold aset in M1, M2, M3, M4, M5, M6, K1, K2, K3.
  rewrite Nat.eqb_refl in *. replace (Nat.eqb i j) with false in M1, M2, M3 by lia.
  rewrite M1, M2, M3, M4, K1, K2, K3, W1, W2, W3. auto 10.
Qed.
Print Assumptions C19_move_and_copy.

(** == compares codes: it is an equivalence that ignores the message. *)
Theorem C19_equality_is_code_equality :
  forall (n : nat) (os : list sop) (i j : nat), Forall (op_ok n) os -> (i < n)%nat -> (j < n)%nat ->
  let w := srun (sinit n) os in statusEq w i j = true <-> codeOf w i = codeOf w j.
Proof.
  intros n os i j Hf Hi Hj w. unfold statusEq.
  destruct (ptr_eqb (obj w i) (obj w j)) eqn:E; cbn.
  - apply ptr_eqb_eq in E. split; auto. intros _. unfold codeOf. rewrite E. reflexivity.
  - lia.
Qed.
Print Assumptions C19_equality_is_code_equality.

(** The message length is kept in 16 bits: every message of 65536 bytes is lost entirely, and in
    general only the first (length mod 65536) bytes survive. *)
Theorem C19_long_message_refuted :
  forall (code : Z) (msg : list Z), 0 < code < 65536 ->
  codeOf (construct (sinit 1) 0 code msg) 0 = code /\
  messageOf (construct (sinit 1) 0 code msg) 0 = firstn (Z.to_nat (Z.of_nat (length msg) mod 65536)) msg /\
  (65536 <= Z.of_nat (length msg) -> messageOf (construct (sinit 1) 0 code msg) 0 <> msg).
Proof.
  intros code msg Hc.
  assert (Hm : messageOf (construct (sinit 1) 0 code msg) 0 = firstn (Z.to_nat (Z.of_nat (length msg) mod 65536)) msg).
  { unfold messageOf, construct, alloc, setObj, obj, buffer. cbn [objs sheap put sinit repeat nth app length].
    unfold mkState. cbn [app]. rewrite rd16_hd by (unfold u16; lia). cbn [skipn kHeaderSize].
    rewrite firstn_firstn, Nat.min_id. unfold u16. reflexivity. }
  splits; auto.
  - unfold codeOf, construct, alloc, setObj, obj, buffer. cbn [objs sheap put sinit repeat nth app length].
    unfold mkState. cbn [app]. apply rd16_snd. lia.
  - intros Hlen E. rewrite Hm in E. apply (f_equal (@length Z)) in E. rewrite firstn_length in E. lia.
Qed.
Print Assumptions C19_long_message_refuted.

Example C19_long_message_exists : exists msg : list Z, Z.of_nat (length msg) = 65536 /\ In 7 msg.
Proof.
  assert (H : exists n, Z.of_nat n = 65535) by (exists (Z.to_nat 65535); apply Z2Nat.id; lia).
  destruct H as [n Hn]. exists (7 :: repeat 7 n). cbn [length]. rewrite repeat_length.
  split; [lia|]. left. reflexivity.
Qed.

(** The printf-style generators keep at most 255 characters, and none after the first NUL. *)
Theorem C19_format_truncates_refuted :
  forall (code : Z) (expanded : list Z), 0 < code < 65536 -> Forall (fun b => b <> 0) expanded ->
  messageOf (sstep (sinit 1) (OpFormat 0 code expanded)) 0 = firstn 255 expanded /\
  ((255 < length expanded)%nat -> messageOf (sstep (sinit 1) (OpFormat 0 code expanded)) 0 <> expanded).
Proof.
  intros code e Hc Hz.
  assert (Hu : forall l : list Z, Forall (fun b => b <> 0) l -> upToNul l = l).
  { induction 1 as [|b l Hb _ IH]; cbn; [reflexivity|]. replace (Z.eqb b 0) with false by lia. congruence. }
  assert (Hf : formatMsg e = firstn 255 e).
  { unfold formatMsg. apply Hu. rewrite Forall_forall in *. intros x Hx. apply Hz.
    rewrite <- (firstn_skipn 255 e). apply in_or_app. auto. }
  pose proof (rep_observe 1 (sstep (sinit 1) (OpFormat 0 code e)) (astep (fun _ => None) (OpFormat 0 code e)) 0%nat
    (rep_step 1 _ _ (OpFormat 0 code e) (conj Nat.lt_0_1 Hc) (rep_init 1)) Nat.lt_0_1) as (_ & _ & Hm).
  cbn [astep aset] in Hm. unfold aset in Hm. rewrite Nat.eqb_refl in Hm. rewrite Hm, Hf.
  split; [reflexivity|]. intros Hl E. apply (f_equal (@length Z)) in E. rewrite firstn_length in E. lia.
Qed.
Print Assumptions C19_format_truncates_refuted.

(** In general they keep the longest prefix without a NUL of at most 255 characters. *)
Theorem C19_format_prefix :
  forall (code : Z) (expanded : list Z), 0 < code < 65536 ->
  let m := messageOf (sstep (sinit 1) (OpFormat 0 code expanded)) 0 in
  exists rest, expanded = m ++ rest /\ ~ In 0 m /\ (length m <= 255)%nat /\ (length m = 255%nat \/ rest = [] \/ exists r, rest = 0 :: r).
Proof.
  intros code e Hc m.
  assert (Em : m = formatMsg e).
  { pose proof (rep_observe 1 (sstep (sinit 1) (OpFormat 0 code e)) (astep (fun _ => None) (OpFormat 0 code e)) 0%nat
      (rep_step 1 _ _ (OpFormat 0 code e) (conj Nat.lt_0_1 Hc) (rep_init 1)) Nat.lt_0_1) as (_ & _ & Hm).
    cbn [astep] in Hm. unfold aset in Hm. rewrite Nat.eqb_refl in Hm. exact Hm. }
  clearbody m. subst m. unfold formatMsg. generalize 255%nat as n. induction e as [|b e IH]; intros [|n]; cbn [firstn upToNul].
  - exists []. splits; auto.
  - exists []. splits; cbn; auto. lia.
  - exists (b :: e). splits; auto.
  - destruct (Z.eqb_spec b 0) as [->|Hb].
    + exists (0 :: e). splits; cbn; auto; [lia|]. right. right. eauto.
    + destruct (IH n) as (rest & H1 & H2 & H3 & H4). exists rest. cbn [length app]. splits; [congruence| |lia|destruct H4 as [H4|H4]; [left; lia|right; exact H4]].
      intros [Q|Q]; [congruence|auto].
Qed.
Print Assumptions C19_format_prefix.
Example C19_format_prefix_ex : messageOf (sstep (sinit 1) (OpFormat 0 101 [97; 98; 0; 99])) 0 = [97; 98].
Proof. reflexivity. Qed.
