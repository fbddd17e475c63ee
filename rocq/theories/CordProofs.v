(** Proofs about Cord and ICord. *)
From Verif Require Import Prelude CordModel CordSpec.

Definition linked (fulls : list (list Z)) : list block :=
  map (fun p => mkBlock (snd p) (Some (S (fst p)))) (combine (seq 0 (length fulls)) fulls).

(** Representation of a non-empty chain: full blocks linked in order, then a tail block. *)
Definition chain (B : nat) (mem : list block) (fulls : list (list Z)) (last : list Z) : Prop :=
  exists lnext,
  mem = linked fulls ++ [mkBlock last lnext] /\
  Forall (fun d => length d = B) fulls /\ (length last <= B)%nat.

Lemma upd_app_last {A} (l : list A) x y : upd (length l) y (l ++ [x]) = l ++ [y].
Proof. induction l as [|a l IH]; cbn; [reflexivity|]. rewrite IH. reflexivity. Qed.
Lemma nth_app_last {A} (l : list A) x : nth_error (l ++ [x]) (length l) = Some x.
Proof. induction l as [|a l IH]; cbn; auto. Qed.

Lemma chain_pre_length (fulls : list (list Z)) :
  length (linked fulls) = length fulls.
Proof. unfold linked. rewrite map_length, combine_length, seq_length. lia. Qed.

Lemma chain_length B mem fulls last : chain B mem fulls last -> length mem = S (length fulls).
Proof. intros (ln & -> & _). rewrite app_length, chain_pre_length. cbn. lia. Qed.

Lemma chain_tail B mem fulls last : chain B mem fulls last ->
  exists ln, nth_error mem (length fulls) = Some (mkBlock last ln).
Proof.
  intros (ln & -> & _). exists ln.
  rewrite <- (chain_pre_length fulls) at 1. apply nth_app_last.
Qed.

Lemma chain_nth B mem fulls last i d : chain B mem fulls last -> nth_error fulls i = Some d ->
  nth_error mem i = Some (mkBlock d (Some (S i))).
Proof.
  intros (ln & -> & _) Hi.
  assert (Hlt : (i < length fulls)%nat) by (apply nth_error_Some; congruence).
  rewrite nth_error_app1 by (rewrite chain_pre_length; assumption).
  assert (Hgen : forall (fs : list (list Z)) s j e, nth_error fs j = Some e ->
    nth_error (map (fun p => mkBlock (snd p) (Some (S (fst p)))) (combine (seq s (length fs)) fs)) j =
    Some (mkBlock e (Some (S (s + j))))).
  { induction fs as [|f fs IH]; intros s [|j] e; cbn; intros H; try discriminate.
    - injection H as <-. do 3 f_equal. lia.
    - rewrite (IH (S s) j e H). do 3 f_equal. lia. }
  unfold linked. rewrite (Hgen fulls 0%nat i d Hi). reflexivity.
Qed.

(** Replacing the data of the tail block. *)
Lemma chain_write B mem fulls last bytes :
  chain B mem fulls last -> (length last + length bytes <= B)%nat ->
  exists b b', nth_error mem (length fulls) = Some b /\
    blkWrite B b (length last) bytes = Ret b' /\ chain B (upd (length fulls) b' mem) fulls (last ++ bytes).
Proof.
  intros Hc Hle. pose proof Hc as (ln & Hm & Hf & Hl).
  destruct (chain_tail B mem fulls last Hc) as (ln' & Ht).
  exists (mkBlock last ln'), (mkBlock (last ++ bytes) ln'). split; [assumption|]. split.
  - unfold blkWrite. cbn [bdata bnext].
    replace ((length last <=? length last) && (length last + length bytes <=? B))%nat with true by lia.
    rewrite firstn_all, skipn_all2 by lia. rewrite app_nil_r. reflexivity.
  - exists ln'. rewrite Hm. split; [|split; [assumption|rewrite app_length; lia]].
    rewrite <- (chain_pre_length fulls) at 1. apply upd_app_last.
Qed.

(** Allocating: the tail block is full and gets linked to a new empty block. *)
Lemma chain_alloc B mem fulls last : chain B mem fulls last -> length last = B ->
  exists b, nth_error mem (length fulls) = Some b /\
  chain B (upd (length fulls) (mkBlock (bdata b) (Some (length mem))) mem ++ [mkBlock [] None])
        (fulls ++ [last]) [].
Proof.
  intros Hc Hb. pose proof Hc as (ln & Hm & Hf & Hl).
  destruct (chain_tail B mem fulls last Hc) as (ln' & Ht).
  eexists. split; [exact Ht|]. exists None. split; [|split].
  - rewrite (chain_length B mem fulls last Hc). rewrite Hm. cbn [bdata].
    rewrite <- (chain_pre_length fulls) at 1. rewrite upd_app_last.
    unfold linked. rewrite app_length. cbn [length]. rewrite Nat.add_1_r, seq_S. cbn [plus].
    rewrite <- app_assoc. cbn [app].
    assert (Hcomb : forall (a : list nat) (b : list (list Z)) x y, length a = length b ->
       combine (a ++ [x]) (b ++ [y]) = combine a b ++ [(x, y)]).
    { induction a as [|a0 a IH]; intros [|b0 b] x y Hlen; cbn in *; try discriminate; [reflexivity|].
      rewrite IH by lia. reflexivity. }
    rewrite Hcomb by (rewrite seq_length; reflexivity).
    rewrite map_app. cbn [map fst snd]. rewrite <- app_assoc. reflexivity.
  - apply Forall_app. split; [assumption|]. constructor; [assumption|constructor].
  - cbn. lia.
Qed.

(** Walking the chain from block [i]. *)
Lemma walk_chain {S} B mem fulls last (k : S -> list Z -> outcome (S * bool))
  (kv : S -> list Z -> S * bool) :
  chain B mem fulls last -> (forall s ch, In ch fulls -> k s ch = Ret (kv s ch)) ->
  forall n i s fuel, (i + n = length fulls)%nat -> (n < fuel)%nat ->
  walk fuel mem B (Some i) (Some (length fulls)) k s = Ret (visit_all kv s (skipn i fulls)).
Proof.
  intros Hc Hk. induction n as [|n IH]; intros i s fuel Hi Hf; (destruct fuel as [|fuel]; [lia|]); cbn [walk].
  - cbn [oeqb]. replace (Nat.eqb i (length fulls)) with true by lia.
    rewrite skipn_all2 by lia. reflexivity.
  - cbn [oeqb]. replace (Nat.eqb i (length fulls)) with false by lia.
    destruct (nth_error fulls i) as [d|] eqn:E; [|apply nth_error_None in E; lia].
    rewrite (chain_nth B mem fulls last i d Hc E). cbn [bnext].
    assert (Hd : length d = B).
    { destruct Hc as (_ & _ & Hf' & _). rewrite Forall_forall in Hf'. apply Hf'. eapply nth_error_In; eassumption. }
    unfold blkRead. cbn [bdata]. replace (B <=? length d)%nat with true by lia.
    rewrite firstn_all2 by lia. cbn [obind]. rewrite Hk by (eapply nth_error_In; eassumption). cbn [obind].
    assert (Hsk : skipn i fulls = d :: skipn (Datatypes.S i) fulls).
    { clear -E. revert i E. induction fulls as [|f fs IHf]; intros [|i] E; cbn in *; try discriminate.
      - injection E as <-. reflexivity.
      - rewrite (IHf i E). reflexivity. }
    rewrite Hsk. cbn [visit_all]. destruct (kv s d) as [s' go]. destruct go; [|reflexivity].
    apply IH; lia.
Qed.

Lemma readTail_chain B mem fulls last : chain B mem fulls last ->
  readTail mem (Some (length fulls)) (length last) = Ret last.
Proof.
  intros Hc. unfold readTail. destruct (chain_tail B mem fulls last Hc) as (ln & ->).
  unfold blkRead. cbn [bdata]. replace (length last <=? length last)%nat with true by lia.
  rewrite firstn_all. reflexivity.
Qed.

Lemma concat_len B (fulls : list (list Z)) : Forall (fun d => length d = B) fulls ->
  length (concat fulls) = (length fulls * B)%nat.
Proof. induction 1; cbn; [reflexivity|]. rewrite app_length. lia. Qed.

(** * Cord *)
Inductive cordRep (B : nat) (c : cord) (bytes : list Z) : Prop :=
| CREmpty : cB c = B -> cpt c = B -> clen c = 0%nat -> chead c = None -> ctail c = None -> cmem c = [] ->
    bytes = [] -> cordRep B c bytes
| CRChain fulls last : cB c = B -> cpt c = length last -> clen c = length bytes -> chead c = Some 0%nat ->
    ctail c = Some (length fulls) -> chain B (cmem c) fulls last -> (0 < length last)%nat ->
    bytes = concat fulls ++ last -> cordRep B c bytes.

Lemma cordRep_clear B c bytes : cordRep B c bytes -> cordRep B (cordClear c) [].
Proof. intros H. apply CREmpty; cbn; auto; destruct H; assumption. Qed.

Lemma firstn_skipn_app (value : list Z) n (acc : list Z) : acc ++ value = (acc ++ firstn n value) ++ skipn n value.
Proof. rewrite <- app_assoc, firstn_skipn. reflexivity. Qed.

Lemma cordWrite_ok B : (0 < B)%nat -> forall fuel value c bytes,
  (length value < fuel)%nat -> cordRep B c bytes ->
  exists c', cordWrite fuel c value = Ret c' /\ cordRep B c' (bytes ++ value).
Proof.
  intros HB. induction fuel as [|fuel IH]; intros value c bytes Hf R; [lia|].
  cbn [cordWrite]. destruct value as [|v0 value0]; [exists c; rewrite app_nil_r; auto|].
  set (value := v0 :: value0) in *.
  assert (Hv : (0 < length value)%nat) by (cbn; lia). clearbody value.
  (* state in which the write happens: a chain with room *)
  assert (Hroom : forall c1 fulls last n,
    cB c1 = B -> cpt c1 = length last -> clen c1 = length bytes -> chead c1 = Some 0%nat ->
    ctail c1 = Some (length fulls) -> chain B (cmem c1) fulls last -> bytes = concat fulls ++ last ->
    n = Nat.min (length value) (B - length last) -> (0 < n)%nat ->
    exists c', match ctail c1 with
          | None => UB
          | Some t =>
              match nth_error (cmem c1) t with
              | None => UB
              | Some b =>
                  let* b' := blkWrite (cB c1) b (cpt c1) (firstn n value) in
                  let c := mkCord (cB c1) (cpt c1 + n) (clen c1 + n) (chead c1) (ctail c1) (upd t b' (cmem c1)) in
                  if (n <? length value)%nat then cordWrite fuel c (skipn n value) else Ret c
              end
          end = Ret c' /\ cordRep B c' (bytes ++ value)).
  { intros c1 fulls last n HcB Hpt Hlen Hh Ht Hc Hby Hn Hn0.
    assert (Hfn : length (firstn n value) = n) by (rewrite firstn_length; lia).
    destruct (chain_write B (cmem c1) fulls last (firstn n value) Hc) as (b & b' & Hb & Hw & Hc').
    { destruct Hc as (_ & _ & _ & ?). lia. }
    rewrite Ht, Hb, HcB, Hpt, Hw. cbn [obind].
    set (c2 := mkCord B (length last + n) (clen c1 + n) (chead c1) (Some (length fulls)) (upd (length fulls) b' (cmem c1))).
    assert (R2 : cordRep B c2 (bytes ++ firstn n value)).
    { apply (CRChain B c2 _ fulls (last ++ firstn n value)); cbn; auto.
      - rewrite app_length. lia.
      - rewrite app_length. lia.
      - rewrite app_length. lia.
      - rewrite Hby, app_assoc. reflexivity. }
    destruct (n <? length value)%nat eqn:E.
    - rewrite (firstn_skipn_app value n bytes). apply IH; [|exact R2]. rewrite skipn_length. lia.
    - exists c2. split; [reflexivity|]. rewrite <- (firstn_all value).
      replace (length value) with n by lia. exact R2. }
  destruct R as [HcB Hpt Hlen Hh Ht Hm Hby | fulls last HcB Hpt Hlen Hh Ht Hc Hl Hby].
  - rewrite HcB, Hpt. replace (Nat.min (length value) (B - B)) with 0%nat by lia. cbn [Nat.eqb].
    unfold cordAlloc. rewrite Ht, Hm, Hh. cbn [obind length app cB].
    rewrite HcB, Hlen.
    apply (Hroom (mkCord B 0 0 (Some 0%nat) (Some 0%nat) [mkBlock [] None]) [] []); cbn; auto.
    + subst bytes. reflexivity.
    + exists None. cbn. repeat split; auto; lia.
    + lia.
    + lia.
  - destruct (Nat.eqb (Nat.min (length value) (cB c - cpt c)) 0) eqn:E.
    + assert (HlB : length last = B).
      { destruct Hc as (_ & _ & _ & ?). lia. }
      unfold cordAlloc. rewrite Ht.
      destruct (chain_alloc B (cmem c) fulls last Hc HlB) as (b & Hb & Hc').
      rewrite Hb, Hh. cbn [obind].
      rewrite HcB.
      apply (Hroom (mkCord B 0 (clen c) (Some 0%nat) (Some (length (cmem c)))
        (upd (length fulls) (mkBlock (bdata b) (Some (length (cmem c)))) (cmem c) ++ [mkBlock [] None]))
        (fulls ++ [last]) []); cbn [cB cpt clen chead ctail cmem length]; auto.
      * rewrite (chain_length B _ _ _ Hc), app_length. cbn. f_equal. lia.
      * rewrite Hby, concat_app. cbn. rewrite !app_nil_r. reflexivity.
      * lia.
      * lia.
    + cbn [obind].
      apply (Hroom c fulls last); auto; lia.
Qed.

Lemma cordPut_ok B c bytes value : (0 < B)%nat -> cordRep B c bytes ->
  exists c', cordPut c value = Ret c' /\ cordRep B c' (bytes ++ value).
Proof. intros HB R. apply cordWrite_ok; auto. Qed.

Lemma cordRun_ok B h : (0 < B)%nat -> forall c bytes, cordRep B c bytes ->
  exists c', cord_run c h = Ret c' /\ cordRep B c' (content bytes h).
Proof.
  intros HB. induction h as [|[bs|] h IH]; intros c bytes R; cbn [cord_run content].
  - eauto.
  - destruct (cordPut_ok B c bytes bs HB R) as (c1 & -> & R1). cbn. apply IH. assumption.
  - apply IH. eapply cordRep_clear; eassumption.
Qed.

Lemma visit_append s0 (l : list (list Z)) :
  visit_all (fun s ch => (s ++ ch, true)) s0 l = (s0 ++ concat l, true).
Proof.
  revert s0. induction l as [|x l IH]; intros s0; cbn; [rewrite app_nil_r; reflexivity|].
  rewrite IH, <- app_assoc. reflexivity.
Qed.

Lemma cordAppendTo_ok B c bytes str : cordRep B c bytes ->
  cordAppendTo c str = Ret (str ++ bytes, length bytes) /\ clen c = length bytes.
Proof.
  intros [HcB Hpt Hlen Hh Ht Hm Hby | fulls last HcB Hpt Hlen Hh Ht Hc Hl Hby]; unfold cordAppendTo.
  - subst bytes. rewrite Hlen. cbn. rewrite app_nil_r. auto.
  - assert (Hne : clen c <> 0%nat) by (rewrite Hlen, Hby, app_length; lia).
    replace (Nat.eqb (clen c) 0) with false by lia.
    rewrite HcB, Hh, Ht, Hpt.
    rewrite (walk_chain B (cmem c) fulls last _ (fun s ch => (s ++ ch, true)) Hc ltac:(reflexivity)
              (length fulls) 0%nat str) by (try rewrite (chain_length B _ _ _ Hc); lia).
    cbn [obind skipn]. rewrite visit_append. rewrite (readTail_chain B _ _ _ Hc). cbn [obind fst].
    rewrite Hlen. split; [|reflexivity]. rewrite Hby, app_assoc. reflexivity.
Qed.

(** The chunks a visitor sees. *)
Definition chunksOf (fulls : list (list Z)) (last : list Z) : list (list Z) := fulls ++ [last].

Lemma visit_all_app {S} (visit : S -> list Z -> S * bool) s l1 l2 :
  visit_all visit s (l1 ++ l2) =
  let '(s', go) := visit_all visit s l1 in if go then visit_all visit s' l2 else (s', false).
Proof.
  revert s. induction l1 as [|x l1 IH]; intros s; cbn; [reflexivity|].
  destruct (visit s x) as [s' go]. destruct go; [apply IH|reflexivity].
Qed.

Lemma cordApply_ok B c bytes : cordRep B c bytes ->
  exists chunks, concat chunks = bytes /\ Forall (fun ch => 0 < length ch <= B)%nat chunks /\
  forall (S : Type) (visit : S -> list Z -> S * bool) s, cordApply c visit s = Ret (visit_all visit s chunks).
Proof.
  intros [HcB Hpt Hlen Hh Ht Hm Hby | fulls last HcB Hpt Hlen Hh Ht Hc Hl Hby].
  - exists []. split; [auto|]. split; [constructor|]. intros. unfold cordApply. rewrite Hlen. reflexivity.
  - exists (fulls ++ [last]). splits.
    + rewrite concat_app. cbn. rewrite app_nil_r. auto.
    + destruct Hc as (_ & _ & Hf & Hle). apply Forall_app. split; [|constructor; [lia|constructor]].
      eapply Forall_impl; [|exact Hf]. cbn. intros d Hd. lia.
    + intros S visit s. unfold cordApply.
      assert (Hne : clen c <> 0%nat) by (rewrite Hlen, Hby, app_length; lia).
      replace (Nat.eqb (clen c) 0) with false by lia.
      rewrite HcB, Hh, Ht, Hpt.
      rewrite (walk_chain B (cmem c) fulls last _ visit Hc ltac:(reflexivity) (length fulls) 0%nat s)
        by (try rewrite (chain_length B _ _ _ Hc); lia).
      cbn [obind skipn]. rewrite visit_all_app. destruct (visit_all visit s fulls) as [s' go].
      destruct go; [|reflexivity]. rewrite (readTail_chain B _ _ _ Hc). cbn [obind visit_all].
      destruct (visit s' last) as [s2 [|]]; reflexivity.
Qed.

(** Appending another, non-empty cord of the same block size. *)
Lemma walk_put B mem fulls last : (0 < B)%nat -> chain B mem fulls last ->
  forall n i c bytes fuel, (i + n = length fulls)%nat -> (n < fuel)%nat -> cordRep B c bytes ->
  exists c', walk fuel mem B (Some i) (Some (length fulls))
               (fun c ch => let* c' := cordPut c ch in Ret (c', true)) c = Ret (c', true) /\
             cordRep B c' (bytes ++ concat (skipn i fulls)).
Proof.
  intros HB Hc. induction n as [|n IH]; intros i c bytes fuel Hi Hf R;
    (destruct fuel as [|fuel]; [lia|]); cbn [walk oeqb].
  - replace (Nat.eqb i (length fulls)) with true by lia. rewrite skipn_all2 by lia. cbn.
    rewrite app_nil_r. eauto.
  - replace (Nat.eqb i (length fulls)) with false by lia.
    destruct (nth_error fulls i) as [d|] eqn:E; [|apply nth_error_None in E; lia].
    rewrite (chain_nth B mem fulls last i d Hc E). cbn [bnext].
    assert (Hd : length d = B).
    { destruct Hc as (_ & _ & Hf' & _). rewrite Forall_forall in Hf'. apply Hf'. eapply nth_error_In; eassumption. }
    unfold blkRead. cbn [bdata]. replace (B <=? length d)%nat with true by lia.
    rewrite firstn_all2 by lia. cbn [obind].
    destruct (cordPut_ok B c bytes d HB R) as (c1 & -> & R1). cbn [obind].
    destruct (IH (S i) c1 (bytes ++ d) fuel ltac:(lia) ltac:(lia) R1) as (c2 & Hw & R2).
    exists c2. split; [exact Hw|].
    assert (Hsk : skipn i fulls = d :: skipn (Datatypes.S i) fulls).
    { clear -E. revert i E. induction fulls as [|f fs IHf]; intros [|i] E; cbn in *; try discriminate.
      - injection E as <-. reflexivity.
      - rewrite (IHf i E). reflexivity. }
    rewrite Hsk. cbn [concat]. rewrite app_assoc. exact R2.
Qed.

Lemma cordAppendCord_ok B c bytes rhs rbytes : (0 < B)%nat -> cordRep B c bytes -> cordRep B rhs rbytes ->
  rbytes <> [] -> exists c', cordAppendCord c rhs = Ret c' /\ cordRep B c' (bytes ++ rbytes).
Proof.
  intros HB R [HcB Hpt Hlen Hh Ht Hm Hby | fulls last HcB Hpt Hlen Hh Ht Hc Hl Hby] Hne; [contradiction|].
  unfold cordAppendCord. rewrite Hh, Ht, Hpt.
  assert (HcB' : cB c = B) by (destruct R; assumption). rewrite HcB'.
  destruct (walk_put B (cmem rhs) fulls last HB Hc (length fulls) 0%nat c bytes (S (length (cmem rhs))))
    as (c1 & -> & R1); [lia|rewrite (chain_length B _ _ _ Hc); lia|assumption|].
  cbn [obind]. rewrite (readTail_chain B _ _ _ Hc). cbn [obind fst skipn] in *.
  destruct (cordPut_ok B c1 _ last HB R1) as (c2 & -> & R2). exists c2. split; [reflexivity|].
  rewrite Hby, app_assoc. exact R2.
Qed.

(** * ICord *)
Record icordRep (B : nat) (c : icord) (bytes : list Z) (fulls : list (list Z)) (last : list Z) : Prop := {
  ir_B : iB c = B;
  ir_len : ilen c = length bytes;
  ir_head : ihead c = Some 0%nat;
  ir_tail : itail c = Some (length fulls);
  ir_chain : chain B (imem c) fulls last;
  ir_last : (bytes = [] /\ fulls = [] /\ last = []) \/ (0 < length last)%nat;
  ir_bytes : bytes = concat fulls ++ last }.

Lemma icordNew_rep B : icordRep B (icordNew B) [] [] [].
Proof. constructor; cbn; auto. exists None. cbn. repeat split; auto; lia. Qed.

Definition pow2 (B : nat) : Prop := exists k, B = (2 ^ k)%nat.

Lemma pow2_pos B : pow2 B -> (0 < B)%nat.
Proof. intros [k ->]. pose proof (Nat.pow_nonzero 2 k). lia. Qed.

Lemma lengthMod_mod c : pow2 (iB c) -> lengthMod c = (ilen c mod iB c)%nat.
Proof.
  intros [k Hk]. unfold lengthMod. rewrite Hk.
  replace (2 ^ k - 1)%nat with (Nat.ones k) by (rewrite Nat.ones_equiv; lia).
  apply Nat.land_ones.
Qed.

Lemma lengthMod_rep B c bytes fulls last : pow2 B -> icordRep B c bytes fulls last ->
  lengthMod c = (if Nat.eqb (length last) B then 0 else length last)%nat.
Proof.
  intros HP [HB Hl _ _ Hc _ Hby]. rewrite lengthMod_mod by (rewrite HB; assumption).
  rewrite HB, Hl, Hby, app_length. pose proof Hc as (_ & _ & Hf & Hle).
  rewrite (concat_len B fulls Hf). pose proof (pow2_pos B HP).
  rewrite Nat.add_comm, Nat.mod_add by lia.
  destruct (Nat.eqb_spec (length last) B) as [-> | Hne].
  - apply Nat.mod_same. lia.
  - apply Nat.mod_small. lia.
Qed.

Lemma icordWrite_ok B : pow2 B -> forall fuel value c bytes fulls last,
  (length value < fuel)%nat -> icordRep B c bytes fulls last ->
  exists c' fulls' last', icordWrite fuel c value = Ret c' /\ icordRep B c' (bytes ++ value) fulls' last'.
Proof.
  intros HP. pose proof (pow2_pos B HP) as HB.
  induction fuel as [|fuel IH]; intros value c bytes fulls last Hf R; [lia|].
  cbn [icordWrite]. destruct value as [|v0 value0]; [exists c, fulls, last; rewrite app_nil_r; auto|].
  set (value := v0 :: value0) in *.
  assert (Hv : (0 < length value)%nat) by (cbn; lia). clearbody value.
  assert (Hroom : forall c1 fulls1 last1 n,
    iB c1 = B -> ilen c1 = length bytes -> ihead c1 = Some 0%nat ->
    itail c1 = Some (length fulls1) -> chain B (imem c1) fulls1 last1 -> bytes = concat fulls1 ++ last1 ->
    n = Nat.min (length value) (B - length last1) -> (0 < n)%nat ->
    exists c' fulls' last', match itail c1 with
          | None => UB
          | Some t =>
              match nth_error (imem c1) t with
              | None => UB
              | Some b =>
                  let* b' := blkWrite (iB c1) b (length last1) (firstn n value) in
                  let c := mkICord (iB c1) (ilen c1 + n) (ihead c1) (itail c1) (upd t b' (imem c1)) in
                  if (n <? length value)%nat then icordWrite fuel c (skipn n value) else Ret c
              end
          end = Ret c' /\ icordRep B c' (bytes ++ value) fulls' last').
  { intros c1 fulls1 last1 n HcB Hlen Hh Ht Hc Hby Hn Hn0.
    assert (Hfn : length (firstn n value) = n) by (rewrite firstn_length; lia).
    destruct (chain_write B (imem c1) fulls1 last1 (firstn n value) Hc) as (b & b' & Hb & Hw & Hc').
    { destruct Hc as (_ & _ & _ & ?). lia. }
    rewrite Ht, Hb, HcB, Hw. cbn [obind].
    set (c2 := mkICord B (ilen c1 + n) (ihead c1) (Some (length fulls1)) (upd (length fulls1) b' (imem c1))).
    assert (R2 : icordRep B c2 (bytes ++ firstn n value) fulls1 (last1 ++ firstn n value)).
    { constructor; cbn; auto.
      - rewrite app_length. lia.
      - right. rewrite app_length. lia.
      - rewrite Hby, app_assoc. reflexivity. }
    destruct (n <? length value)%nat eqn:E.
    - rewrite (firstn_skipn_app value n bytes). eapply IH; [|exact R2]. rewrite skipn_length. lia.
    - exists c2, fulls1, (last1 ++ firstn n value). split; [reflexivity|]. rewrite <- (firstn_all value) at 1.
      replace (length value) with n by lia. exact R2. }
  rewrite (lengthMod_rep B c bytes fulls last HP R).
  destruct R as [HcB Hlen Hh Ht Hc Hl Hby].
  assert (Hle : (length last <= B)%nat) by (destruct Hc as (_ & _ & _ & ?); lia).
  destruct (Nat.eqb_spec (length last) B) as [HlB | HlB].
  - replace (negb (Nat.eqb (ilen c) 0)) with true
      by (rewrite Hlen, Hby, app_length; lia). cbn [andb Nat.eqb].
    unfold icordAlloc. rewrite Ht.
    destruct (chain_alloc B (imem c) fulls last Hc HlB) as (b & Hb & Hc').
    rewrite Hb, Hh. cbn [obind iB].
    rewrite HcB.
    apply (Hroom (mkICord B (ilen c) (Some 0%nat) (Some (length (imem c)))
        (upd (length fulls) (mkBlock (bdata b) (Some (length (imem c)))) (imem c) ++ [mkBlock [] None]))
        (fulls ++ [last]) []); cbn [iB ilen ihead itail imem length]; auto.
    + rewrite (chain_length B _ _ _ Hc), app_length. cbn. f_equal. lia.
    + rewrite Hby, concat_app. cbn. rewrite !app_nil_r. reflexivity.
    + lia.
    + lia.
  - assert (Hno : negb (Nat.eqb (ilen c) 0) && Nat.eqb (length last) 0 = false).
    { destruct Hl as [(Hb & _ & _) | Hl]; [rewrite Hlen, Hb; reflexivity|]. lia. }
    rewrite Hno. cbn [obind].
    apply (Hroom c fulls last); auto; lia.
Qed.

Fixpoint writes_only (h : list sop) : Prop :=
  match h with [] => True | SWrite _ :: h' => writes_only h' | SClear :: _ => False end.

Lemma icordRun_ok B h : pow2 B -> writes_only h -> forall c bytes fulls last, icordRep B c bytes fulls last ->
  exists c' fulls' last', icord_run c h = Ret c' /\ icordRep B c' (content bytes h) fulls' last'.
Proof.
  intros HP. induction h as [|[bs|] h IH]; intros Hw c bytes fulls last R; cbn [icord_run content writes_only] in *; [eauto| |contradiction].
  destruct (icordWrite_ok B HP (S (length bs)) bs c bytes fulls last (Nat.lt_succ_diag_r _) R)
    as (c1 & f1 & l1 & Hp & R1).
  unfold icordPut. rewrite Hp. cbn. eapply IH; [exact Hw|eassumption].
Qed.

Lemma icordAppendTo_ok B c bytes fulls last str : pow2 B -> icordRep B c bytes fulls last ->
  icordAppendTo c str = Ret (str ++ bytes, length bytes).
Proof.
  intros HP R. pose proof (lengthMod_rep B c bytes fulls last HP R) as Hm.
  destruct R as [HcB Hlen Hh Ht Hc Hl Hby]. unfold icordAppendTo.
  destruct (Nat.eqb (ilen c) 0) eqn:E0.
  - assert (bytes = []) by (destruct bytes; [reflexivity|cbn in Hlen; lia]). subst bytes.
    rewrite H, app_nil_r. reflexivity.
  - assert (Hl0 : (0 < length last)%nat).
    { destruct Hl as [(Hb & _ & _) | ?]; [|assumption]. rewrite Hlen, Hb in E0. discriminate. }
    rewrite HcB, Hh, Ht.
    rewrite (walk_chain B (imem c) fulls last _ (fun s ch => (s ++ ch, true)) Hc ltac:(reflexivity)
              (length fulls) 0%nat str) by (try rewrite (chain_length B _ _ _ Hc); lia).
    cbn [obind skipn]. rewrite visit_append, Hm.
    replace (if Nat.eqb (if Nat.eqb (length last) B then 0%nat else length last) 0 then B
             else if Nat.eqb (length last) B then 0%nat else length last) with (length last).
    2:{ destruct (Nat.eqb_spec (length last) B) as [-> | ?]; cbn; [reflexivity|].
        replace (Nat.eqb (length last) 0) with false by lia. reflexivity. }
    rewrite (readTail_chain B _ _ _ Hc). cbn [obind fst].
    rewrite Hlen, <- app_assoc, <- Hby. reflexivity.
Qed.

Lemma icordApply_ok B c bytes fulls last : pow2 B -> icordRep B c bytes fulls last ->
  (length bytes mod B <> 0)%nat ->
  exists chunks, concat chunks = bytes /\ Forall (fun ch => 0 < length ch <= B)%nat chunks /\
  forall (S : Type) (visit : S -> list Z -> S * bool) s, icordApply c visit s = Ret (visit_all visit s chunks).
Proof.
  intros HP R Hmod. pose proof (lengthMod_rep B c bytes fulls last HP R) as Hm.
  assert (Hmod' : lengthMod c <> 0%nat).
  { rewrite lengthMod_mod by (rewrite (ir_B _ _ _ _ _ R); assumption).
    rewrite (ir_B _ _ _ _ _ R), (ir_len _ _ _ _ _ R). exact Hmod. }
  destruct R as [HcB Hlen Hh Ht Hc Hl Hby].
  assert (Hml : lengthMod c = length last).
  { destruct (Nat.eqb (length last) B); [contradiction|assumption]. }
  exists (fulls ++ [last]). splits.
  - rewrite concat_app. cbn. rewrite app_nil_r. auto.
  - destruct Hc as (_ & _ & Hf & Hle). apply Forall_app. split; [|constructor; [lia|constructor]].
    pose proof (pow2_pos B HP). eapply Forall_impl; [|exact Hf]. cbn. intros d Hd. lia.
  - intros S visit s. unfold icordApply.
    assert (Hne : ilen c <> 0%nat) by (rewrite Hlen, Hby, app_length; lia).
    replace (Nat.eqb (ilen c) 0) with false by lia.
    rewrite HcB, Hh, Ht, Hml.
    rewrite (walk_chain B (imem c) fulls last _ visit Hc ltac:(reflexivity) (length fulls) 0%nat s)
      by (try rewrite (chain_length B _ _ _ Hc); lia).
    cbn [obind skipn]. rewrite visit_all_app. destruct (visit_all visit s fulls) as [s' go].
    destruct go; [|reflexivity]. rewrite (readTail_chain B _ _ _ Hc). cbn [obind visit_all].
    destruct (visit s' last) as [s2 [|]]; reflexivity.
Qed.

(** When the content fills its blocks exactly, the last block is reported as empty. *)
Lemma icordApply_full B c bytes fulls last : pow2 B -> icordRep B c bytes fulls last ->
  bytes <> [] -> (length bytes mod B = 0)%nat ->
  exists chunks, concat chunks = firstn (length bytes - B) bytes /\
  forall (S : Type) (visit : S -> list Z -> S * bool) s, icordApply c visit s = Ret (visit_all visit s chunks).
Proof.
  intros HP R Hne0 Hmod. pose proof (lengthMod_rep B c bytes fulls last HP R) as Hm.
  assert (Hmod' : lengthMod c = 0%nat).
  { rewrite lengthMod_mod by (rewrite (ir_B _ _ _ _ _ R); assumption).
    rewrite (ir_B _ _ _ _ _ R), (ir_len _ _ _ _ _ R). exact Hmod. }
  destruct R as [HcB Hlen Hh Ht Hc Hl Hby].
  destruct Hl as [(Hb & _) | Hl]; [contradiction|].
  assert (HlB : length last = B).
  { destruct (Nat.eqb_spec (length last) B); [assumption|lia]. }
  exists (fulls ++ [[]]). split.
  - rewrite concat_app. cbn. rewrite app_nil_r. rewrite Hby, app_length.
    replace (length (concat fulls) + length last - B)%nat with (length (concat fulls)) by lia.
    rewrite firstn_app, firstn_all, Nat.sub_diag. cbn. rewrite app_nil_r. reflexivity.
  - intros S visit s. unfold icordApply.
    assert (Hne : ilen c <> 0%nat) by (rewrite Hlen, Hby, app_length; lia).
    replace (Nat.eqb (ilen c) 0) with false by lia.
    rewrite HcB, Hh, Ht, Hmod'.
    rewrite (walk_chain B (imem c) fulls last _ visit Hc ltac:(reflexivity) (length fulls) 0%nat s)
      by (try rewrite (chain_length B _ _ _ Hc); lia).
    cbn [obind skipn]. rewrite visit_all_app. destruct (visit_all visit s fulls) as [s' go].
    destruct go; [|reflexivity].
    unfold readTail. destruct (chain_tail B _ _ _ Hc) as (ln & ->). unfold blkRead. cbn [bdata Nat.leb firstn obind visit_all].
    destruct (visit s' []) as [s2 [|]]; reflexivity.
Qed.

Lemma leBytes_len n v : length (leBytes n v) = n.
Proof. revert v. induction n; cbn; auto. Qed.

Lemma walk_iput B mem fulls last : pow2 B -> chain B mem fulls last ->
  forall n i c bytes f l fuel, (i + n = length fulls)%nat -> (n < fuel)%nat -> icordRep B c bytes f l ->
  exists c' f' l', walk fuel mem B (Some i) (Some (length fulls))
               (fun c ch => let* c' := icordPut c ch in Ret (c', true)) c = Ret (c', true) /\
             icordRep B c' (bytes ++ concat (skipn i fulls)) f' l'.
Proof.
  intros HB Hc. induction n as [|n IH]; intros i c bytes f l fuel Hi Hf R;
    (destruct fuel as [|fuel]; [lia|]); cbn [walk oeqb].
  - replace (Nat.eqb i (length fulls)) with true by lia. rewrite skipn_all2 by lia. cbn.
    rewrite app_nil_r. eauto.
  - replace (Nat.eqb i (length fulls)) with false by lia.
    destruct (nth_error fulls i) as [d|] eqn:E; [|apply nth_error_None in E; lia].
    rewrite (chain_nth B mem fulls last i d Hc E). cbn [bnext].
    assert (Hd : length d = B).
    { destruct Hc as (_ & _ & Hf' & _). rewrite Forall_forall in Hf'. apply Hf'. eapply nth_error_In; eassumption. }
    unfold blkRead. cbn [bdata]. replace (B <=? length d)%nat with true by lia.
    rewrite firstn_all2 by lia. cbn [obind].
    destruct (icordWrite_ok B HB (S (length d)) d c bytes f l (Nat.lt_succ_diag_r _) R) as (c1 & f1 & l1 & Hp & R1).
    unfold icordPut at 1. rewrite Hp. cbn [obind].
    destruct (IH (S i) c1 (bytes ++ d) f1 l1 fuel ltac:(lia) ltac:(lia) R1) as (c2 & f2 & l2 & Hw & R2).
    exists c2, f2, l2. split; [exact Hw|].
    assert (Hsk : skipn i fulls = d :: skipn (Datatypes.S i) fulls).
    { clear -E. revert i E. induction fulls as [|f fs IHf]; intros [|i] E; cbn in *; try discriminate.
      - injection E as <-. reflexivity.
      - rewrite (IHf i E). reflexivity. }
    rewrite Hsk. cbn [concat]. rewrite app_assoc. exact R2.
Qed.

Lemma icordAppendICord_ok B c bytes f l rhs rbytes rf rl : pow2 B ->
  icordRep B c bytes f l -> icordRep B rhs rbytes rf rl ->
  (rbytes = [] \/ length rbytes mod B <> 0)%nat ->
  exists c' f' l', icordAppendICord c rhs = Ret c' /\ icordRep B c' (bytes ++ rbytes) f' l'.
Proof.
  intros HP R RR Hm. pose proof (lengthMod_rep B rhs rbytes rf rl HP RR) as Hlm.
  pose proof (pow2_pos B HP) as HB.
  assert (Hml : lengthMod rhs = length rl).
  { destruct Hm as [-> | Hm].
    - destruct (Nat.eqb_spec (length rl) B); [|assumption].
      pose proof (ir_bytes _ _ _ _ _ RR) as Hby. symmetry in Hby. apply app_eq_nil in Hby as [_ Hrl].
      rewrite Hrl in *. cbn in *. lia.
    - rewrite lengthMod_mod in Hlm |- * by (rewrite (ir_B _ _ _ _ _ RR); assumption).
      rewrite (ir_B _ _ _ _ _ RR), (ir_len _ _ _ _ _ RR) in *.
      destruct (Nat.eqb (length rl) B); lia. }
  unfold icordAppendICord. rewrite Hml.
  destruct RR as [HcB Hlen Hh Ht Hc Hl Hby]. rewrite Hh, Ht, (ir_B _ _ _ _ _ R).
  destruct (walk_iput B (imem rhs) rf rl HP Hc (length rf) 0%nat c bytes f l (S (length (imem rhs))))
    as (c1 & f1 & l1 & -> & R1); [lia|rewrite (chain_length B _ _ _ Hc); lia|assumption|].
  cbn [obind]. rewrite (readTail_chain B _ _ _ Hc). cbn [obind fst skipn] in *.
  destruct (icordWrite_ok B HP (S (length rl)) rl c1 _ f1 l1 (Nat.lt_succ_diag_r _) R1) as (c2 & f2 & l2 & Hp & R2).
  exists c2, f2, l2. split; [exact Hp|]. rewrite Hby, app_assoc. exact R2.
Qed.
