From Verif Require Import Prelude StatusModel StatusProofs EitherModel EitherSpec.

Section EitherProofs.
Context {L R : Type}.
Local Notation eworld := (eworld L R).
Local Notation aenv := (aenv L R).

Definition conc (v : aval L R) : cell L R :=
  match v with
  | None => mkCell 0 Dead
  | Some (inl l) => mkCell 1 (AliveL l)
  | Some (inr r) => mkCell 2 (AliveR r)
  end.

Record erep (n : nat) (w : eworld) (a : aenv) : Prop := {
  er_len : length (cells w) = n;
  er_cell : forall i, (i < n)%nat -> cellAt w i = conc (a i);
  er_cnt : ctors w = dtors w + nonvoid a n }.

Lemma cellAt_set (w : eworld) i c k : (i < length (cells w))%nat ->
  cellAt (setCell w i c) k = if Nat.eqb k i then c else cellAt w k.
Proof. intros H. unfold cellAt, setCell. cbn. apply nth_put. assumption. Qed.
Lemma cells_set (w : eworld) i c : length (cells (setCell w i c)) = length (cells w).
Proof. unfold setCell. cbn. apply put_length. Qed.

(** A general description of worlds: the cells as a function and the counters. *)
Record wdesc (n : nat) (w : eworld) (f : nat -> cell L R) (c d : Z) : Prop := {
  wd_len : length (cells w) = n;
  wd_cell : forall i, (i < n)%nat -> cellAt w i = f i;
  wd_c : ctors w = c;
  wd_d : dtors w = d }.

Definition fset (f : nat -> cell L R) (i : nat) (c : cell L R) : nat -> cell L R :=
  fun k => if Nat.eqb k i then c else f k.

Lemma wdesc_ext n w f g c d : wdesc n w f c d -> (forall i, (i < n)%nat -> f i = g i) -> wdesc n w g c d.
Proof. intros [H1 H2 H3 H4] E. constructor; auto. intros i Hi. rewrite H2, E by assumption. reflexivity. Qed.

Lemma wdesc_set n w f c d i x : (i < n)%nat -> wdesc n w f c d -> wdesc n (setCell w i x) (fset f i x) c d.
Proof.
  intros Hi [H1 H2 H3 H4]. constructor; auto.
  - rewrite cells_set. assumption.
  - intros k Hk. rewrite cellAt_set by lia. unfold fset. destruct (Nat.eqb k i); auto.
Qed.
Lemma wdesc_tag n w f c d i t : (i < n)%nat -> wdesc n w f c d ->
  wdesc n (setTag w i t) (fset f i (mkCell t (val (f i)))) c d.
Proof. intros Hi H. unfold setTag. rewrite (wd_cell _ _ _ _ _ H i Hi). apply wdesc_set; assumption. Qed.
Lemma wdesc_place n w f c d i x : (i < n)%nat -> wdesc n w f c d ->
  wdesc n (place w i x) (fset f i (mkCell (tag (f i)) x)) (c + 1) d.
Proof.
  intros Hi H. unfold place. rewrite (wd_cell _ _ _ _ _ H i Hi).
  pose proof (wdesc_set n w f c d i (mkCell (tag (f i)) x) Hi H) as [H1 H2 H3 H4].
  constructor; cbn in *; auto. lia.
Qed.
Lemma wdesc_killL n w f c d i l : (i < n)%nat -> wdesc n w f c d -> val (f i) = AliveL l ->
  exists w', killL w i = Ret w' /\ wdesc n w' (fset f i (mkCell (tag (f i)) Dead)) c (d + 1).
Proof.
  intros Hi H Hv. unfold killL. rewrite (wd_cell _ _ _ _ _ H i Hi), Hv. eexists. split; [reflexivity|].
  pose proof (wdesc_set n w f c d i (mkCell (tag (f i)) Dead) Hi H) as [H1 H2 H3 H4].
  constructor; cbn in *; auto. lia.
Qed.
Lemma wdesc_killR n w f c d i r : (i < n)%nat -> wdesc n w f c d -> val (f i) = AliveR r ->
  exists w', killR w i = Ret w' /\ wdesc n w' (fset f i (mkCell (tag (f i)) Dead)) c (d + 1).
Proof.
  intros Hi H Hv. unfold killR. rewrite (wd_cell _ _ _ _ _ H i Hi), Hv. eexists. split; [reflexivity|].
  pose proof (wdesc_set n w f c d i (mkCell (tag (f i)) Dead) Hi H) as [H1 H2 H3 H4].
  constructor; cbn in *; auto. lia.
Qed.

Lemma erep_wdesc n w (a : aenv) : erep n w a <-> exists d, wdesc n w (fun i => conc (a i)) (d + nonvoid a n) d.
Proof.
  split.
  - intros [H1 H2 H3]. exists (dtors w). constructor; auto.
  - intros (d & [H1 H2 H3 H4]). constructor; auto. lia.
Qed.

Definition cnt (v : aval L R) : Z := match v with Some _ => 1 | None => 0 end.
Lemma nonvoid_set (a : aenv) i v n : (i < n)%nat -> nonvoid (eset a i v) n = nonvoid a n - cnt (a i) + cnt v.
Proof.
  induction n as [|n IH]; intros Hi; [lia|]. cbn [nonvoid]. unfold eset at 2.
  destruct (Nat.eqb_spec n i) as [-> | Hne].
  - assert (Hsame : forall m, (m <= i)%nat -> nonvoid (eset a i v) m = nonvoid a m).
    { induction m as [|m IHm]; intros Hm; cbn [nonvoid]; [reflexivity|]. rewrite IHm by lia. unfold eset.
      replace (Nat.eqb m i) with false by lia. reflexivity. }
    rewrite Hsame by lia. unfold cnt. destruct v, (a i); lia.
  - rewrite IH by lia. lia.
Qed.
Lemma nonvoid_ext (a b : aenv) n : (forall i, (i < n)%nat -> a i = b i) -> nonvoid a n = nonvoid b n.
Proof. induction n as [|n IH]; intros E; cbn; [reflexivity|]. rewrite IH, E by (try intros; try apply E; lia). reflexivity. Qed.

(** Building the new abstraction from a description. *)
Lemma erep_of n w f c d (a : aenv) : wdesc n w f c d -> (forall i, (i < n)%nat -> f i = conc (a i)) ->
  c = d + nonvoid a n -> erep n w a.
Proof.
  intros H E Hc. apply erep_wdesc. exists d. rewrite <- Hc. eapply wdesc_ext; eassumption.
Qed.

(** Destroying the content of object i, for both classes. *)
Lemma destruct_ok n w f c d i v (D : eworld -> nat -> outcome eworld) : (i < n)%nat -> wdesc n w f c d ->
  f i = conc v ->
  (D = eDestruct \/ D = sDestruct) ->
  exists w', D w i = Ret w' /\ wdesc n w' (fset f i (mkCell (tag (conc v)) Dead)) c (d + cnt v).
Proof.
  intros Hi H Hf HD.
  assert (Hvoid : v = None -> wdesc n w (fset f i (mkCell (tag (conc v)) Dead)) c (d + cnt v)).
  { intros ->. cbn. rewrite Z.add_0_r. eapply wdesc_ext; [exact H|]. intros k Hk. unfold fset.
    destruct (Nat.eqb_spec k i) as [-> | _]; auto. }
  destruct HD as [-> | ->]; unfold eDestruct, sDestruct; rewrite (wd_cell _ _ _ _ _ H i Hi), Hf;
    destruct v as [[l|r]|]; cbn [conc tag Z.eqb Pos.eqb].
  - rewrite <- (f_equal tag Hf : _ = 1). eapply wdesc_killL; eauto. rewrite Hf. reflexivity.
  - rewrite <- (f_equal tag Hf : _ = 2). eapply wdesc_killR; eauto. rewrite Hf. reflexivity.
  - eexists. split; [reflexivity|]. apply Hvoid. reflexivity.
  - rewrite <- (f_equal tag Hf : _ = 1). eapply wdesc_killL; eauto. rewrite Hf. reflexivity.
  - rewrite <- (f_equal tag Hf : _ = 2). eapply wdesc_killR; eauto. rewrite Hf. reflexivity.
  - eexists. split; [reflexivity|]. apply Hvoid. reflexivity.
Qed.

Lemma readL_ok n w f c d i v : (i < n)%nat -> wdesc n w f c d -> val (f i) = AliveL v -> readL w i = Ret v.
Proof. intros Hi H E. unfold readL. rewrite (wd_cell _ _ _ _ _ H i Hi), E. reflexivity. Qed.
Lemma readR_ok n w f c d i v : (i < n)%nat -> wdesc n w f c d -> val (f i) = AliveR v -> readR w i = Ret v.
Proof. intros Hi H E. unfold readR. rewrite (wd_cell _ _ _ _ _ H i Hi), E. reflexivity. Qed.
Lemma tag_ok n w f c d i : (i < n)%nat -> wdesc n w f c d -> tag (cellAt w i) = tag (f i).
Proof. intros Hi H. rewrite (wd_cell _ _ _ _ _ H i Hi). reflexivity. Qed.

(** Setting the content of an emptied object. *)
Definition setVal (t : Z) (w : eworld) i (x : alive L R) := setTag (place w i x) i t.
Lemma setVal_ok n w f c d i x t : (i < n)%nat -> wdesc n w f c d ->
  wdesc n (setVal t w i x) (fset f i (mkCell t x)) (c + 1) d.
Proof.
  intros Hi H. unfold setVal.
  eapply wdesc_ext; [apply wdesc_tag; [exact Hi|apply wdesc_place; [exact Hi|exact H]]|].
  intros k Hk. unfold fset. rewrite Nat.eqb_refl. destruct (Nat.eqb k i); reflexivity.
Qed.
Lemma setTag0_ok n w f c d i x : (i < n)%nat -> wdesc n w (fset f i (mkCell x Dead)) c d ->
  wdesc n (setTag w i 0) (fset f i (mkCell 0 Dead)) c d.
Proof.
  intros Hi H. eapply wdesc_ext; [apply wdesc_tag; [exact Hi|exact H]|].
  intros k Hk. unfold fset. rewrite Nat.eqb_refl. destruct (Nat.eqb k i); reflexivity.
Qed.
Lemma fresh_ok n w f c d i x : (i < n)%nat -> wdesc n w (fset f i x) c d ->
  wdesc n (fresh w i) (fset f i (mkCell 0 Dead)) c d.
Proof.
  intros Hi H. eapply wdesc_ext; [apply wdesc_set; [exact Hi|exact H]|].
  intros k Hk. unfold fset. destruct (Nat.eqb k i); reflexivity.
Qed.

(** From "object i emptied" to a stored value. *)
Lemma finish n w (a : aenv) d i v :
  (i < n)%nat -> wdesc n w (fset (fun k => conc (a k)) i (conc v)) (d + nonvoid a n + cnt v) (d + cnt (a i)) ->
  erep n w (eset a i v).
Proof.
  intros Hi H. eapply erep_of; [exact H| |rewrite nonvoid_set by assumption; lia].
  intros k Hk. unfold fset, eset. destruct (Nat.eqb k i); reflexivity.
Qed.
Lemma finish2 n w (a : aenv) d i j v :
  (i < n)%nat -> (j < n)%nat -> i <> j -> v = a j ->
  wdesc n w (fset (fset (fun k => conc (a k)) i (conc v)) j (mkCell 0 Dead))
        (d + nonvoid a n + cnt v) (d + cnt (a i) + cnt v) ->
  erep n w (eset (eset a i v) j None).
Proof.
  intros Hi Hj Hij Hv H. eapply erep_of; [exact H| |].
  - intros k Hk. unfold fset, eset. destruct (Nat.eqb k j); [reflexivity|].
    destruct (Nat.eqb k i); reflexivity.
  - rewrite !nonvoid_set by assumption. unfold eset at 1. replace (Nat.eqb j i) with false by lia.
    subst v. cbn. lia.
Qed.

Ltac other j i := unfold fset; replace (Nat.eqb j i) with false by lia.

Lemma estep_ok n w (a : aenv) o : eop_ok n a o -> erep n w a ->
  exists w', estep w o = Ret w' /\ erep n w' (easpec a o).
Proof.
  intros Hok R0. apply erep_wdesc in R0 as (d & H).
  assert (Hd : forall i, (i < n)%nat -> exists w1, eDestruct w i = Ret w1 /\ wdesc n w1 (fset (fun k => conc (a k)) i (mkCell (tag (conc (a i))) Dead)) (d + nonvoid a n) (d + cnt (a i))).
  { intros i Hi. apply (destruct_ok n w _ _ _ i (a i) eDestruct Hi H eq_refl (or_introl eq_refl)). }
  assert (Hr : forall i, (i < n)%nat -> exists w1, eReset w i = Ret w1 /\ wdesc n w1 (fset (fun k => conc (a k)) i (mkCell 0 Dead)) (d + nonvoid a n) (d + cnt (a i))).
  { intros i Hi. destruct (Hd i Hi) as (w1 & Hw1 & H1). unfold eReset. rewrite Hw1. cbn.
    eexists. split; [reflexivity|]. eapply setTag0_ok; eassumption. }
  assert (Hset : forall w1 i x, (i < n)%nat -> x <> None ->
    wdesc n w1 (fset (fun k => conc (a k)) i (mkCell 0 Dead)) (d + nonvoid a n) (d + cnt (a i)) ->
    erep n (setVal (tag (conc x)) w1 i (val (conc x))) (eset a i x)).
  { intros w1 i x Hi Hx H1. apply (finish n _ a d i x Hi).
    eapply wdesc_ext.
    - replace (cnt x) with 1 by (destruct x; [reflexivity|contradiction]).
      apply setVal_ok; [exact Hi|exact H1].
    - intros k Hk. unfold fset. destruct (Nat.eqb k i); [|reflexivity]. destruct x as [[?|?]|]; reflexivity. }
  assert (Hcopy : forall w1 i j, (i < n)%nat -> (j < n)%nat -> i <> j ->
    wdesc n w1 (fset (fun k => conc (a k)) i (mkCell 0 Dead)) (d + nonvoid a n) (d + cnt (a i)) ->
    exists w', eCopyInto w1 i j = Ret w' /\ erep n w' (eset a i (a j))).
  { intros w1 i j Hi Hj Hij H1. unfold eCopyInto.
    assert (Hc : cellAt w1 j = conc (a j)).
    { rewrite (wd_cell _ _ _ _ _ H1 j Hj). other j i. reflexivity. }
    destruct (a j) as [[l|r]|] eqn:Ea; rewrite Hc; cbn [conc tag Z.eqb Pos.eqb].
    - unfold readL. rewrite Hc. cbn. eexists. split; [reflexivity|].
      exact (Hset w1 i (Some (inl l)) Hi ltac:(discriminate) H1).
    - unfold readR. rewrite Hc. cbn. eexists. split; [reflexivity|].
      exact (Hset w1 i (Some (inr r)) Hi ltac:(discriminate) H1).
    - eexists. split; [reflexivity|]. apply (finish n _ a d i None Hi). cbn. rewrite Z.add_0_r. exact H1. }
  assert (Hmove : forall w1 i j, (i < n)%nat -> (j < n)%nat -> i <> j ->
    wdesc n w1 (fset (fun k => conc (a k)) i (mkCell 0 Dead)) (d + nonvoid a n) (d + cnt (a i)) ->
    exists w', eMoveInto w1 i j = Ret w' /\ erep n w' (eset (eset a i (a j)) j None)).
  { intros w1 i j Hi Hj Hij H1. unfold eMoveInto.
    assert (Hc : cellAt w1 j = conc (a j)).
    { rewrite (wd_cell _ _ _ _ _ H1 j Hj). other j i. reflexivity. }
    destruct (a j) as [[l|r]|] eqn:Ea; rewrite Hc; cbn [conc tag Z.eqb Pos.eqb].
    - unfold eTakeLeft, readL. rewrite Hc. cbn [conc tag val Z.eqb Pos.eqb obind].
      destruct (wdesc_killL n w1 _ _ _ j l Hj H1) as (w2 & -> & H2).
      { other j i. rewrite Ea. reflexivity. }
      cbn [obind fst snd]. eexists. split; [reflexivity|].
      assert (H3 := setTag0_ok _ _ _ _ _ _ _ Hj H2).
      apply (finish2 n _ a d i j (Some (inl l)) Hi Hj Hij (eq_sym Ea)).
      eapply wdesc_ext; [apply setVal_ok; [exact Hi|exact H3]|].
      intros k Hk. unfold fset. destruct (Nat.eqb_spec k i); [|reflexivity].
      replace (Nat.eqb k j) with false by lia. reflexivity.
    - unfold eTakeRight, readR. rewrite Hc. cbn [conc tag val Z.eqb Pos.eqb obind].
      destruct (wdesc_killR n w1 _ _ _ j r Hj H1) as (w2 & -> & H2).
      { other j i. rewrite Ea. reflexivity. }
      cbn [obind fst snd]. eexists. split; [reflexivity|].
      assert (H3 := setTag0_ok _ _ _ _ _ _ _ Hj H2).
      apply (finish2 n _ a d i j (Some (inr r)) Hi Hj Hij (eq_sym Ea)).
      eapply wdesc_ext; [apply setVal_ok; [exact Hi|exact H3]|].
      intros k Hk. unfold fset. destruct (Nat.eqb_spec k i); [|reflexivity].
      replace (Nat.eqb k j) with false by lia. reflexivity.
    - eexists. split; [reflexivity|].
      apply (finish2 n _ a d i j None Hi Hj Hij (eq_sym Ea)). cbn. rewrite !Z.add_0_r.
      eapply wdesc_ext; [exact H1|]. intros k Hk. unfold fset.
      destruct (Nat.eqb_spec k j) as [-> | _]; [|reflexivity].
      replace (Nat.eqb j i) with false by lia. rewrite Ea. reflexivity. }
  destruct o as [i|i v|i v|i j|i j|i v|i v|i j|i j|i j|i j|i|i]; cbn [estep easpec eop_ok] in *.
  - destruct (Hd i Hok) as (w1 & -> & H1). cbn. eexists. split; [reflexivity|].
    apply (finish n _ a d i None Hok). cbn. rewrite Z.add_0_r. eapply fresh_ok; eassumption.
  - destruct (Hd i Hok) as (w1 & -> & H1). cbn. eexists. split; [reflexivity|].
    exact (Hset _ i (Some (inl v)) Hok ltac:(discriminate) (fresh_ok _ _ _ _ _ _ _ Hok H1)).
  - destruct (Hd i Hok) as (w1 & -> & H1). cbn. eexists. split; [reflexivity|].
    exact (Hset _ i (Some (inr v)) Hok ltac:(discriminate) (fresh_ok _ _ _ _ _ _ _ Hok H1)).
  - destruct Hok as (Hi & Hj & Hij). destruct (Hd i Hi) as (w1 & -> & H1). cbn [obind].
    apply Hcopy; auto. eapply fresh_ok; eassumption.
  - destruct Hok as (Hi & Hj & Hij). destruct (Hd i Hi) as (w1 & -> & H1). cbn [obind].
    replace (Nat.eqb i j) with false by lia. apply Hmove; auto. eapply fresh_ok; eassumption.
  - destruct (Hr i Hok) as (w1 & -> & H1). cbn [obind]. eexists. split; [reflexivity|].
    exact (Hset _ i (Some (inl v)) Hok ltac:(discriminate) H1).
  - destruct (Hr i Hok) as (w1 & -> & H1). cbn [obind]. eexists. split; [reflexivity|].
    exact (Hset _ i (Some (inr v)) Hok ltac:(discriminate) H1).
  - destruct Hok as (Hi & Hj & Hij & v & Ha). rewrite (tag_ok n w _ _ _ j Hj H), Ha. cbn [conc tag Z.eqb Pos.eqb].
    destruct (Hr i Hi) as (w1 & -> & H1). cbn [obind].
    rewrite (readL_ok n w1 _ _ _ j v Hj H1) by (other j i; rewrite Ha; reflexivity).
    cbn [obind]. eexists. split; [reflexivity|]. exact (Hset _ i (Some (inl v)) Hi ltac:(discriminate) H1).
  - destruct Hok as (Hi & Hj & Hij & v & Ha). rewrite (tag_ok n w _ _ _ j Hj H), Ha. cbn [conc tag Z.eqb Pos.eqb].
    destruct (Hr i Hi) as (w1 & -> & H1). cbn [obind].
    rewrite (readR_ok n w1 _ _ _ j v Hj H1) by (other j i; rewrite Ha; reflexivity).
    cbn [obind]. eexists. split; [reflexivity|]. exact (Hset _ i (Some (inr v)) Hi ltac:(discriminate) H1).
  - destruct Hok as (Hi & Hj). destruct (Nat.eqb_spec i j) as [-> | Hij].
    + eexists. split; [reflexivity|]. apply erep_wdesc. exists d.
      rewrite nonvoid_set by assumption. replace (d + (nonvoid a n - cnt (a j) + cnt (a j))) with (d + nonvoid a n) by lia.
      eapply wdesc_ext; [exact H|]. intros k Hk. unfold eset. destruct (Nat.eqb_spec k j) as [-> | _]; reflexivity.
    + destruct (Hr i Hi) as (w1 & -> & H1). cbn [obind]. apply Hcopy; auto.
  - destruct Hok as (Hi & Hj). destruct (Nat.eqb_spec i j) as [-> | Hij].
    + eexists. split; [reflexivity|]. apply erep_wdesc. eauto.
    + destruct (Hr i Hi) as (w1 & -> & H1). cbn [obind]. apply Hmove; auto.
  - destruct Hok as (Hi & v & Ha). unfold eTakeLeft.
    rewrite (tag_ok n w _ _ _ i Hi H), Ha. cbn [conc tag Z.eqb Pos.eqb].
    rewrite (readL_ok n w _ _ _ i v Hi H) by (rewrite Ha; reflexivity). cbn [obind].
    destruct (wdesc_killL n w _ _ _ i v Hi H) as (w2 & -> & H2); [rewrite Ha; reflexivity|].
    cbn [obind fst]. eexists. split; [reflexivity|]. apply (finish n _ a d i None Hi).
    rewrite Ha. cbn. rewrite Z.add_0_r. eapply setTag0_ok; eassumption.
  - destruct Hok as (Hi & v & Ha). unfold eTakeRight.
    rewrite (tag_ok n w _ _ _ i Hi H), Ha. cbn [conc tag Z.eqb Pos.eqb].
    rewrite (readR_ok n w _ _ _ i v Hi H) by (rewrite Ha; reflexivity). cbn [obind].
    destruct (wdesc_killR n w _ _ _ i v Hi H) as (w2 & -> & H2); [rewrite Ha; reflexivity|].
    cbn [obind fst]. eexists. split; [reflexivity|]. apply (finish n _ a d i None Hi).
    rewrite Ha. cbn. rewrite Z.add_0_r. eapply setTag0_ok; eassumption.
Qed.

Lemma sstep_ok n w (a : aenv) o : eop_ok n a o -> erep n w a ->
  exists w', sostep w o = Ret w' /\ erep n w' (easpec a o).
Proof.
  intros Hok R0. apply erep_wdesc in R0 as (d & H).
  assert (Hd : forall i, (i < n)%nat -> exists w1, sDestruct w i = Ret w1 /\ wdesc n w1 (fset (fun k => conc (a k)) i (mkCell (tag (conc (a i))) Dead)) (d + nonvoid a n) (d + cnt (a i))).
  { intros i Hi. apply (destruct_ok n w _ _ _ i (a i) sDestruct Hi H eq_refl (or_intror eq_refl)). }
  assert (Hr : forall i, (i < n)%nat -> exists w1, sReset w i = Ret w1 /\ wdesc n w1 (fset (fun k => conc (a k)) i (mkCell 0 Dead)) (d + nonvoid a n) (d + cnt (a i))).
  { intros i Hi. destruct (Hd i Hi) as (w1 & Hw1 & H1). unfold sReset. rewrite Hw1. cbn.
    eexists. split; [reflexivity|]. eapply setTag0_ok; eassumption. }
  assert (Hset : forall w1 i x t, (i < n)%nat -> x <> None ->
    wdesc n w1 (fset (fun k => conc (a k)) i (mkCell t Dead)) (d + nonvoid a n) (d + cnt (a i)) ->
    erep n (setVal (tag (conc x)) w1 i (val (conc x))) (eset a i x)).
  { intros w1 i x t Hi Hx H1. apply (finish n _ a d i x Hi).
    eapply wdesc_ext.
    - replace (cnt x) with 1 by (destruct x; [reflexivity|contradiction]).
      apply setVal_ok; [exact Hi|exact H1].
    - intros k Hk. unfold fset. destruct (Nat.eqb k i); [|reflexivity]. destruct x as [[?|?]|]; reflexivity. }
  assert (Hplace : forall w1 i x, (i < n)%nat -> x <> None ->
    wdesc n w1 (fset (fun k => conc (a k)) i (mkCell (tag (conc x)) Dead)) (d + nonvoid a n) (d + cnt (a i)) ->
    wdesc n (place w1 i (val (conc x))) (fset (fun k => conc (a k)) i (conc x)) (d + nonvoid a n + cnt x) (d + cnt (a i))).
  { intros w1 i x Hi Hx H1. eapply wdesc_ext.
    - replace (cnt x) with 1 by (destruct x; [reflexivity|contradiction]).
      apply wdesc_place; [exact Hi|exact H1].
    - intros k Hk. unfold fset. rewrite Nat.eqb_refl.
      destruct (Nat.eqb k i); [|reflexivity]. destruct x as [[?|?]|]; reflexivity. }
  assert (HresetL : forall w1 f c e j l, (j < n)%nat -> wdesc n w1 f c e -> val (f j) = AliveL l ->
    exists w2, sResetStatus w1 j = Ret w2 /\ wdesc n w2 (fset f j (mkCell 0 Dead)) c (e + 1)).
  { intros w1 f c e j l Hj H1 Hv. unfold sResetStatus.
    destruct (wdesc_killL n w1 _ _ _ j l Hj H1 Hv) as (w2 & -> & H2). cbn. eexists. split; [reflexivity|].
    eapply setTag0_ok; eassumption. }
  assert (HresetR : forall w1 f c e j r, (j < n)%nat -> wdesc n w1 f c e -> val (f j) = AliveR r ->
    exists w2, sResetValue w1 j = Ret w2 /\ wdesc n w2 (fset f j (mkCell 0 Dead)) c (e + 1)).
  { intros w1 f c e j r Hj H1 Hv. unfold sResetValue.
    destruct (wdesc_killR n w1 _ _ _ j r Hj H1 Hv) as (w2 & -> & H2). cbn. eexists. split; [reflexivity|].
    eapply setTag0_ok; eassumption. }
  destruct o as [i|i v|i v|i j|i j|i v|i v|i j|i j|i j|i j|i|i]; cbn [sostep easpec eop_ok] in *.
  - destruct (Hd i Hok) as (w1 & -> & H1). cbn. eexists. split; [reflexivity|].
    apply (finish n _ a d i None Hok). cbn. rewrite Z.add_0_r. eapply fresh_ok; eassumption.
  - destruct (Hd i Hok) as (w1 & -> & H1). cbn. eexists. split; [reflexivity|].
    exact (Hset _ i (Some (inl v)) _ Hok ltac:(discriminate) (fresh_ok _ _ _ _ _ _ _ Hok H1)).
  - destruct (Hd i Hok) as (w1 & -> & H1). cbn. eexists. split; [reflexivity|].
    exact (Hset _ i (Some (inr v)) _ Hok ltac:(discriminate) (fresh_ok _ _ _ _ _ _ _ Hok H1)).
  - (* copy constructor *)
    destruct Hok as (Hi & Hj & Hij). destruct (Hd i Hi) as (w1 & -> & H1). cbn [obind].
    unfold sCtorCopy.
    assert (Htj : tag (cellAt w1 j) = tag (conc (a j))).
    { rewrite (tag_ok n w1 _ _ _ j Hj H1). other j i. reflexivity. }
    assert (H2 : wdesc n (setTag (fresh w1 i) i (tag (cellAt w1 j)))
      (fset (fun k => conc (a k)) i (mkCell (tag (conc (a j))) Dead)) (d + nonvoid a n) (d + cnt (a i))).
    { rewrite Htj. eapply wdesc_ext; [apply wdesc_tag; [exact Hi|apply (fresh_ok _ _ _ _ _ _ _ Hi H1)]|].
      intros k Hk. unfold fset. rewrite Nat.eqb_refl. destruct (Nat.eqb k i); reflexivity. }
    set (w2 := setTag (fresh w1 i) i (tag (cellAt w1 j))) in *. clearbody w2.
    rewrite (tag_ok n w2 _ _ _ i Hi H2). unfold fset at 1 2. rewrite Nat.eqb_refl.
    destruct (a j) as [[l|r]|] eqn:Ea; cbn [conc tag Z.eqb Pos.eqb] in *.
    + rewrite (readL_ok n w2 _ _ _ j l Hj H2) by (other j i; rewrite Ea; reflexivity). cbn [obind].
      eexists. split; [reflexivity|]. apply (finish n _ a d i (Some (inl l)) Hi).
      exact (Hplace w2 i (Some (inl l)) Hi ltac:(discriminate) H2).
    + rewrite (readR_ok n w2 _ _ _ j r Hj H2) by (other j i; rewrite Ea; reflexivity). cbn [obind].
      eexists. split; [reflexivity|]. apply (finish n _ a d i (Some (inr r)) Hi).
      exact (Hplace w2 i (Some (inr r)) Hi ltac:(discriminate) H2).
    + eexists. split; [reflexivity|]. apply (finish n _ a d i None Hi). cbn. rewrite Z.add_0_r. exact H2.
  - (* move constructor *)
    destruct Hok as (Hi & Hj & Hij). destruct (Hd i Hi) as (w1 & -> & H1). cbn [obind].
    replace (Nat.eqb i j) with false by lia. unfold sCtorMove.
    assert (Htj : tag (cellAt w1 j) = tag (conc (a j))).
    { rewrite (tag_ok n w1 _ _ _ j Hj H1). other j i. reflexivity. }
    assert (H2 : wdesc n (setTag (fresh w1 i) i (tag (cellAt w1 j)))
      (fset (fun k => conc (a k)) i (mkCell (tag (conc (a j))) Dead)) (d + nonvoid a n) (d + cnt (a i))).
    { rewrite Htj. eapply wdesc_ext; [apply wdesc_tag; [exact Hi|apply (fresh_ok _ _ _ _ _ _ _ Hi H1)]|].
      intros k Hk. unfold fset. rewrite Nat.eqb_refl. destruct (Nat.eqb k i); reflexivity. }
    set (w2 := setTag (fresh w1 i) i (tag (cellAt w1 j))) in *. clearbody w2.
    rewrite (tag_ok n w2 _ _ _ i Hi H2), (tag_ok n w2 _ _ _ j Hj H2).
    unfold fset at 1 2. rewrite Nat.eqb_refl. replace (Nat.eqb j i) with false by lia.
    destruct (a j) as [[l|r]|] eqn:Ea; cbn [conc tag Z.eqb Pos.eqb] in *.
    + rewrite (readL_ok n w2 _ _ _ j l Hj H2) by (other j i; rewrite Ea; reflexivity). cbn [obind].
      pose proof (Hplace w2 i (Some (inl l)) Hi ltac:(discriminate) H2) as H3.
      destruct (HresetL _ _ _ _ j l Hj H3) as (w4 & Hw4 & H4); [other j i; rewrite Ea; reflexivity|].
      exists w4. split; [exact Hw4|]. exact (finish2 n _ a d i j (Some (inl l)) Hi Hj Hij (eq_sym Ea) H4).
    + rewrite (readR_ok n w2 _ _ _ j r Hj H2) by (other j i; rewrite Ea; reflexivity). cbn [obind].
      pose proof (Hplace w2 i (Some (inr r)) Hi ltac:(discriminate) H2) as H3.
      destruct (HresetR _ _ _ _ j r Hj H3) as (w4 & Hw4 & H4); [other j i; rewrite Ea; reflexivity|].
      exists w4. split; [exact Hw4|]. exact (finish2 n _ a d i j (Some (inr r)) Hi Hj Hij (eq_sym Ea) H4).
    + eexists. split; [reflexivity|].
      apply (finish2 n _ a d i j None Hi Hj Hij (eq_sym Ea)). cbn. rewrite !Z.add_0_r.
      eapply wdesc_ext; [exact H2|]. intros k Hk. unfold fset.
      destruct (Nat.eqb_spec k j) as [-> | _]; [|reflexivity].
      replace (Nat.eqb j i) with false by lia. rewrite Ea. reflexivity.
  - destruct (Hd i Hok) as (w1 & -> & H1). cbn [obind]. eexists. split; [reflexivity|].
    exact (Hset _ i (Some (inl v)) _ Hok ltac:(discriminate) H1).
  - destruct (Hd i Hok) as (w1 & -> & H1). cbn [obind]. eexists. split; [reflexivity|].
    exact (Hset _ i (Some (inr v)) _ Hok ltac:(discriminate) H1).
  - destruct Hok as (Hi & Hj & Hij & v & Ha). unfold sStatus.
    rewrite (tag_ok n w _ _ _ j Hj H), Ha. cbn [conc tag Z.eqb Pos.eqb].
    rewrite (readL_ok n w _ _ _ j v Hj H) by (rewrite Ha; reflexivity). cbn [obind].
    destruct (Hd i Hi) as (w1 & -> & H1). cbn [obind].
    eexists. split; [reflexivity|]. exact (Hset _ i (Some (inl v)) _ Hi ltac:(discriminate) H1).
  - destruct Hok as (Hi & Hj & Hij & v & Ha).
    destruct (Hd i Hi) as (w1 & -> & H1). cbn [obind].
    rewrite (readR_ok n w1 _ _ _ j v Hj H1) by (other j i; rewrite Ha; reflexivity).
    cbn [obind]. rewrite Ha. eexists. split; [reflexivity|]. exact (Hset _ i (Some (inr v)) _ Hi ltac:(discriminate) H1).
  - destruct Hok as (Hi & Hj). unfold sCopy. destruct (Nat.eqb_spec i j) as [-> | Hij].
    + eexists. split; [reflexivity|]. apply erep_wdesc. exists d.
      rewrite nonvoid_set by assumption. replace (d + (nonvoid a n - cnt (a j) + cnt (a j))) with (d + nonvoid a n) by lia.
      eapply wdesc_ext; [exact H|]. intros k Hk. unfold eset. destruct (Nat.eqb_spec k j) as [-> | _]; reflexivity.
    + destruct (Hr i Hi) as (w1 & -> & H1). cbn [obind].
      rewrite (tag_ok n w1 _ _ _ j Hj H1). unfold fset at 1 2. replace (Nat.eqb j i) with false by lia.
      destruct (a j) as [[l|r]|] eqn:Ea; cbn [conc tag Z.eqb Pos.eqb] in *.
      * rewrite (readL_ok n w1 _ _ _ j l Hj H1) by (other j i; rewrite Ea; reflexivity). cbn [obind].
        eexists. split; [reflexivity|]. exact (Hset _ i (Some (inl l)) _ Hi ltac:(discriminate) H1).
      * rewrite (readR_ok n w1 _ _ _ j r Hj H1) by (other j i; rewrite Ea; reflexivity). cbn [obind].
        eexists. split; [reflexivity|]. exact (Hset _ i (Some (inr r)) _ Hi ltac:(discriminate) H1).
      * eexists. split; [reflexivity|]. apply (finish n _ a d i None Hi). cbn. rewrite Z.add_0_r. exact H1.
  - destruct Hok as (Hi & Hj). unfold sMove. destruct (Nat.eqb_spec i j) as [-> | Hij].
    + eexists. split; [reflexivity|]. apply erep_wdesc. eauto.
    + destruct (Hr i Hi) as (w1 & -> & H1). cbn [obind].
      rewrite (tag_ok n w1 _ _ _ j Hj H1). unfold fset at 1 2. replace (Nat.eqb j i) with false by lia.
      destruct (a j) as [[l|r]|] eqn:Ea; cbn [conc tag Z.eqb Pos.eqb] in *.
      * rewrite (readL_ok n w1 _ _ _ j l Hj H1) by (other j i; rewrite Ea; reflexivity). cbn [obind].
        pose proof (wdesc_place n w1 _ _ _ i (AliveL l) Hi H1) as H2.
        destruct (HresetL _ _ _ _ j l Hj H2) as (w3 & -> & H3).
        { unfold fset. replace (Nat.eqb j i) with false by lia. rewrite Ea. reflexivity. }
        cbn [obind]. eexists. split; [reflexivity|].
        apply (finish2 n _ a d i j (Some (inl l)) Hi Hj Hij (eq_sym Ea)).
        eapply wdesc_ext; [apply wdesc_tag; [exact Hi|exact H3]|].
        intros k Hk. unfold fset. rewrite !Nat.eqb_refl. replace (Nat.eqb i j) with false by lia.
        destruct (Nat.eqb_spec k i); [|destruct (Nat.eqb k j); reflexivity].
        replace (Nat.eqb k j) with false by lia. reflexivity.
      * rewrite (readR_ok n w1 _ _ _ j r Hj H1) by (other j i; rewrite Ea; reflexivity). cbn [obind].
        pose proof (wdesc_place n w1 _ _ _ i (AliveR r) Hi H1) as H2.
        destruct (HresetR _ _ _ _ j r Hj H2) as (w3 & -> & H3).
        { unfold fset. replace (Nat.eqb j i) with false by lia. rewrite Ea. reflexivity. }
        cbn [obind]. eexists. split; [reflexivity|].
        apply (finish2 n _ a d i j (Some (inr r)) Hi Hj Hij (eq_sym Ea)).
        eapply wdesc_ext; [apply wdesc_tag; [exact Hi|exact H3]|].
        intros k Hk. unfold fset. rewrite !Nat.eqb_refl. replace (Nat.eqb i j) with false by lia.
        destruct (Nat.eqb_spec k i); [|destruct (Nat.eqb k j); reflexivity].
        replace (Nat.eqb k j) with false by lia. reflexivity.
      * eexists. split; [reflexivity|].
        apply (finish2 n _ a d i j None Hi Hj Hij (eq_sym Ea)). cbn. rewrite !Z.add_0_r.
        eapply wdesc_ext; [exact H1|]. intros k Hk. unfold fset.
        destruct (Nat.eqb_spec k j) as [-> | _]; [|reflexivity].
        replace (Nat.eqb j i) with false by lia. rewrite Ea. reflexivity.
  - destruct Hok as (Hi & v & Ha). unfold sTakeStatus.
    rewrite (tag_ok n w _ _ _ i Hi H), Ha. cbn [conc tag Z.eqb Pos.eqb].
    rewrite (readL_ok n w _ _ _ i v Hi H) by (rewrite Ha; reflexivity). cbn [obind].
    destruct (HresetL _ _ _ _ i v Hi H) as (w2 & -> & H2); [rewrite Ha; reflexivity|].
    cbn [obind fst]. eexists. split; [reflexivity|]. apply (finish n _ a d i None Hi).
    rewrite Ha. cbn. rewrite Z.add_0_r. exact H2.
  - destruct Hok as (Hi & v & Ha). unfold sTakeValue.
    rewrite (readR_ok n w _ _ _ i v Hi H) by (rewrite Ha; reflexivity). cbn [obind].
    destruct (HresetR _ _ _ _ i v Hi H) as (w2 & -> & H2); [rewrite Ha; reflexivity|].
    cbn [obind fst]. eexists. split; [reflexivity|]. apply (finish n _ a d i None Hi).
    rewrite Ha. cbn. rewrite Z.add_0_r. exact H2.
Qed.

Lemma einit_rep n : erep n (einit n) (fun _ => None).
Proof.
  constructor.
  - cbn. apply repeat_length.
  - intros i Hi. unfold cellAt, einit. cbn. apply nth_repeat.
  - cbn. induction n as [|n IH]; cbn; lia.
Qed.

Lemma erun_ok n (step : eworld -> eop L R -> outcome eworld) :
  (forall w a o, eop_ok n a o -> erep n w a -> exists w', step w o = Ret w' /\ erep n w' (easpec a o)) ->
  forall os w a, eops_ok n a os -> erep n w a -> exists w', runE step w os = Ret w' /\ erep n w' (earun a os).
Proof.
  intros Hs. induction os as [|o os IH]; intros w a Hok R0; cbn [runE earun eops_ok] in *; [eauto|].
  destruct Hok as [Ho Hos]. destruct (Hs w a o Ho R0) as (w1 & -> & R1). cbn [obind]. apply IH; assumption.
Qed.
End EitherProofs.
