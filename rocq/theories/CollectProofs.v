From Verif Require Import Prelude CollectModel.
From Coq Require Import Permutation ArithRing.

(** Specification of collectN. *)
Section CollectSpec.
Context {V : Type}.
Variable eval : nat -> V -> bool.
Definition good (e : nat * option V) : bool := match snd e with Some v => eval (fst e) v | None => false end.
Definition goods (evs : list (nat * option V)) : nat := length (filter good evs).
Definition values (evs : list (nat * option V)) : list (nat * V) :=
  flat_map (fun e => match snd e with Some v => [(fst e, v)] | None => [] end) evs.
(** The promise is due after exactly the first k completions. *)
Definition dueAt (total n : nat) (evs : list (nat * option V)) (k : nat) : Prop :=
  (k <= length evs)%nat /\ (k = total \/ goods (firstn k evs) = n) /\
  forall j, (j < k)%nat -> j <> total /\ goods (firstn j evs) <> n.

Lemma goods_snoc l e : goods (l ++ [e]) = (goods l + if good e then 1 else 0)%nat.
Proof. unfold goods. rewrite filter_app, app_length. cbn. destruct (good e); reflexivity. Qed.
Lemma values_snoc l e : values (l ++ [e]) = values l ++ match snd e with Some v => [(fst e, v)] | None => [] end.
Proof. unfold values. rewrite flat_map_app. cbn. rewrite app_nil_r. reflexivity. Qed.

Definition cinv (total n : nat) (evs : list (nat * option V)) (c : ctx) : Prop :=
  ctotal c = total /\
  match cpromise c with
  | None => csets c = 0%nat /\ cresults c = values evs /\ ccompleted c = length evs /\ csucceeded c = goods evs /\
            forall j, (j <= length evs)%nat -> j <> total /\ goods (firstn j evs) <> n
  | Some r => csets c = 1%nat /\ exists k, dueAt total n evs k /\ r = values (firstn k evs)
  end.
Lemma firstn_app_le {A} j (l m : list A) : (j <= length l)%nat -> firstn j (l ++ m) = firstn j l.
Proof. intros H. rewrite firstn_app. replace (j - length l)%nat with O by lia. rewrite firstn_O, app_nil_r. reflexivity. Qed.
Lemma cinv_step total n evs c e : cinv total n evs c -> cinv total n (evs ++ [e]) (onComplete eval n c e).
Proof.
  intros [Ht H]. unfold onComplete. destruct (cpromise c) as [r|] eqn:Ep.
  - split; [assumption|]. rewrite Ep. destruct H as [Hs [k [[H1 [H2 H3]] Hr]]]. split; [assumption|].
    exists k. rewrite (firstn_app_le k) by assumption. split; [|assumption]. unfold dueAt. rewrite app_length.
    rewrite (firstn_app_le k) by assumption. split; [lia|]. split; [assumption|].
    intros j Hj. rewrite (firstn_app_le j) by lia. apply H3. assumption.
  - destruct H as [Hs [Hr [Hc [Hg Hn]]]]. destruct c as [cr cc cs ct cp cse].
    cbn [cresults ccompleted csucceeded ctotal cpromise csets] in *. subst.
    set (c1 := match snd e with None => _ | Some v => _ end).
    assert (E1 : c1 = mkCtx (values (evs ++ [e])) (length evs) (goods (evs ++ [e])) total None 0).
    { subst c1. rewrite values_snoc, goods_snoc. unfold good. destruct (snd e) as [v|].
      - destruct (eval (fst e) v); f_equal; lia.
      - rewrite app_nil_r, Nat.add_0_r. reflexivity. }
    rewrite E1. cbn [cresults ccompleted csucceeded ctotal cpromise csets].
    assert (Hall : firstn (S (length evs)) (evs ++ [e]) = evs ++ [e]).
    { apply firstn_all2. rewrite app_length. cbn. lia. }
    destruct (Nat.eqb_spec (S (length evs)) total) as [A|A];
      [|destruct (Nat.eqb_spec (goods (evs ++ [e])) n) as [B|B]]; cbn [orb].
    + split; [reflexivity|]. cbn. split; [reflexivity|]. exists (S (length evs)). rewrite Hall. split; [|reflexivity].
      split; [rewrite app_length; cbn; lia|]. split; [auto|].
      intros j Hj. rewrite (firstn_app_le j) by lia. apply Hn. lia.
    + split; [reflexivity|]. cbn. split; [reflexivity|]. exists (S (length evs)). rewrite Hall. split; [|reflexivity].
      split; [rewrite app_length; cbn; lia|]. rewrite Hall. split; [auto|].
      intros j Hj. rewrite (firstn_app_le j) by lia. apply Hn. lia.
    + split; [reflexivity|]. cbn. splits; auto.
      * rewrite app_length. cbn. lia.
      * intros j Hj. rewrite app_length in Hj. cbn in Hj. destruct (Nat.eq_dec j (S (length evs))) as [->|Hne].
        -- rewrite Hall. auto.
        -- rewrite (firstn_app_le j) by lia. apply Hn. lia.
Qed.
Lemma cinv_run total n evs : (0 < n <= total)%nat -> cinv total n evs (fold_left (onComplete eval n) evs (ctxNew total)).
Proof.
  intros Hn. induction evs as [|e evs IH] using rev_ind.
  - split; [reflexivity|]. cbn. splits; auto. intros j Hj. replace j with O by lia. cbn. lia.
  - rewrite fold_left_app. apply cinv_step. assumption.
Qed.
Lemma dueAt_unique total n evs k k' : dueAt total n evs k -> dueAt total n evs k' -> k = k'.
Proof.
  intros [A [B C]] [A' [B' C']]. destruct (Nat.lt_trichotomy k k') as [H|[H|H]]; [|assumption|].
  - destruct (C' k H). tauto.
  - destruct (C k' H). tauto.
Qed.
End CollectSpec.

(** Reservoir: positions 0,1,2,... of the stream instead of the elements. *)
Lemma rset_length {T} i (x : T) l : length (rset i x l) = length l.
Proof. revert i. induction l as [|a l IH]; intros [|i]; cbn; auto. Qed.
Lemma rset_map {A B} (f : A -> B) i x l : map f (rset i x l) = rset i (f x) (map f l).
Proof. revert i. induction l as [|a l IH]; intros [|i]; cbn; auto. f_equal. apply IH. Qed.
Lemma in_rset {T} i (x y : T) l : In y (rset i x l) -> y = x \/ In y l.
Proof.
  revert i. induction l as [|a l IH]; intros [|i] H; cbn in *; auto.
  - destruct H as [<-|H]; auto.
  - destruct H as [<-|H]; auto. destruct (IH i H); auto.
Qed.
Lemma NoDup_rset {T} i (x : T) l : NoDup l -> ~ In x l -> NoDup (rset i x l).
Proof.
  revert i. induction l as [|a l IH]; intros [|i] Hn Hx; cbn; auto.
  - inversion Hn; subst. constructor; [|assumption]. intros H. apply Hx. right. assumption.
  - inversion Hn; subst. constructor.
    + intros H. apply in_rset in H. destruct H as [->|H]; [|contradiction]. apply Hx. left. reflexivity.
    + apply IH; [assumption|]. intros H. apply Hx. right. assumption.
Qed.
Lemma in_rset_iff {T} i (x y : T) l : (i < length l)%nat -> NoDup l -> ~ In x l ->
  (In y (rset i x l) <-> y = x \/ (In y l /\ nth_error l i <> Some y)).
Proof.
  revert i. induction l as [|a l IH]; intros [|i] Hi Hn Hx; cbn in *; try lia.
  - inversion Hn; subst. split.
    + intros [<-|H]; [auto|]. right. split; [auto|]. intros E. injection E as ->. contradiction.
    + intros [->|[[->|H] E]]; auto; congruence.
  - inversion Hn; subst. rewrite IH; [|lia|assumption|tauto]. split.
    + intros [<-|[->|[H E]]]; auto. right. split; [auto|]. intros E. apply nth_error_In in E. contradiction.
    + intros [->|[[->|H] E]]; auto.
Qed.

Section ReservoirRun.
Variable num : nat.
(** The positions held after offering c elements with the given draws (only draws made while full), newest last. *)
Fixpoint held (ds : list Z) (c : nat) : list nat :=
  match c with
  | O => []
  | S c' =>
      if Nat.ltb c' num then held ds c' ++ [c']
      else let d := nth (c' - num) ds 0 in
           if d <? Z.of_nat num then rset (Z.to_nat d) c' (held ds c') else held ds c'
  end.
Lemma held_props ds c : length (held ds c) = Nat.min num c /\ NoDup (held ds c) /\ Forall (fun p => (p < c)%nat) (held ds c).
Proof.
  induction c as [|c [IH1 [IH2 IH3]]]; cbn [held].
  - splits; [cbn; lia|constructor|constructor].
  - assert (Hc : ~ In c (held ds c)) by (rewrite Forall_forall in IH3; intros H; apply IH3 in H; lia).
    assert (W : Forall (fun p => (p < S c)%nat) (held ds c)) by (eapply Forall_impl; [|exact IH3]; cbn; intros; lia).
    destruct (Nat.ltb_spec c num) as [H|H].
    + splits.
      * rewrite app_length. cbn. lia.
      * apply (Permutation_NoDup (l := c :: held ds c)); [apply Permutation_cons_append|]. constructor; assumption.
      * apply Forall_app. split; [assumption|]. constructor; [lia|constructor].
    + cbn zeta. destruct (nth (c - num) ds 0 <? Z.of_nat num).
      * splits; [rewrite rset_length; lia|apply NoDup_rset; assumption|].
        apply Forall_forall. intros p Hp. apply in_rset in Hp. rewrite Forall_forall in W. destruct Hp as [->|Hp]; [lia|auto].
      * splits; auto. lia.
Qed.
Lemma held_ext ds ds' c : (forall i, (i < c - num)%nat -> nth i ds 0 = nth i ds' 0) -> held ds c = held ds' c.
Proof.
  induction c as [|c IH]; intros H; [reflexivity|]. cbn [held]. rewrite IH by (intros; apply H; lia).
  destruct (Nat.ltb_spec c num); [reflexivity|]. rewrite (H (c - num)%nat) by lia. reflexivity.
Qed.

(** All sequences of draws for c offered elements: the i-th draw made when full is from [0, num+i). *)
Definition zseq (n : nat) : list Z := map Z.of_nat (seq 0 n).
Fixpoint allDraws (m : nat) : list (list Z) :=
  match m with
  | O => [[]]
  | S m' => flat_map (fun ds => map (fun d => ds ++ [d]) (zseq (num + m'))) (allDraws m')
  end.
Definition keptCount (j c : nat) : Z :=
  Z.of_nat (length (filter (fun ds => existsb (Nat.eqb j) (held ds c)) (allDraws (c - num)))).
Definition drawCount (c : nat) : Z := Z.of_nat (length (allDraws (c - num))).

Lemma allDraws_length m : Forall (fun ds => length ds = m) (allDraws m).
Proof.
  induction m as [|m IH]; cbn; [constructor; [reflexivity|constructor]|].
  apply Forall_forall. intros ds H. apply in_flat_map in H. destruct H as [ds' [H1 H2]].
  apply in_map_iff in H2. destruct H2 as [d [<- _]]. rewrite Forall_forall in IH. rewrite app_length, (IH _ H1). cbn. lia.
Qed.
Lemma filter_flat_map_length {A B} (f : B -> bool) (g : A -> list B) (h : A -> nat) l :
  (forall x, In x l -> length (filter f (g x)) = h x) ->
  length (filter f (flat_map g l)) = fold_right (fun x acc => (h x + acc)%nat) 0%nat l.
Proof.
  induction l as [|x l IH]; intros H; [reflexivity|]. cbn. rewrite filter_app, app_length.
  rewrite (H x) by (left; reflexivity). rewrite IH by (intros; apply H; right; assumption). reflexivity.
Qed.
Lemma fold_const {A} (p : A -> bool) (a b : nat) l :
  fold_right (fun x acc => ((if p x then a else b) + acc)%nat) 0%nat l =
  (a * length (filter p l) + b * (length l - length (filter p l)))%nat.
Proof.
  assert (L : forall l, (length (filter p l) <= length l)%nat).
  { intros l0. induction l0 as [|x l0 IH]; cbn; [lia|]. destruct (p x); cbn; lia. }
  induction l as [|x l IH]; cbn [fold_right filter length]; [lia|]. specialize (L l). rewrite IH. destruct (p x); cbn [length].
  - replace (S (length (filter p l))) with (length (filter p l) + 1)%nat by lia.
    replace (S (length l) - (length (filter p l) + 1))%nat with (length l - length (filter p l))%nat by lia. ring.
  - replace (S (length l) - length (filter p l))%nat with (S (length l - length (filter p l)))%nat by lia. ring.
Qed.
Lemma filter_neq_length (k c : nat) : (k < c)%nat ->
  length (filter (fun d => negb (Z.eqb d (Z.of_nat k))) (zseq c)) = (c - 1)%nat.
Proof.
  intros H. unfold zseq.
  assert (G : forall s n, length (filter (fun d => negb (Z.eqb d (Z.of_nat k))) (map Z.of_nat (seq s n))) =
     if ((s <=? k)%nat && (k <? s + n)%nat)%bool then (n - 1)%nat else n).
  { intros s n. revert s. induction n as [|n IH]; intros s; cbn [seq map filter].
    - destruct ((s <=? k)%nat && (k <? s + 0)%nat)%bool eqn:E; [lia|reflexivity].
    - destruct (Z.eqb_spec (Z.of_nat s) (Z.of_nat k)) as [E|E]; cbn [negb length]; rewrite IH.
      + replace ((S s <=? k)%nat) with false by lia. cbn [andb].
        replace ((s <=? k)%nat && (k <? s + S n)%nat)%bool with true by lia. lia.
      + destruct ((S s <=? k)%nat && (k <? S s + n)%nat)%bool eqn:F.
        * replace ((s <=? k)%nat && (k <? s + S n)%nat)%bool with true by lia. lia.
        * replace ((s <=? k)%nat && (k <? s + S n)%nat)%bool with false by lia. lia. }
  rewrite G. replace ((0 <=? k)%nat && (k <? 0 + c)%nat)%bool with true by lia. lia.
Qed.
Lemma filter_lt_length (k c : nat) : (k <= c)%nat ->
  length (filter (fun d => Z.ltb d (Z.of_nat k)) (zseq c)) = k.
Proof.
  intros H. unfold zseq.
  assert (G : forall n s, length (filter (fun d => Z.ltb d (Z.of_nat k)) (map Z.of_nat (seq s n))) = Nat.min n (k - s)).
  { intros n. induction n as [|n IH]; intros s; cbn [seq map filter]; [reflexivity|].
    destruct (Z.ltb_spec (Z.of_nat s) (Z.of_nat k)); cbn [length]; rewrite IH; lia. }
  rewrite G. lia.
Qed.
Lemma filter_map_length {A B} (f : B -> bool) (g : A -> B) l : length (filter f (map g l)) = length (filter (fun x => f (g x)) l).
Proof. induction l as [|x l IH]; cbn; [reflexivity|]. destruct (f (g x)); cbn; rewrite IH; reflexivity. Qed.
Lemma filter_ext_length {A} (f g : A -> bool) l : (forall x, In x l -> f x = g x) -> length (filter f l) = length (filter g l).
Proof. intros H. rewrite (filter_ext_in f g); auto. Qed.
Lemma existsb_In j l : existsb (Nat.eqb j) l = true <-> In j l.
Proof.
  rewrite existsb_exists. split.
  - intros [x [H E]]. apply Nat.eqb_eq in E. subst. assumption.
  - intros H. exists j. split; [assumption|apply Nat.eqb_refl].
Qed.

Lemma held_snoc ds d c : (num <= c)%nat -> length ds = (c - num)%nat ->
  held (ds ++ [d]) (S c) = if d <? Z.of_nat num then rset (Z.to_nat d) c (held ds c) else held ds c.
Proof.
  intros Hc Hl. cbn [held]. replace (Nat.ltb c num) with false by lia. cbn zeta.
  rewrite <- Hl, nth_middle. rewrite (held_ext (ds ++ [d]) ds); [reflexivity|].
  intros i Hi. rewrite app_nth1 by lia. reflexivity.
Qed.

(** Number of good draws for the next element. *)
Lemma step_count ds c j : (1 <= num <= c)%nat -> length ds = (c - num)%nat -> (j <= c)%nat ->
  length (filter (fun ds' => existsb (Nat.eqb j) (held ds' (S c))) (map (fun d => ds ++ [d]) (zseq c))) =
  if Nat.eqb j c then num else if existsb (Nat.eqb j) (held ds c) then (c - 1)%nat else 0%nat.
Proof.
  intros Hc Hl Hj. rewrite filter_map_length. destruct (held_props ds c) as [P1 [P2 P3]].
  assert (Hnew : ~ In c (held ds c)) by (rewrite Forall_forall in P3; intros H; apply P3 in H; lia).
  destruct (Nat.eqb_spec j c) as [->|Hne].
  - erewrite filter_ext_length with (g := fun d => Z.ltb d (Z.of_nat num)); [apply filter_lt_length; lia|].
    intros d Hd. unfold zseq in Hd. apply in_map_iff in Hd. destruct Hd as [d' [<- Hd']].
    rewrite (held_snoc ds (Z.of_nat d') c) by lia.
    destruct (Z.ltb_spec (Z.of_nat d') (Z.of_nat num)) as [E|E].
    + apply existsb_In. apply in_rset_iff; auto. lia.
    + destruct (existsb (Nat.eqb c) (held ds c)) eqn:F; [apply existsb_In in F; contradiction|reflexivity].
  - destruct (existsb (Nat.eqb j) (held ds c)) eqn:Ej.
    + apply existsb_In in Ej. destruct (In_nth_error _ _ Ej) as [k Hk].
      assert (Hkl : (k < num)%nat).
      { assert (k < length (held ds c))%nat by (apply nth_error_Some; congruence). lia. }
      erewrite filter_ext_length with (g := fun d => negb (Z.eqb d (Z.of_nat k))); [apply filter_neq_length; lia|].
      intros d Hd. unfold zseq in Hd. apply in_map_iff in Hd. destruct Hd as [d' [<- Hd']].
      rewrite (held_snoc ds (Z.of_nat d') c) by lia.
      destruct (Z.ltb_spec (Z.of_nat d') (Z.of_nat num)) as [E|E].
      * rewrite Nat2Z.id. destruct (Z.eqb_spec (Z.of_nat d') (Z.of_nat k)) as [F|F]; cbn [negb].
        -- apply not_true_iff_false. rewrite existsb_In, in_rset_iff; [|lia|assumption|assumption].
           replace d' with k by lia. tauto.
        -- apply existsb_In. apply in_rset_iff; [lia|assumption|assumption|]. right. split; [assumption|].
           intros G. apply F. f_equal. apply (proj1 (NoDup_nth_error _) P2); [|congruence].
           apply nth_error_Some. congruence.
      * replace (negb (Z.eqb (Z.of_nat d') (Z.of_nat k))) with true by lia. apply existsb_In. assumption.
    + erewrite filter_ext_length with (g := fun _ => false).
      * clear. induction (zseq c); cbn; auto.
      * intros d Hd. unfold zseq in Hd. apply in_map_iff in Hd. destruct Hd as [d' [<- Hd']].
        rewrite (held_snoc ds (Z.of_nat d') c) by lia. apply not_true_iff_false. apply not_true_iff_false in Ej. rewrite existsb_In in *.
        destruct (Z.ltb_spec (Z.of_nat d') (Z.of_nat num)) as [E|E]; [|assumption].
        rewrite in_rset_iff; [tauto|lia|assumption|assumption].
Qed.

Lemma drawCount_S c : (num <= c)%nat -> drawCount (S c) = drawCount c * Z.of_nat c.
Proof.
  intros H. unfold drawCount. replace (S c - num)%nat with (S (c - num)) by lia. cbn [allDraws].
  replace (num + (c - num))%nat with c by lia.
  assert (L : forall l, length (flat_map (fun ds : list Z => map (fun d => ds ++ [d]) (zseq c)) l) = (length l * c)%nat).
  { induction l as [|x l IH]; [reflexivity|]. cbn. rewrite app_length, IH, map_length. unfold zseq.
    rewrite map_length, seq_length. reflexivity. }
  rewrite L. lia.
Qed.
Lemma keptCount_S j c : (1 <= num <= c)%nat -> (j <= c)%nat ->
  keptCount j (S c) = if Nat.eqb j c then drawCount c * Z.of_nat num else keptCount j c * (Z.of_nat c - 1).
Proof.
  intros Hc Hj. unfold keptCount, drawCount. replace (S c - num)%nat with (S (c - num)) by lia. cbn [allDraws].
  replace (num + (c - num))%nat with c by lia.
  pose proof (allDraws_length (c - num)) as HL. rewrite Forall_forall in HL.
  erewrite filter_flat_map_length.
  2:{ intros ds Hds. apply step_count; [assumption|apply HL; assumption|assumption]. }
  destruct (Nat.eqb j c).
  - clear HL. induction (allDraws (c - num)) as [|x l IH]; cbn [fold_right length]; [lia|].
    rewrite Nat2Z.inj_add, IH, Nat2Z.inj_succ. ring.
  - rewrite (fold_const (fun ds => existsb (Nat.eqb j) (held ds c)) (c - 1) 0).
    rewrite Nat.mul_0_l, Nat.add_0_r, Nat2Z.inj_mul, Nat2Z.inj_sub by lia. lia.
Qed.
Lemma held_all c : (c <= num)%nat -> forall ds, held ds c = seq 0 c.
Proof.
  induction c as [|c IH]; intros H ds; [reflexivity|]. cbn [held]. replace (Nat.ltb c num) with true by lia.
  rewrite IH by lia. rewrite seq_S. reflexivity.
Qed.
Lemma kept_exact j c : (1 <= num <= c)%nat -> (j < c)%nat ->
  keptCount j c * (Z.of_nat c - 1) = (if Nat.ltb j num then Z.of_nat num - 1 else Z.of_nat num) * drawCount c.
Proof.
  intros [Hn Hc] Hj. revert j Hj. induction Hc as [|c Hc IH]; intros j Hj.
  - replace (Nat.ltb j num) with true by lia. unfold keptCount, drawCount. replace (num - num)%nat with O by lia.
    cbn [allDraws filter]. rewrite held_all by lia.
    replace (existsb (Nat.eqb j) (seq 0 num)) with true by (symmetry; apply existsb_In, in_seq; lia). cbn. lia.
  - rewrite drawCount_S, keptCount_S by lia. destruct (Nat.eqb_spec j c) as [->|Hne].
    + replace (Nat.ltb c num) with false by lia. lia.
    + specialize (IH j ltac:(lia)). replace (Z.of_nat (S c) - 1) with (Z.of_nat c) by lia.
      rewrite IH. lia.
Qed.
End ReservoirRun.

(** The C++ run and [held]. *)
Lemma sampleAll_app {T} (s : reservoir T) a b : sampleAll s (a ++ b) = obind (sampleAll s a) (fun s' => sampleAll s' b).
Proof.
  revert s. induction a as [|[x d] a IH]; intros s; [reflexivity|]. cbn [sampleAll app].
  destruct (sampling s x d) as [[r s']| | |]; cbn; auto.
Qed.
Lemma reservoir_run {T} (num : nat) (xs : list (T * Z)) (dflt : T) :
  Z.of_nat (length xs) < two64 ->
  (forall i x d, nth_error xs i = Some (x, d) -> (num <= i)%nat -> 0 <= d) ->
  sampleAll (resNew (Z.of_nat num)) xs =
  Ret (mkRes (map (fun p => nth p (map fst xs) dflt) (held num (skipn num (map snd xs)) (length xs)))
             (Z.of_nat (length xs)) (Z.of_nat num)).
Proof.
  induction xs as [|[x d] xs IH] using rev_ind; intros Hlen Hd; [reflexivity|].
  rewrite sampleAll_app. rewrite app_length in *. cbn [length] in *.
  rewrite IH; [|lia|].
  2:{ intros i y e Hi. apply (Hd i y e). rewrite nth_error_app1; [exact Hi|]. apply nth_error_Some. congruence. }
  cbn [obind sampleAll]. unfold sampling. cbn [rcnt rnum rsamples].
  replace (length xs + 1)%nat with (S (length xs)) by lia. cbn [held].
  assert (Hu : u64 (Z.of_nat (length xs) + 1) = Z.of_nat (S (length xs))).
  { unfold u64, two64 in *. rewrite Z.mod_small by lia. lia. }
  rewrite Hu.
  assert (Hh : held num (skipn num (map snd (xs ++ [(x, d)]))) (length xs) = held num (skipn num (map snd xs)) (length xs)).
  { apply held_ext. intros i Hi. rewrite map_app. cbn. rewrite skipn_app, app_nth1; [reflexivity|].
    rewrite skipn_length, map_length. assumption. }
  rewrite Hh.
  destruct (held_props num (skipn num (map snd xs)) (length xs)) as [P1 [P2 P3]].
  assert (Hm : map (fun p => nth p (map fst (xs ++ [(x, d)])) dflt) (held num (skipn num (map snd xs)) (length xs)) =
               map (fun p => nth p (map fst xs) dflt) (held num (skipn num (map snd xs)) (length xs))).
  { apply map_ext_in. intros p Hp. rewrite Forall_forall in P3. apply P3 in Hp. rewrite map_app, app_nth1; [reflexivity|].
    rewrite map_length. assumption. }
  assert (Hx : nth (length xs) (map fst (xs ++ [(x, d)])) dflt = x).
  { rewrite map_app. cbn. rewrite app_nth2 by (rewrite map_length; lia). rewrite map_length, Nat.sub_diag. reflexivity. }
  destruct (Z.ltb_spec (Z.of_nat (length xs)) (Z.of_nat num)) as [H|H].
  - replace (Nat.ltb (length xs) num) with true by lia. cbn [obind snd sampleAll]. rewrite map_app. cbn [map]. rewrite Hm, Hx. reflexivity.
  - replace (Nat.ltb (length xs) num) with false by lia. cbn zeta.
    assert (Hdn : nth (length xs - num) (skipn num (map snd (xs ++ [(x, d)]))) 0 = d).
    { rewrite map_app. cbn. rewrite skipn_app. rewrite app_nth2 by (rewrite skipn_length, map_length; lia).
      rewrite skipn_length, map_length, Nat.sub_diag. replace (num - length xs)%nat with O by lia. reflexivity. }
    rewrite Hdn. assert (Hd0 : 0 <= d).
    { apply (Hd (length xs) x d); [|lia]. rewrite nth_error_app2, Nat.sub_diag by lia. reflexivity. }
    destruct (Z.ltb_spec d (Z.of_nat num)) as [E|E].
    + rewrite map_length, P1. replace (d <? Z.of_nat (Nat.min num (length xs))) with true by lia.
      cbn [obind snd sampleAll]. rewrite rset_map, Hm, Hx. reflexivity.
    + cbn [obind snd sampleAll]. rewrite Hm. reflexivity.
Qed.
