(** Properties C14, C15, C16: the LRU cache. *)
From Coq Require Import Permutation.
From Verif Require Import Prelude LruModel LruSpec LruProofs.

Section Props.
Context {K V : Type} (keqb : K -> K -> bool).
Hypothesis keqb_spec : forall a b, keqb a b = true <-> a = b.

(** * C15: a bucket behaves like the abstract recency list *)

(** Every operation history on a fresh bucket runs without fatal or undefined outcome, returns the
    results of the abstract recency list, and ends with the keys in the abstract order. *)
Theorem C15_bucket_refines_recency_list : forall cap (os : list (op K V)), (0 < cap)%nat ->
  exists s, bucketRun keqb (lruNew cap) os = Ret (s, snd (spec_run keqb cap [] os)) /\
    map snd (llist s) = map fst (fst (spec_run keqb cap [] os)) /\
    (forall k, lookup keqb k (fst (spec_run keqb cap [] os)) =
               match mfind keqb k (lmap s) with Some (v, _) => Some v | None => None end) /\
    length (lmap s) = length (fst (spec_run keqb cap [] os)).
Proof.
  intros cap os Hc.
  destruct (bucketRun_ok keqb keqb_spec os (lruNew cap) [] 0 0) as (s & nl & Hr & R & Ha & _); auto.
  { constructor; cbn; constructor. }
  exists s. split; [exact Hr|]. cbn [map lruNew lcap] in Ha. rewrite <- Ha. splits.
  - rewrite (r_list _ _ R), !map_map. reflexivity.
  - intros k. destruct (mfind keqb k (lmap s)) as [[v j]|] eqn:E.
    + destruct (rep_found keqb keqb_spec s nl k v j R E) as (n1 & n2 & ->).
      apply (abs_found keqb keqb_spec n1 n2 j k v (r_keys _ _ R)).
    + apply find_absent; [assumption|]. rewrite <- map_akey_snd. eapply rep_absent; eassumption.
  - rewrite (Permutation_length (r_map _ _ R)), !map_length. reflexivity.
Qed.

(** In the abstract list, an insert of a new key into a full bucket removes exactly the last (least
    recently used) entry; get and insert put the key first. *)
Theorem C15_insert_new_into_full : forall cap k (v : V) l x,
  lookup keqb k (l ++ [x]) = None -> (cap <= length (l ++ [x]))%nat ->
  spec_step keqb cap (l ++ [x]) (OInsert k v) = ((k, v) :: l, RUnit).
Proof.
  intros cap k v l x H1 H2. cbn. rewrite (touch_full_new keqb keqb_spec cap k v l x H1 H2). reflexivity.
Qed.

Theorem C15_get_and_insert_make_most_recent : forall cap (l : list (K * V)) k v,
  (exists l', fst (spec_step keqb cap l (OInsert k v)) = (k, v) :: l') /\
  (lookup keqb k l = Some v -> exists l', fst (spec_step keqb cap l (OGet k)) = (k, v) :: l').
Proof.
  intros cap l k v. cbn. unfold touch. split.
  - destruct (lookup keqb k l); eexists; reflexivity.
  - intros ->. eexists; reflexivity.
Qed.

(** * C14: capacity and last stored value *)

(** Bucket level: never more than [cap] entries, one per key, each with the value last stored. *)
Theorem C14_bucket_capacity_and_values : forall cap (os : list (op K V)) s rs, (0 < cap)%nat ->
  bucketRun keqb (lruNew cap) os = Ret (s, rs) ->
  (length (lmap s) <= cap)%nat /\ NoDup (map fst (lmap s)) /\
  forall k v j, mfind keqb k (lmap s) = Some (v, j) -> last_stored keqb k (combine os rs) None = Some v.
Proof.
  intros cap os s rs Hc Hrun.
  destruct (bucketRun_ok keqb keqb_spec os (lruNew cap) [] 0 0) as (s' & nl & Hr & R & Ha & _); auto.
  { constructor; cbn; constructor. }
  rewrite Hrun in Hr. apply Ret_inj in Hr. injection Hr as <- ->.
  destruct (spec_run_props keqb keqb_spec cap os Hc [] (fun _ => None)) as (P1 & P2 & P3).
  { cbn. lia. } { constructor. } { contradiction. }
  cbn [map lruNew lcap] in *. rewrite <- Ha in P1, P2. splits.
  - rewrite (Permutation_length (r_map _ _ R)), !map_length in *. exact P1.
  - eapply rep_mapkeys; eassumption.
  - intros k v j E. destruct (rep_found keqb keqb_spec s nl k v j R E) as (n1 & n2 & ->).
    apply P3. rewrite <- Ha, map_app, in_app_iff. cbn. auto.
Qed.

(** Cache level: for every interleaving of atomic bucket operations, the cache runs without fatal or
    undefined outcome and the total number of entries is at most the configured capacity. *)
Lemma sum_caps n c l : fold_right (fun (b : lru K V) a => lcap b + a)%nat 0%nat (repeat (lruNew c) n ++ [lruNew l]) = (n * c + l)%nat.
Proof. induction n as [|n IH]; cbn; [lia|]. rewrite IH. lia. Qed.

Lemma sum_le (c c' : list (lru K V)) :
  Forall2 (fun b b' => (length (lmap b') <= lcap b)%nat) c c' ->
  (fold_right (fun b a => length (lmap b) + a) 0 c' <= fold_right (fun b a => lcap b + a) 0 c)%nat.
Proof. induction 1; cbn; lia. Qed.

Lemma Forall2_nth {A B} (P : A -> B -> Prop) l l' : length l = length l' ->
  (forall i a, nth_error l i = Some a -> exists b, nth_error l' i = Some b /\ P a b) -> Forall2 P l l'.
Proof.
  revert l'. induction l as [|a l IH]; intros [|b l'] Hlen H; try discriminate; constructor.
  - destruct (H 0%nat a eq_refl) as (b' & Hb & HP). injection Hb as <-. exact HP.
  - apply IH; [cbn in Hlen; lia|]. intros i x Hx. exact (H (S i) x Hx).
Qed.

Lemma cacheNew_ok capacity e c : cacheNew capacity e = Ret c ->
  length c = (2 ^ e)%nat /\ fold_right (fun (b : lru K V) a => lcap b + a)%nat 0%nat c = capacity /\
  forall i b, nth_error c i = Some b -> b = lruNew (lcap b) /\ (0 < lcap b)%nat.
Proof.
  unfold cacheNew. cbv zeta. destruct (_ && _) eqn:E1; [|discriminate].
  match goal with |- (if ?c then _ else _) = _ -> _ => destruct c eqn:E2 end; [|discriminate]. intros H. apply Ret_inj in H. subst c.
  set (n := (2 ^ e)%nat) in *. set (q := (capacity / n)%nat) in *.
  assert (Hn : (1 <= n)%nat) by (unfold n; pose proof (Nat.pow_nonzero 2 e); lia).
  assert (Hq : (1 <= q)%nat).
  { unfold q. apply Nat.div_le_lower_bound; lia. }
  assert (Hqn : (n * q <= capacity)%nat) by (unfold q; apply Nat.mul_div_le; lia).
  splits.
  - rewrite app_length, repeat_length. cbn. lia.
  - rewrite sum_caps. nia.
  - intros i b Hb. apply nth_error_In in Hb. apply in_app_iff in Hb. destruct Hb as [Hb | [<- | []]].
    + apply repeat_spec in Hb. subst b. cbn. split; [reflexivity|lia].
    + cbn. split; [reflexivity|lia].
Qed.

Theorem C14_cache_capacity : forall capacity e (c : list (lru K V)) os,
  cacheNew capacity e = Ret c -> (forall i o, In (i, o) os -> (i < length c)%nat) ->
  exists c' rs, cacheRun keqb c os = Ret (c', rs) /\
    (fold_right (fun b a => length (lmap b) + a) 0 c' <= capacity)%nat.
Proof.
  intros capacity e c os Hn Hidx. destruct (cacheNew_ok capacity e c Hn) as (Hlen & Hsum & Hb).
  assert (Hrep : forall cap, rep (lruNew cap) (@nil (nat * (K * V)))) by (intro; constructor; cbn; constructor).
  destruct (cacheRun_ok keqb keqb_spec os c Hidx) as (c' & rs & Hr & Hl & _ & Hbk).
  { intros i b E. destruct (Hb i b E) as [-> Hpos]. eexists; split; [apply Hrep|assumption]. }
  exists c', rs. split; [assumption|]. rewrite <- Hsum. apply sum_le.
  apply Forall2_nth; [congruence|]. intros i b E. destruct (Hbk i b E) as (b' & E' & Hrun).
  exists b'. split; [assumption|]. destruct (Hb i b E) as [Heq Hpos]. rewrite Heq in Hrun.
  destruct (C14_bucket_capacity_and_values (lcap b) _ b' _ Hpos Hrun) as (P & _). exact P.
Qed.

(** Cache level, values: when a key always goes to the same bucket (no hints, or hints that are a
    function of the key), a cached key maps to the value last stored for it in the whole history. *)
Lemma last_stored_proj (bucketOf : K -> nat) (k : K) : forall (os : list (nat * op K V)) rs acc,
  length rs = length os ->
  (forall j o, In (j, o) os -> keyOf o = Some k -> j = bucketOf k) ->
  last_stored_cache keqb bucketOf k (combine os rs) acc =
  last_stored keqb k (combine (proj (bucketOf k) os) (projRes (bucketOf k) os rs)) acc.
Proof.
  induction os as [|[j o] os IH]; intros [|r rs] acc Hl Hk; cbn in Hl; try discriminate; [reflexivity|].
  unfold proj in *. cbn [map snd combine filter fst projRes].
  assert (Hk' : forall j o, In (j, o) os -> keyOf o = Some k -> j = bucketOf k)
    by (intros; eapply Hk; [right|]; eauto).
  destruct (Nat.eqb_spec (bucketOf k) j) as [He | Hne].
  - subst j. cbn [map snd combine].
    destruct o, r; cbn [last_stored last_stored_cache]; rewrite ?Nat.eqb_refl; rewrite IH by (auto; lia); reflexivity.
  - assert (Hno : keyOf o <> Some k).
    { intro Heq. apply Hne. symmetry. apply (Hk j o); [left; reflexivity|assumption]. }
    destruct o as [k' | k' v | k' | k' v | k' |], r; cbn [last_stored_cache keyOf] in *;
      rewrite ?(keqb_neq keqb keqb_spec k k') by congruence;
      rewrite ?(proj2 (Nat.eqb_neq j (bucketOf k))) by congruence; apply IH; auto; lia.
Qed.

Theorem C14_cached_value_is_last_stored : forall capacity e (c : list (lru K V)) os c' rs (bucketOf : K -> nat),
  cacheNew capacity e = Ret c -> (forall i o, In (i, o) os -> (i < length c)%nat) ->
  (forall i o k, In (i, o) os -> keyOf o = Some k -> i = bucketOf k) ->
  cacheRun keqb c os = Ret (c', rs) ->
  forall i b k v j, nth_error c' i = Some b -> mfind keqb k (lmap b) = Some (v, j) ->
    i = bucketOf k /\ last_stored_cache keqb bucketOf k (combine os rs) None = Some v.
Proof.
  intros capacity e c os c' rs bucketOf Hn Hidx Hfix Hrun i b k v j Hb Hf.
  destruct (cacheNew_ok capacity e c Hn) as (Hlen & _ & Hnew).
  destruct (cacheRun_ok keqb keqb_spec os c Hidx) as (c2 & rs2 & Hr & Hl & Hlr & Hbk).
  { intros i0 b0 E. destruct (Hnew i0 b0 E) as [-> Hpos]. exists []. split; [|assumption].
    constructor; cbn; constructor. }
  rewrite Hrun in Hr. apply Ret_inj in Hr. injection Hr as <- <-.
  assert (Hi : (i < length c)%nat) by (rewrite <- Hl; apply nth_error_Some; rewrite Hb; discriminate).
  destruct (nth_error c i) as [b0|] eqn:E; [|apply nth_error_None in E; lia].
  destruct (Hbk i b0 E) as (b' & E' & Hrunb). rewrite Hb in E'. injection E' as <-.
  destruct (Hnew i b0 E) as [Heq Hpos]. rewrite Heq in Hrunb.
  destruct (C14_bucket_capacity_and_values (lcap b0) _ b _ Hpos Hrunb) as (_ & _ & P).
  pose proof (P k v j Hf) as Hls.
  assert (Hbi : i = bucketOf k).
  { (* some operation of bucket i has key k *)
    assert (Hex : exists o, In o (proj i os) /\ keyOf o = Some k).
    { clear -Hls keqb_spec. 
      assert (Hgen : forall (l : list (op K V)) rl acc v0, last_stored keqb k (combine l rl) acc = Some v0 ->
        acc = Some v0 \/ exists o, In o l /\ keyOf o = Some k).
      { induction l as [|o l IH]; intros [|r rl] acc v0; cbn; auto. intros H.
        assert (Hrec : forall acc', last_stored keqb k (combine l rl) acc' = Some v0 ->
          acc' = Some v0 \/ exists o0, (o = o0 \/ In o0 l) /\ keyOf o0 = Some k).
        { intros acc' H'. destruct (IH rl acc' v0 H') as [? | (o0 & ? & ?)]; [auto|]. right. eauto. }
        destruct o as [k' | k' w | k' | k' w | k' |], r; cbn [keyOf] in *;
          try (destruct (Hrec _ H); [now auto|now auto]);
          try (destruct (keqb k k') eqn:Ek;
               [apply keqb_spec in Ek; subst k'; right; eexists; split; [left; reflexivity|reflexivity]
               |destruct (Hrec _ H); now auto]). 
        all: destruct (Hrec _ H) as [? | ?]; [discriminate|auto]. }
      destruct (Hgen _ _ None v Hls) as [? | ?]; [discriminate|assumption]. }
    destruct Hex as (o & Hin & Hk). unfold proj in Hin. apply in_map_iff in Hin.
    destruct Hin as ((i' & o') & He & Hin). cbn in He. subst o'. apply filter_In in Hin.
    destruct Hin as [Hin Hii]. cbn in Hii. apply Nat.eqb_eq in Hii. subst i'. eapply Hfix; eassumption. }
  split; [assumption|]. subst i.
  rewrite (last_stored_proj bucketOf k); auto. intros j0 o Hin Hk. eapply Hfix; eassumption.
Qed.

(** * C16: statistics *)

(** The counters are exactly the numbers of lookups and of successful lookups (modulo 2^64, the width
    of the counters). A putIfAbsent is a lookup too. *)
Theorem C16_counters_exact : forall cap (os : list (op K V)) s rs, (0 < cap)%nat ->
  bucketRun keqb (lruNew cap) os = Ret (s, rs) ->
  ltotal s = u64 (count_gets (combine os rs) 0) /\ lhits s = u64 (count_hits (combine os rs) 0).
Proof.
  intros cap os s rs Hc Hrun.
  destruct (bucketRun_ok keqb keqb_spec os (lruNew cap) [] 0 0) as (s' & nl & Hr & R & Ha & Hcap & Ht & Hh); auto.
  { constructor; cbn; constructor. }
  rewrite Hrun in Hr. apply Ret_inj in Hr. injection Hr as <- ->. auto.
Qed.

(** The same for the whole cache: total() and hits() add up the lookups of all buckets since the cache
    was created or last cleared, whatever the interleaving. [clear()] clears the buckets one by one; other
    operations may run before it and after it. *)
Definition clearAll (n : nat) : list (nat * op K V) := map (fun i => (i, OClear)) (seq 0 n).
Definition isLookup (p : (nat * op K V) * res V) : bool :=
  match snd (fst p) with OGet _ | OPut _ _ => true | _ => false end.
Definition isHit (p : (nat * op K V) * res V) : bool :=
  isLookup p && match snd p with RVal _ => true | _ => false end.

Lemma gets_acc (h : list (op K V * res V)) : (forall o x, In (o, x) h -> o <> OClear) -> forall a,
  count_gets h a = a + count_gets h 0 /\ count_hits h a = a + count_hits h 0.
Proof.
  induction h as [|[o x] h IH]; intros Hc a; [cbn; lia|].
  assert (Hc' : forall o x, In (o, x) h -> o <> OClear) by (intros ? ? ?; apply (Hc o0 x0); right; assumption).
  specialize (IH Hc').
  assert (o <> OClear) by (apply (Hc o x); left; reflexivity).
  destruct (IH a), (IH (0 + 1)), (IH (a + 1)).
  destruct o, x; cbn [count_gets count_hits]; try congruence; lia.
Qed.

Lemma gets_after_clear (h1 h2 : list (op K V * res V)) x : forall a,
  count_gets (h1 ++ (OClear, x) :: h2) a = count_gets h2 0 /\
  count_hits (h1 ++ (OClear, x) :: h2) a = count_hits h2 0.
Proof. induction h1 as [|[[] []] h1 IH]; intros a; cbn; auto; split; apply IH. Qed.

Fixpoint sumTo (f : nat -> Z) (n : nat) : Z := match n with O => 0 | S n' => sumTo f n' + f n' end.

Lemma sumTo_ext f g n : (forall i, (i < n)%nat -> f i = g i) -> sumTo f n = sumTo g n.
Proof. induction n; intros H; cbn; auto. rewrite IHn, H; auto. Qed.
Lemma sumTo_add f g n : sumTo (fun i => f i + g i) n = sumTo f n + sumTo g n.
Proof. induction n; cbn; lia. Qed.
Lemma sumTo_one j z n : (j < n)%nat -> sumTo (fun i => if Nat.eqb i j then z else 0) n = z.
Proof.
  assert (H : forall m, (m <= j)%nat -> sumTo (fun i => if Nat.eqb i j then z else 0) m = 0).
  { induction m; intros; cbn; auto. rewrite IHm by lia. destruct (Nat.eqb_spec m j); lia. }
  induction n; intros Hj; [lia|]. cbn. destruct (Nat.eqb_spec n j) as [-> | Hn].
  - rewrite H; lia.
  - rewrite IHn; lia.
Qed.
Lemma sumTo_fold (g : lru K V -> Z) (c : list (lru K V)) (f : nat -> Z) :
  (forall i b, nth_error c i = Some b -> u64 (g b) = u64 (f i)) ->
  u64 (fold_right (fun b a => g b + a) 0 c) = u64 (sumTo f (length c)).
Proof.
  induction c as [|b c IH] using rev_ind; intros H; [reflexivity|].
  rewrite app_length, Nat.add_comm. cbn [length sumTo Nat.add].
  assert (E : forall l a, fold_right (fun b a => g b + a) a l = fold_right (fun b a => g b + a) 0 l + a).
  { induction l; intros; cbn; [lia|]. rewrite IHl. lia. }
  rewrite fold_right_app, E. cbn [fold_right]. rewrite Z.add_0_r.
  assert (H1 := IH (fun i b0 Hi => H i b0 (eq_trans (nth_error_app1 _ _ (proj1 (nth_error_Some c i) ltac:(congruence))) Hi))).
  assert (H2 : u64 (g b) = u64 (f (length c))).
  { apply H. rewrite nth_error_app2, Nat.sub_diag by lia. reflexivity. }
  unfold u64 in *. rewrite (Z.add_mod (fold_right _ _ _)), H1, H2, <- Z.add_mod; [reflexivity| |]; unfold two64; lia.
Qed.

Lemma proj_app i os1 os2 : proj i (os1 ++ os2) = @proj K V i os1 ++ proj i os2.
Proof. unfold proj. rewrite filter_app, map_app. reflexivity. Qed.
Lemma projRes_app i (os1 os2 : list (nat * op K V)) (rs1 rs2 : list (res V)) : length rs1 = length os1 ->
  projRes i (os1 ++ os2) (rs1 ++ rs2) = projRes i os1 rs1 ++ projRes i os2 rs2.
Proof.
  revert rs1. induction os1 as [|[j o] os1 IH]; intros [|r rs1] Hl; try discriminate Hl; [reflexivity|].
  cbn. injection Hl as Hl. rewrite (IH _ Hl). destruct (Nat.eqb i j); reflexivity.
Qed.
Lemma proj_length i (os : list (nat * op K V)) : forall rs : list (res V), length rs = length os ->
  length (projRes i os rs) = length (proj i os).
Proof.
  induction os as [|[j o] os IH]; intros [|r rs] Hl; try discriminate Hl; [reflexivity|].
  injection Hl as Hl. specialize (IH _ Hl). unfold proj in *. cbn. destruct (Nat.eqb i j); cbn; auto.
Qed.

Lemma proj_counts n (os : list (nat * op K V)) : forall rs : list (res V), length rs = length os ->
  (forall i o, In (i, o) os -> (i < n)%nat /\ o <> OClear) ->
  sumTo (fun i => count_gets (combine (proj i os) (projRes i os rs)) 0) n =
    Z.of_nat (length (filter isLookup (combine os rs))) /\
  sumTo (fun i => count_hits (combine (proj i os) (projRes i os rs)) 0) n =
    Z.of_nat (length (filter isHit (combine os rs))).
Proof.
  induction os as [|[j o] os IH]; intros [|r rs] Hl Hin; try discriminate Hl.
  - cbn. split; induction n; cbn; auto; rewrite IHn; auto; intros ? ? [].
  - injection Hl as Hl. destruct (IH rs Hl) as [I1 I2]; [intros; apply Hin; right; assumption|].
    destruct (Hin j o) as [Hj Ho]; [left; reflexivity|].
    assert (Hc : forall i o x, In (o, x) (combine (proj i os) (projRes i os rs)) -> o <> OClear).
    { intros i o' x' H. apply in_combine_l in H. unfold proj in H. apply in_map_iff in H.
      destruct H as ([i' o''] & E & H). cbn in E. subst o''. apply filter_In in H.
      apply (Hin i' o'). right. tauto. }
    split.
    + rewrite (sumTo_ext _ (fun i => (if Nat.eqb i j then (if isLookup ((j, o), r) then 1 else 0) else 0)
                             + count_gets (combine (proj i os) (projRes i os rs)) 0)).
      * rewrite sumTo_add, sumTo_one, I1 by assumption. cbn [combine filter]. destruct (isLookup _); cbn [length]; lia.
      * intros i _. unfold proj. cbn [filter fst projRes]. destruct (Nat.eqb i j); [|reflexivity].
        cbn [map snd combine]. destruct (gets_acc _ (Hc i) (0 + 1)) as [G _].
        unfold proj in G. destruct o; cbn [count_gets isLookup fst snd]; try congruence; lia.
    + rewrite (sumTo_ext _ (fun i => (if Nat.eqb i j then (if isHit ((j, o), r) then 1 else 0) else 0)
                             + count_hits (combine (proj i os) (projRes i os rs)) 0)).
      * rewrite sumTo_add, sumTo_one, I2 by assumption. cbn [combine filter]. destruct (isHit _); cbn [length]; lia.
      * intros i _. unfold proj. cbn [filter fst projRes]. destruct (Nat.eqb i j); [|reflexivity].
        cbn [map snd combine]. destruct (gets_acc _ (Hc i) (0 + 1)) as [_ G].
        unfold proj in G. destruct o, r; cbn [count_hits isHit isLookup andb fst snd]; try congruence; lia.
Qed.

Lemma proj_clearAll n i : (i < n)%nat -> proj i (clearAll n) = [OClear].
Proof.
  intros Hi. unfold proj, clearAll.
  assert (H : forall m s, filter (fun p : nat * op K V => Nat.eqb i (fst p)) (map (fun i => (i, OClear)) (seq s m)) =
              if ((s <=? i)%nat && (i <? s + m)%nat)%bool then [(i, OClear)] else []).
  { induction m; intros s; cbn [seq map filter fst].
    - destruct (Nat.leb_spec s i), (Nat.ltb_spec i (s + 0)); cbn; auto; lia.
    - rewrite IHm. destruct (Nat.eqb_spec i s) as [-> | Hn].
      + replace (S s <=? s)%nat with false by (symmetry; apply Nat.leb_gt; lia).
        replace (s <=? s)%nat with true by (symmetry; apply Nat.leb_le; lia).
        replace (s <? s + S m)%nat with true by (symmetry; apply Nat.ltb_lt; lia). reflexivity.
      + destruct (Nat.leb_spec (S s) i), (Nat.ltb_spec i (S s + m)), (Nat.leb_spec s i), (Nat.ltb_spec i (s + S m));
          cbn; auto; lia. }
  rewrite H. cbn [Nat.leb Nat.add andb]. replace (i <? n)%nat with true by (symmetry; apply Nat.ltb_lt; lia). reflexivity.
Qed.

Theorem C16_cache_counters : forall capacity e c before after c' rs,
  cacheNew capacity e = Ret c ->
  (forall i o, In (i, o) (before ++ after) -> (i < length c)%nat) ->
  before = [] \/ (exists h, before = h ++ clearAll (length c)) ->
  (forall i o, In (i, o) after -> o <> OClear) ->
  cacheRun keqb c (before ++ after) = Ret (c', rs) ->
  let seen := combine after (skipn (length before) rs) in
  cacheTotal c' = u64 (Z.of_nat (length (filter isLookup seen))) /\
  cacheHits c' = u64 (Z.of_nat (length (filter isHit seen))).
Proof.
  intros capacity e c before after c' rs Hn Hidx Hb Ha Hrun seen.
  destruct (cacheNew_ok capacity e c Hn) as (Hlen & Hsum & Hnew).
  assert (Hrep : forall cap, rep (lruNew cap) (@nil (nat * (K * V)))) by (intro; constructor; cbn; constructor).
  destruct (cacheRun_ok keqb keqb_spec (before ++ after) c) as (c1 & rs1 & Hr & Hl & Hlr & Hbk).
  { assumption. }
  { intros i b Hi. destruct (Hnew i b Hi) as [-> Hc]. exists []. auto. }
  rewrite Hrun in Hr. apply Ret_inj in Hr. injection Hr as <- <-.
  rewrite <- (firstn_skipn (length before) rs) in Hbk.
  set (r1 := firstn (length before) rs) in *. set (r2 := skipn (length before) rs) in *.
  assert (L1 : length r1 = length before) by (unfold r1; rewrite firstn_length, Hlr, app_length; lia).
  assert (L2 : length r2 = length after) by (unfold r2; rewrite skipn_length, Hlr, app_length; lia).
  assert (Hcnt : forall i b', nth_error c' i = Some b' ->
    ltotal b' = u64 (count_gets (combine (proj i after) (projRes i after r2)) 0) /\
    lhits b' = u64 (count_hits (combine (proj i after) (projRes i after r2)) 0)).
  { intros i b' Hi. assert (Hil : (i < length c)%nat) by (rewrite <- Hl; apply nth_error_Some; congruence).
    destruct (nth_error c i) as [b|] eqn:Eb; [|apply nth_error_None in Eb; lia].
    destruct (Hbk i b Eb) as (b2 & Hi2 & Hrun2). rewrite Hi in Hi2. injection Hi2 as <-.
    destruct (Hnew i b Eb) as [Heq Hc]. rewrite Heq in Hrun2.
    destruct (C16_counters_exact (lcap b) _ _ _ Hc Hrun2) as [-> ->].
    rewrite proj_app, projRes_app by assumption.
    destruct Hb as [-> | (h & ->)].
    { destruct r1; [|discriminate L1]. cbn. auto. }
    rewrite proj_app, proj_clearAll by assumption.
    pose proof (proj_length i (h ++ clearAll (length c)) r1 L1) as L3.
    rewrite proj_app, proj_clearAll in L3 by assumption.
    set (q := projRes i (h ++ _) r1) in *.
    rewrite app_length in L3. cbn [length] in L3.
    assert (Hq : exists q1 x, q = q1 ++ [x] /\ length q1 = length (proj i h)).
    { destruct (exists_last (l := q)) as (q1 & x & E); [intros E; rewrite E in L3; cbn in L3; lia|].
      exists q1, x. split; [assumption|]. rewrite E, app_length in L3. cbn in L3. lia. }
    destruct Hq as (q1 & x & -> & Lq).
    assert (Hcomb : forall (A B : Type) (l1 l2 : list A) (m1 m2 : list B), length m1 = length l1 ->
              combine (l1 ++ l2) (m1 ++ m2) = combine l1 m1 ++ combine l2 m2).
    { induction l1; intros l2 [|y m1] m2 Hm; try discriminate Hm; cbn; auto. rewrite IHl1; auto. }
    rewrite <- !app_assoc, Hcomb by assumption. cbn [app combine].
    destruct (gets_after_clear (combine (proj i h) q1)
                (combine (proj i after) (projRes i after r2)) x 0) as [-> ->]. auto. }
  destruct (proj_counts (length c) after r2 L2) as [P1 P2].
  { intros i o Hin. split; [apply (Hidx i o), in_or_app; auto|eauto]. }
  unfold cacheTotal, cacheHits. fold r2 in seen. subst seen. rewrite <- P1, <- P2, <- Hl.
  assert (Hu : forall z, u64 (u64 z) = u64 z) by (intro; unfold u64, two64; apply Z.mod_mod; lia).
  split; apply sumTo_fold; intros i b Hi; destruct (Hcnt i b Hi) as [E1 E2]; rewrite ?E1, ?E2; apply Hu.
Qed.
End Props.

(** The bucket index is always inside the bucket vector. *)
Theorem C14_bucket_index_in_range : forall (K : Type) (hash : K -> Z) e k hint,
  (bucketIndex hash e k hint < 2 ^ e)%nat.
Proof.
  intros K hash e k hint. unfold bucketIndex.
  assert (H : forall z, (Z.to_nat (Z.land z (2 ^ Z.of_nat e - 1)) < 2 ^ e)%nat).
  { intros z. replace (2 ^ Z.of_nat e - 1) with (Z.ones (Z.of_nat e))
      by (rewrite Z.ones_equiv; lia).
    rewrite Z.land_ones by lia.
    pose proof (Z.mod_pos_bound z (2 ^ Z.of_nat e) ltac:(apply Z.pow_pos_nonneg; lia)).
    apply Nat2Z.inj_lt. rewrite Z2Nat.id by lia. rewrite Nat2Z.inj_pow. exact (proj2 H). }
  destruct (0 <=? hint); apply H.
Qed.

(** With inconsistent hints the "last stored value" contract is lost: the same key can sit in two
    buckets with different values. *)
Theorem C14_inconsistent_hints_refuted :
  exists c c' rs, cacheNew 4 1 = Ret c /\
    cacheRun Z.eqb c [(bucketIndex (fun x => x) 1 7 0, OInsert 7 10);
                      (bucketIndex (fun x => x) 1 7 (-1), OInsert 7 20);
                      (bucketIndex (fun x => x) 1 7 0, OGet 7)] = Ret (c', rs) /\
    nth_error rs 2 = Some (RVal 10).
Proof.
  do 3 eexists.
  split. { vm_compute; reflexivity. }
  split. { vm_compute; reflexivity. }
  vm_compute. auto.
Qed.

(** Non-trivial instances: a full bucket of capacity 2. *)
Example C15_example :
  exists s, bucketRun Z.eqb (lruNew 2)
    [OInsert 1 10; OInsert 2 20; OGet 1; OInsert 3 30; OGet 2; OPut 1 99; OContains 3] =
    Ret (s, [RUnit; RUnit; RVal 10; RUnit; RError; RVal 10; RBool true]) /\
    map snd (llist s) = [1; 3] /\ ltotal s = 3 /\ lhits s = 2 /\ levicts s = 1.
Proof.
  eexists.
  split. { vm_compute; reflexivity. }
  vm_compute. auto.
Qed.

(** Two buckets, cleared once: three lookups since, one of them a hit. *)
Example C16_cache_example : exists c c' rs, @cacheNew Z Z 4 1 = Ret c /\
  cacheRun Z.eqb c (([(0%nat, OInsert 2 20); (0%nat, OGet 2)] ++ clearAll 2) ++
                    [(1%nat, OPut 3 30); (0%nat, OGet 2); (1%nat, OGet 3)]) = Ret (c', rs) /\
  cacheTotal c' = 3 /\ cacheHits c' = 1.
Proof. eexists _, _, _. split; [reflexivity|]. split; [reflexivity|]. split; reflexivity. Qed.

Example C14_example : exists c c' rs, cacheNew 5 1 = Ret c /\ map (@lcap Z Z) c = [2; 3]%nat /\
  cacheRun Z.eqb c [(1%nat, OInsert 1 10); (1%nat, OInsert 3 30); (1%nat, OInsert 5 50);
                    (1%nat, OInsert 7 70); (0%nat, OInsert 2 20)] = Ret (c', rs) /\
  map (fun b => length (lmap b)) c' = [1; 3]%nat.
Proof.
  do 3 eexists.
  split. { vm_compute; reflexivity. }
  split. { vm_compute; reflexivity. }
  vm_compute. auto.
Qed.

Print Assumptions C14_cache_capacity.
Print Assumptions C14_cached_value_is_last_stored.
Print Assumptions C15_bucket_refines_recency_list.
Print Assumptions C16_counters_exact.
Print Assumptions C16_cache_counters.
