(** The LRU model refines the abstract recency list. *)
From Coq Require Import Permutation.
From Verif Require Import Prelude LruModel LruSpec.

Section Proofs.
Context {K V : Type} (keqb : K -> K -> bool).
Hypothesis keqb_spec : forall a b, keqb a b = true <-> a = b.

Lemma keqb_refl k : keqb k k = true.
Proof. apply keqb_spec. reflexivity. Qed.
Lemma keqb_neq a b : a <> b -> keqb a b = false.
Proof. intros H. destruct (keqb a b) eqn:E; [|reflexivity]. apply keqb_spec in E. contradiction. Qed.
Lemma keqb_false a b : keqb a b = false -> a <> b.
Proof. intros H ->. rewrite keqb_refl in H. discriminate. Qed.

(** Annotated entries: node identity, key, value. *)
Local Notation ann := (nat * (K * V))%type.
Definition aid (n : ann) := fst n.
Definition akey (n : ann) := fst (snd n).
Definition anode (n : ann) := (fst n, fst (snd n)).
Definition amap (n : ann) := (fst (snd n), (snd (snd n), fst n)).

Record rep (s : lru K V) (nl : list ann) : Prop := {
  r_list : llist s = map anode nl;
  r_map : Permutation (lmap s) (map amap nl);
  r_ids : NoDup (map aid nl);
  r_keys : NoDup (map akey nl);
  r_next : Forall (fun n => (aid n < lnext s)%nat) nl }.

Lemma rep_mapkeys s nl : rep s nl -> NoDup (map fst (lmap s)).
Proof.
  intros R. eapply Permutation_NoDup; [symmetry; apply Permutation_map, (r_map _ _ R)|].
  rewrite map_map. exact (r_keys _ _ R).
Qed.

Lemma mfind_in k m x : mfind keqb k m = Some x -> In (k, x) m (A := K * (V * nat)).
Proof.
  induction m as [|[k' y] m IH]; cbn; [discriminate|].
  destruct (keqb k k') eqn:E; [|auto]. intros [= ->]. apply keqb_spec in E. subst. auto.
Qed.
Lemma mfind_none k m : mfind keqb k m = None -> ~ In k (map (@fst K (V * nat)) m).
Proof.
  induction m as [|[k' y] m IH]; cbn; [auto|].
  destruct (keqb k k') eqn:E; [discriminate|]. apply keqb_false in E. intros H [H1 | H1]; [congruence|].
  now apply IH.
Qed.
Lemma mfind_split k m x : mfind keqb k m = Some x ->
  exists m1 m2, m = m1 ++ (k, x) :: m2 /\ ~ In k (map fst m1) /\ @merase K V keqb k m = m1 ++ m2 /\
  (forall v, @mset K V keqb k v m = m1 ++ (k, (v, snd x)) :: m2).
Proof.
  induction m as [|[k' [w i]] m IH]; cbn; [discriminate|].
  destruct (keqb k k') eqn:E.
  - intros [= <-]. apply keqb_spec in E. subst k'. exists [], m. cbn. auto.
  - intros H. destruct (IH H) as (m1 & m2 & -> & Hn & He & Hs).
    apply keqb_false in E. exists ((k', (w, i)) :: m1), m2. cbn. splits; auto.
    + intros [H1 | H1]; [congruence|contradiction].
    + rewrite He. reflexivity.
    + intros v. rewrite Hs. reflexivity.
Qed.

Lemma node_split i k n1 n2 : ~ In i (map fst n1) -> @node K i (n1 ++ (i, k) :: n2) = Some k.
Proof.
  induction n1 as [|[j k'] n1 IH]; cbn; intros H.
  - rewrite Nat.eqb_refl. reflexivity.
  - destruct (Nat.eqb_spec i j); [subst; exfalso; auto|]. apply IH. auto.
Qed.
Lemma unlink_split i k n1 n2 : ~ In i (map fst n1) -> @unlink K i (n1 ++ (i, k) :: n2) = n1 ++ n2.
Proof.
  induction n1 as [|[j k'] n1 IH]; cbn; intros H.
  - rewrite Nat.eqb_refl. reflexivity.
  - destruct (Nat.eqb_spec i j); [subst; exfalso; auto|]. rewrite IH by auto. reflexivity.
Qed.

Lemma NoDup_mid {A B} (f : A -> B) l1 x l2 : NoDup (map f (l1 ++ x :: l2)) ->
  ~ In (f x) (map f l1) /\ ~ In (f x) (map f l2) /\ NoDup (map f (l1 ++ l2)).
Proof.
  rewrite !map_app. cbn. intros H.
  pose proof (NoDup_remove_1 _ _ _ H) as H1. pose proof (NoDup_remove_2 _ _ _ H) as H2.
  rewrite in_app_iff in H2. tauto.
Qed.

(** A key found in the map occupies one node of the list. *)
Lemma rep_found s nl k v j : rep s nl -> mfind keqb k (lmap s) = Some (v, j) ->
  exists n1 n2, nl = n1 ++ (j, (k, v)) :: n2.
Proof.
  intros R H. apply mfind_in in H.
  apply (Permutation_in _ (r_map _ _ R)) in H.
  apply in_map_iff in H. destruct H as ((i & k' & v') & He & Hin).
  unfold amap in He. cbn in He. injection He as -> -> ->.
  apply in_split in Hin. destruct Hin as (n1 & n2 & ->). eauto.
Qed.

Lemma rep_absent s nl k : rep s nl -> mfind keqb k (lmap s) = None -> ~ In k (map akey nl).
Proof.
  intros R H Hin. apply mfind_none in H. apply H.
  apply (Permutation_in (l := map fst (map amap nl))).
  - symmetry. apply Permutation_map, (r_map _ _ R).
  - rewrite map_map. exact Hin.
Qed.

Lemma find_absent k (l : list (K * V)) : ~ In k (map fst l) -> lookup keqb k l = None.
Proof.
  unfold lookup. induction l as [|[k' w] l IH]; cbn; [reflexivity|]. intros H.
  rewrite keqb_neq by (intros ->; auto). apply IH. auto.
Qed.
Lemma remove_absent k (l : list (K * V)) : ~ In k (map fst l) -> remove keqb k l = l.
Proof.
  unfold remove. induction l as [|[k' w] l IH]; cbn; [reflexivity|]. intros H.
  rewrite keqb_neq by (intros ->; auto). cbn. rewrite IH by auto. reflexivity.
Qed.
Lemma lookup_mid k v (l1 l2 : list (K * V)) : ~ In k (map fst l1) ->
  lookup keqb k (l1 ++ (k, v) :: l2) = Some v.
Proof.
  unfold lookup. induction l1 as [|[k' w] l IH]; cbn; intros H.
  - rewrite keqb_refl. reflexivity.
  - rewrite keqb_neq by (intros ->; auto). apply IH. auto.
Qed.
Lemma remove_mid k v (l1 l2 : list (K * V)) : ~ In k (map fst l1) -> ~ In k (map fst l2) ->
  remove keqb k (l1 ++ (k, v) :: l2) = l1 ++ l2.
Proof.
  intros H1 H2. unfold remove. rewrite filter_app. cbn. rewrite keqb_refl. cbn.
  f_equal; [apply remove_absent|apply remove_absent]; assumption.
Qed.

Lemma map_akey_snd nl : map akey nl = map fst (map snd nl).
Proof. rewrite map_map. reflexivity. Qed.

Lemma abs_found (n1 n2 : list ann) j k v : NoDup (map akey (n1 ++ (j, (k, v)) :: n2)) ->
  lookup keqb k (map snd (n1 ++ (j, (k, v)) :: n2)) = Some v /\
  remove keqb k (map snd (n1 ++ (j, (k, v)) :: n2)) = map snd (n1 ++ n2).
Proof.
  intros H. apply NoDup_mid in H. destruct H as (H1 & H2 & _). cbn in H1, H2.
  rewrite map_akey_snd in H1, H2. rewrite !map_app. cbn. split.
  - apply lookup_mid. assumption.
  - apply remove_mid; assumption.
Qed.

Lemma Forall_mid {A} (P : A -> Prop) l1 x l2 : Forall P (l1 ++ x :: l2) -> P x /\ Forall P (l1 ++ l2).
Proof.
  rewrite !Forall_app. intros [H1 H2]. inversion H2; subst. auto.
Qed.

(** Moving the node of [k] to the front, with a possibly new value. *)
Lemma rep_touch s n1 n2 j k v v' m' t h e :
  rep s (n1 ++ (j, (k, v)) :: n2) ->
  Permutation m' ((k, (v', j)) :: map amap (n1 ++ n2)) ->
  rep (mkLru m' ((j, k) :: map anode (n1 ++ n2)) (lnext s) (lcap s) t h e) ((j, (k, v')) :: n1 ++ n2).
Proof.
  intros R Hp. destruct R as [Rl Rm Ri Rk Rn].
  apply NoDup_mid in Ri. apply NoDup_mid in Rk. apply Forall_mid in Rn.
  cbn in Ri, Rk, Rn. destruct Ri as (I1 & I2 & I3), Rk as (K1 & K2 & K3), Rn as (N1 & N2).
  constructor; cbn.
  - reflexivity.
  - exact Hp.
  - constructor; [|assumption]. rewrite map_app, in_app_iff. tauto.
  - constructor; [|assumption]. rewrite map_app, in_app_iff. tauto.
  - constructor; assumption.
Qed.

Lemma rep_map_mid s n1 n2 j k v : rep s (n1 ++ (j, (k, v)) :: n2) ->
  forall m1 m2, lmap s = m1 ++ (k, (v, j)) :: m2 -> Permutation (m1 ++ m2) (map amap (n1 ++ n2)).
Proof.
  intros R m1 m2 Hm. pose proof (r_map _ _ R) as Hp. rewrite Hm, map_app in Hp. cbn in Hp.
  apply Permutation_app_inv in Hp. rewrite map_app. exact Hp.
Qed.

Lemma splice_mid s n1 n2 j k v : rep s (n1 ++ (j, (k, v)) :: n2) ->
  splice j (llist s) = Ret ((j, k) :: map anode (n1 ++ n2)) /\
  node j (llist s) = Some k /\ unlink j (llist s) = map anode (n1 ++ n2).
Proof.
  intros R. rewrite (r_list _ _ R). pose proof (r_ids _ _ R) as Hi. apply NoDup_mid in Hi.
  destruct Hi as (I1 & _). cbn in I1.
  assert (H1 : ~ In j (map fst (map anode n1))) by (rewrite map_map; exact I1).
  rewrite map_app. cbn [map]. change (anode (j, (k, v))) with (j, k).
  unfold splice. rewrite node_split, unlink_split by assumption. rewrite map_app. auto.
Qed.

Lemma mfind_complete k x m : NoDup (map fst m) -> In (k, x) m -> @mfind K V keqb k m = Some x.
Proof.
  induction m as [|[k' y] m IH]; cbn; [contradiction|]. intros Hn [[= -> ->] | Hin].
  - rewrite keqb_refl. reflexivity.
  - inversion Hn; subst. rewrite keqb_neq; [auto|]. intros ->. apply H1.
    change k' with (fst (k', x)). apply in_map. assumption.
Qed.

(** Removing the node of [k]. *)
Lemma rep_remove s n1 n2 j k v t h e : rep s (n1 ++ (j, (k, v)) :: n2) ->
  rep (mkLru (merase keqb k (lmap s)) (map anode (n1 ++ n2)) (lnext s) (lcap s) t h e) (n1 ++ n2).
Proof.
  intros R.
  assert (E : mfind keqb k (lmap s) = Some (v, j)).
  { apply mfind_complete; [eapply rep_mapkeys; eassumption|].
    apply (Permutation_in _ (Permutation_sym (r_map _ _ R))).
    rewrite map_app, in_app_iff. cbn. auto. }
  destruct (mfind_split k _ _ E) as (m1 & m2 & Hm & _ & He & _).
  pose proof (rep_map_mid s n1 n2 j k v R m1 m2 Hm) as Hp.
  destruct R as [Rl Rm Ri Rk Rn].
  apply NoDup_mid in Ri. apply NoDup_mid in Rk. apply Forall_mid in Rn.
  constructor; cbn; try tauto. rewrite He. exact Hp.
Qed.

(** Adding a fresh node. *)
Lemma rep_add s nl k v t h e : rep s nl -> ~ In k (map akey nl) ->
  rep (mkLru ((k, (v, lnext s)) :: lmap s) ((lnext s, k) :: llist s) (S (lnext s)) (lcap s) t h e)
      ((lnext s, (k, v)) :: nl).
Proof.
  intros [Rl Rm Ri Rk Rn] Hk. constructor; cbn.
  - rewrite Rl. reflexivity.
  - constructor. exact Rm.
  - constructor; [|assumption]. intros Hin. apply in_map_iff in Hin. destruct Hin as (n & He & Hin).
    rewrite Forall_forall in Rn. apply Rn in Hin. rewrite He in Hin. lia.
  - constructor; assumption.
  - constructor; [cbn; lia|]. eapply Forall_impl; [|exact Rn]. cbn. lia.
Qed.

Lemma removelast_snoc {A} (l : list A) x : removelast (l ++ [x]) = l.
Proof. rewrite removelast_app by discriminate. cbn. apply app_nil_r. Qed.

Lemma lruInsert_ok s nl k v : rep s nl -> (0 < lcap s)%nat ->
  exists s' nl', lruInsert keqb s k v = Ret s' /\ rep s' nl' /\
    map snd nl' = touch keqb (lcap s) k v (map snd nl) /\
    lcap s' = lcap s /\ ltotal s' = ltotal s /\ lhits s' = lhits s.
Proof.
  intros R Hc. unfold lruInsert, touch. destruct (mfind keqb k (lmap s)) as [[w j]|] eqn:E.
  - destruct (rep_found s nl k w j R E) as (n1 & n2 & ->).
    destruct (abs_found n1 n2 j k w (r_keys _ _ R)) as [Hl Hr]. rewrite Hl, Hr.
    destruct (splice_mid s n1 n2 j k w R) as (Hs & _ & _). rewrite Hs. cbn [obind].
    destruct (mfind_split k _ _ E) as (m1 & m2 & Hm & _ & _ & Hset).
    eexists _, ((j, (k, v)) :: n1 ++ n2). split; [reflexivity|]. split.
    + apply (rep_touch s n1 n2 j k w v); [assumption|]. rewrite Hset. cbn [snd].
      rewrite <- Permutation_middle. constructor. exact (rep_map_mid s n1 n2 j k w R m1 m2 Hm).
    + cbn. auto.
  - pose proof (rep_absent s nl k R E) as Hab. rewrite find_absent by (rewrite <- map_akey_snd; assumption).
    assert (Hlen : length (lmap s) = length nl)
      by (rewrite (Permutation_length (r_map _ _ R)), map_length; reflexivity).
    rewrite map_length, Hlen.
    destruct (lcap s <=? length nl)%nat eqn:Ec.
    + assert (nl <> []) as Hne by (intros ->; cbn in *; lia).
      destruct (exists_last Hne) as (n0 & [i [k0 v0]] & ->).
      unfold evictLast. rewrite (r_list _ _ R), map_app, rev_app_distr. cbn [map rev app].
      change (anode (i, (k0, v0))) with (i, k0). cbv beta iota. cbn [obind].
      rewrite removelast_snoc.
      pose proof (rep_remove s n0 [] i k0 v0 (ltotal s) (lhits s) (u64 (levicts s + 1)) R) as R'.
      rewrite app_nil_r in R'.
      assert (Hab' : ~ In k (map akey n0)) by (rewrite map_app, in_app_iff in Hab; tauto).
      pose proof (rep_add _ _ k v (ltotal s) (lhits s) (u64 (levicts s + 1)) R' Hab') as R2.
      cbn [lnext llist lmap lcap] in R2.
      eexists _, _. split; [reflexivity|]. cbn [lnext llist lmap lcap ltotal lhits levicts].
      split; [exact R2|]. rewrite map_app. cbn [map]. rewrite removelast_snoc. auto.
    + cbn [obind].
      eexists _, _. split; [reflexivity|].
      split; [exact (rep_add _ _ k v _ _ _ R Hab)|]. cbn. auto.
Qed.

Lemma rep_counters s nl t h e : rep s nl ->
  rep (mkLru (lmap s) (llist s) (lnext s) (lcap s) t h e) nl.
Proof. intros [? ? ? ? ?]. constructor; assumption. Qed.

Lemma lruGet_ok s nl k : rep s nl ->
  exists s' nl', lcap s' = lcap s /\ ltotal s' = u64 (ltotal s + 1) /\ rep s' nl' /\
  match lookup keqb k (map snd nl) with
  | None => lruGet keqb s k = Ret (s', None) /\ map snd nl' = map snd nl /\ lhits s' = lhits s
  | Some v => lruGet keqb s k = Ret (s', Some v) /\ map snd nl' = touch keqb (lcap s) k v (map snd nl) /\
              lhits s' = u64 (lhits s + 1)
  end.
Proof.
  intros R. unfold lruGet. cbn [lmap llist].
  destruct (mfind keqb k (lmap s)) as [[w j]|] eqn:E.
  - destruct (rep_found s nl k w j R E) as (n1 & n2 & ->).
    unfold touch.
    destruct (abs_found n1 n2 j k w (r_keys _ _ R)) as [Hl Hr]. rewrite Hl, Hr.
    destruct (splice_mid s n1 n2 j k w R) as (Hs & Hn & _). rewrite Hn, Hs, keqb_refl.
    assert (Hlist : match llist s with
                    | [] => UB
                    | (j0, _) :: _ => if Nat.eqb j j0 then Ret (llist s)
                                      else Ret ((j, k) :: map anode (n1 ++ n2))
                    end = Ret ((j, k) :: map anode (n1 ++ n2))).
    { rewrite (r_list _ _ R). destruct n1 as [|[j1 [k1 v1]] n1]; cbn.
      - rewrite Nat.eqb_refl. reflexivity.
      - destruct (Nat.eqb_spec j j1); [|reflexivity]. subst j1. exfalso.
        pose proof (r_ids _ _ R) as Hi. cbn in Hi. inversion Hi; subst. apply H1.
        rewrite map_app, in_app_iff. cbn. auto. }
    rewrite Hlist. cbn [obind].
    eexists _, ((j, (k, w)) :: n1 ++ n2). cbn [lcap ltotal lhits lnext].
    split; [|split; [|split; [|split; [reflexivity|split]]]]; try reflexivity.
    apply (rep_touch s n1 n2 j k w w); [assumption|].
    rewrite (r_map _ _ R), map_app. cbn. rewrite <- Permutation_middle, map_app. reflexivity.
  - pose proof (rep_absent s nl k R E) as Hab. rewrite find_absent by (rewrite <- map_akey_snd; assumption).
    eexists _, nl. split; [|split; [|split; [|split; [reflexivity|split]]]]; try reflexivity.
    apply rep_counters. assumption.
Qed.

Lemma lruEvict_ok s nl k : rep s nl ->
  exists s' nl', lruEvict keqb s k = Ret s' /\ rep s' nl' /\ map snd nl' = remove keqb k (map snd nl) /\
    lcap s' = lcap s /\ ltotal s' = ltotal s /\ lhits s' = lhits s.
Proof.
  intros R. unfold lruEvict. destruct (mfind keqb k (lmap s)) as [[w j]|] eqn:E.
  - destruct (rep_found s nl k w j R E) as (n1 & n2 & ->).
    destruct (abs_found n1 n2 j k w (r_keys _ _ R)) as [Hl Hr]. rewrite Hr.
    destruct (splice_mid s n1 n2 j k w R) as (_ & Hn & Hu). rewrite Hn, Hu.
    eexists _, (n1 ++ n2). split; [reflexivity|]. split; [exact (rep_remove s n1 n2 j k w _ _ _ R)|]. cbn. auto.
  - pose proof (rep_absent s nl k R E) as Hab.
    rewrite remove_absent by (rewrite <- map_akey_snd; assumption).
    exists s, nl. auto 10.
Qed.

Lemma lruContains_ok s nl k : rep s nl ->
  lruContains keqb s k = match lookup keqb k (map snd nl) with Some _ => true | None => false end.
Proof.
  intros R. unfold lruContains. destruct (mfind keqb k (lmap s)) as [[w j]|] eqn:E.
  - destruct (rep_found s nl k w j R E) as (n1 & n2 & ->).
    destruct (abs_found n1 n2 j k w (r_keys _ _ R)) as [Hl Hr]. rewrite Hl. reflexivity.
  - pose proof (rep_absent s nl k R E) as Hab.
    rewrite find_absent by (rewrite <- map_akey_snd; assumption). reflexivity.
Qed.

Definition gets1 (o : op K V) : Z := match o with OGet _ | OPut _ _ => 1 | _ => 0 end.
Definition hits1 (o : op K V) (r : res V) : Z :=
  match o, r with OGet _, RVal _ | OPut _ _, RVal _ => 1 | _, _ => 0 end.
Definition isClear (o : op K V) : bool := match o with OClear => true | _ => false end.

Lemma lookup_touch cap k (v : V) l : lookup keqb k (touch keqb cap k v l) = Some v.
Proof. unfold touch, lookup. destruct (find _ l); cbn; rewrite keqb_refl; reflexivity. Qed.

(** One bucket operation refines one abstract step. *)
Lemma bucketStep_ok s nl o : rep s nl -> (0 < lcap s)%nat -> 
  exists s' nl', bucketStep keqb s o = Ret (s', snd (spec_step keqb (lcap s) (map snd nl) o)) /\
    rep s' nl' /\ map snd nl' = fst (spec_step keqb (lcap s) (map snd nl) o) /\
    lcap s' = lcap s /\
    (isClear o = true -> ltotal s' = 0 /\ lhits s' = 0) /\
    (isClear o = false ->
       (gets1 o = 0 -> ltotal s' = ltotal s) /\ (gets1 o = 1 -> ltotal s' = u64 (ltotal s + 1)) /\
       (hits1 o (snd (spec_step keqb (lcap s) (map snd nl) o)) = 0 -> lhits s' = lhits s) /\
       (hits1 o (snd (spec_step keqb (lcap s) (map snd nl) o)) = 1 -> lhits s' = u64 (lhits s + 1))).
Proof.
  intros R Hc. destruct o as [k | k v | k | k v | k |]; cbn [bucketStep spec_step isClear gets1].
  - rewrite (lruContains_ok s nl k R). exists s, nl. cbn. splits; auto; intros; splits; auto; intros; try discriminate; congruence.
  - destruct (lruInsert_ok s nl k v R Hc) as (s' & nl' & Hi & R' & Ha & Hcap & Ht & Hh).
    rewrite Hi. cbn. exists s', nl'. splits; auto; intros; splits; auto; intros; try discriminate; congruence.
  - destruct (lruGet_ok s nl k R) as (s' & nl' & Hcap & Ht & R' & Hm).
    destruct (lookup keqb k (map snd nl)) as [w|]; destruct Hm as (Hg & Ha & Hh); rewrite Hg; cbn;
      exists s', nl'; splits; auto; cbn; intros; splits; auto; intros; try discriminate; congruence.
  - destruct (lruGet_ok s nl k R) as (s' & nl' & Hcap & Ht & R' & Hm).
    destruct (lookup keqb k (map snd nl)) as [w|] eqn:El; destruct Hm as (Hg & Ha & Hh); rewrite Hg; cbn.
    + exists s', nl'; splits; auto; cbn; intros; splits; auto; intros; try discriminate; congruence.
    + destruct (lruInsert_ok s' nl' k v R' ltac:(lia)) as (s2 & nl2 & Hi & R2 & Ha2 & Hcap2 & Ht2 & Hh2).
      rewrite Hi. cbn. exists s2, nl2. rewrite Ha2, Hcap, Ha. splits; auto; cbn; intros; splits; auto; intros; try discriminate; congruence.
  - destruct (lruEvict_ok s nl k R) as (s' & nl' & Hi & R' & Ha & Hcap & Ht & Hh).
    rewrite Hi. cbn. exists s', nl'. splits; auto; intros; splits; auto; intros; try discriminate; congruence.
  - exists (lruClear s), []. cbn. split; [reflexivity|]. split; [|splits; auto; intros; splits; auto; intros; try discriminate; congruence].
    constructor; cbn; constructor.
Qed.

Lemma u64_idem_add a b : u64 (u64 a + b) = u64 (a + b).
Proof. unfold u64. apply Zplus_mod_idemp_l. Qed.

(** Runs refine runs; the counters count. *)
Lemma bucketRun_ok os : forall s nl ct ch, rep s nl -> (0 < lcap s)%nat -> 
  ltotal s = u64 ct -> lhits s = u64 ch ->
  exists s' nl', bucketRun keqb s os = Ret (s', snd (spec_run keqb (lcap s) (map snd nl) os)) /\
    rep s' nl' /\ map snd nl' = fst (spec_run keqb (lcap s) (map snd nl) os) /\ lcap s' = lcap s /\
    ltotal s' = u64 (count_gets (combine os (snd (spec_run keqb (lcap s) (map snd nl) os))) ct) /\
    lhits s' = u64 (count_hits (combine os (snd (spec_run keqb (lcap s) (map snd nl) os))) ch).
Proof.
  induction os as [|o os IH]; intros s nl ct ch R Hc Ht Hh; cbn [bucketRun spec_run].
  - exists s, nl. cbn. auto 10.
  - destruct (bucketStep_ok s nl o R Hc) as (s1 & nl1 & Hs & R1 & Ha1 & Hcap1 & Hcl & Hncl).
    destruct (spec_step keqb (lcap s) (map snd nl) o) as [l1 x] eqn:Esp. cbn [fst snd] in *.
    set (ct1 := if isClear o then 0 else ct + gets1 o).
    set (ch1 := if isClear o then 0 else ch + hits1 o x).
    destruct (IH s1 nl1 ct1 ch1 R1 ltac:(lia)) as (s2 & nl2 & Hr & R2 & Ha2 & Hcap2 & Ht2 & Hh2).
    { unfold ct1. destruct (isClear o) eqn:Ec; [apply Hcl; reflexivity|].
      destruct (Hncl eq_refl) as (G0 & G1 & _).
      destruct o; cbn [gets1] in *; try (rewrite G0 by reflexivity; rewrite Ht; f_equal; lia);
      rewrite G1 by reflexivity; rewrite Ht; apply u64_idem_add. }
    { unfold ch1. destruct (isClear o) eqn:Ec; [apply Hcl; reflexivity|].
      destruct (Hncl eq_refl) as (_ & _ & H0 & H1).
      assert (Hx : hits1 o x = 0 \/ hits1 o x = 1) by (destruct o, x; cbn; auto).
      destruct Hx as [Hx | Hx]; rewrite Hx in *.
      - rewrite H0 by reflexivity. rewrite Hh. f_equal; lia.
      - rewrite H1 by reflexivity. rewrite Hh. apply u64_idem_add. }
    rewrite Hcap1, Ha1 in *. rewrite Hs. cbn [obind]. rewrite Hr. cbn [obind].
    destruct (spec_run keqb (lcap s) l1 os) as [l2 xs]. cbn [fst snd combine] in *.
    exists s2, nl2. split; [reflexivity|]. split; [assumption|]. split; [assumption|]. split; [congruence|].
    rewrite Ht2, Hh2. unfold ct1, ch1.
    split; destruct o, x; cbn [count_gets count_hits isClear gets1 hits1]; f_equal;
      rewrite ?Z.add_0_r; reflexivity.
Qed.

(** The abstract list respects the capacity, has distinct keys and holds the last stored values. *)
Lemma remove_incl k (l : list (K * V)) : incl (remove keqb k l) l.
Proof. intros x H. apply filter_In in H. tauto. Qed.
Lemma remove_len k (l : list (K * V)) : (length (remove keqb k l) <= length l)%nat.
Proof. unfold remove. induction l as [|x l IH]; cbn; [lia|]. destruct (negb _); cbn; lia. Qed.
Lemma remove_nodup k (l : list (K * V)) : NoDup (map fst l) ->
  NoDup (map fst (remove keqb k l)) /\ ~ In k (map fst (remove keqb k l)).
Proof.
  unfold remove. induction l as [|[k' w] l IH]; cbn; intros Hn; [split; [constructor|auto]|].
  inversion Hn; subst. destruct (IH H2) as [I1 I2]. destruct (keqb k k') eqn:E; cbn; [auto|].
  apply keqb_false in E. split.
  - constructor; [|assumption]. intros Hin. apply H1. apply in_map_iff in Hin.
    destruct Hin as ((k2 & w2) & He & Hin). cbn in He. subst. apply filter_In in Hin.
    apply in_map_iff. exists (k', w2). tauto.
  - intros [He | Hin]; [congruence|contradiction].
Qed.

Lemma lookup_in k v (l : list (K * V)) : lookup keqb k l = Some v -> In (k, v) l.
Proof.
  unfold lookup. destruct (find _ l) as [[k' w]|] eqn:E; [|discriminate]. intros [= <-].
  apply find_some in E. destruct E as [E1 E2]. cbn in *. apply keqb_spec in E2. subst. assumption.
Qed.
Lemma lookup_none k (l : list (K * V)) : lookup keqb k l = None -> ~ In k (map fst l).
Proof.
  unfold lookup. destruct (find _ l) eqn:E; [discriminate|]. intros _ Hin.
  apply in_map_iff in Hin. destruct Hin as (x & He & Hin).
  pose proof (find_none _ _ E x Hin) as H. cbn in H. rewrite He, keqb_refl in H. discriminate.
Qed.
Lemma remove_found_len k v (l : list (K * V)) : In (k, v) l -> (length (remove keqb k l) < length l)%nat.
Proof.
  unfold remove. induction l as [|[k' w] l IH]; cbn; [contradiction|]. intros [[= -> ->] | Hin].
  - rewrite keqb_refl. cbn. pose proof (remove_len k l). unfold remove in H. lia.
  - specialize (IH Hin). destruct (keqb k k'); cbn; lia.
Qed.

Lemma removelast_incl {A} (l : list A) : incl (removelast l) l.
Proof.
  intros x H. destruct l as [|y l]; [contradiction|].
  rewrite (app_removelast_last y (l := y :: l)) by discriminate. apply in_app_iff. auto.
Qed.
Lemma NoDup_app_l {A} (l1 l2 : list A) : NoDup (l1 ++ l2) -> NoDup l1.
Proof.
  induction l1 as [|x l1 IH]; cbn; intros H; [constructor|]. inversion H; subst.
  constructor; [|auto]. intros Hin. apply H2. apply in_app_iff. auto.
Qed.
Lemma removelast_nodup (l : list (K * V)) : NoDup (map fst l) -> NoDup (map fst (removelast l)).
Proof.
  intros H. destruct l as [|y l]; [assumption|].
  rewrite (app_removelast_last y (l := y :: l)) in H by discriminate.
  rewrite map_app in H. apply NoDup_app_l in H. assumption.
Qed.
Lemma removelast_len {A} (l : list A) : l <> [] -> S (length (removelast l)) = length l.
Proof.
  intros H. destruct l as [|y l]; [contradiction|].
  rewrite (app_removelast_last y (l := y :: l)) at 2 by discriminate.
  rewrite app_length. cbn. lia.
Qed.

Lemma touch_props cap k (v : V) l : (0 < cap)%nat -> (length l <= cap)%nat -> NoDup (map fst l) ->
  (length (touch keqb cap k v l) <= cap)%nat /\ NoDup (map fst (touch keqb cap k v l)) /\
  forall k' v', In (k', v') (touch keqb cap k v l) -> (k' = k /\ v' = v) \/ (k' <> k /\ In (k', v') l).
Proof.
  intros Hc Hl Hn. unfold touch. destruct (lookup keqb k l) as [w|] eqn:E.
  - apply lookup_in in E. pose proof (remove_found_len k w l E). pose proof (remove_nodup k l Hn) as [N1 N2].
    cbn. split; [lia|]. split; [constructor; assumption|].
    intros k' v' [[= <- <-] | Hin]; [auto|]. right. split; [|eapply remove_incl; eassumption].
    intros ->. apply N2. apply in_map_iff. exists (k, v'). auto.
  - apply lookup_none in E.
    assert (Hk : forall l', incl l' l -> forall k' v', In (k', v') l' -> k' <> k).
    { intros l' Hi k' v' Hin ->. apply E. apply in_map_iff. exists (k, v'). auto. }
    destruct (cap <=? length l)%nat eqn:Ec.
    + assert (l <> []) by (intros ->; cbn in *; lia). pose proof (removelast_len l H).
      cbn. split; [lia|]. split.
      * constructor; [|apply removelast_nodup; assumption].
        intros Hin. apply in_map_iff in Hin. destruct Hin as ((k2 & w2) & He & Hin). cbn in He. subst.
        apply (Hk _ (removelast_incl l) k w2); auto.
      * intros k' v' [[= <- <-] | Hin]; [auto|]. right.
        split; [apply (Hk _ (removelast_incl l) k' v'); assumption|].
        apply removelast_incl. assumption.
    + cbn. split; [lia|]. split; [constructor; assumption|].
      intros k' v' [[= <- <-] | Hin]; [auto|]. right.
      split; [apply (Hk l (incl_refl l) k' v'); assumption|assumption].
Qed.

Lemma spec_run_props cap os : (0 < cap)%nat -> forall l (acc : K -> option V),
  (length l <= cap)%nat -> NoDup (map fst l) -> (forall k v, In (k, v) l -> acc k = Some v) ->
  let l' := fst (spec_run keqb cap l os) in
  (length l' <= cap)%nat /\ NoDup (map fst l') /\
  (forall k v, In (k, v) l' ->
     last_stored keqb k (combine os (snd (spec_run keqb cap l os))) (acc k) = Some v).
Proof.
  intros Hc. induction os as [|o os IH]; intros l acc Hl Hn Hacc; cbn zeta.
  - cbn. auto.
  - cbn [spec_run]. destruct (spec_step keqb cap l o) as [l1 x] eqn:Es.
    destruct (spec_run keqb cap l1 os) as [l2 xs] eqn:Er. cbn [fst snd combine].
    assert (Hgoal : forall acc1, (length l1 <= cap)%nat -> NoDup (map fst l1) ->
      (forall k v, In (k, v) l1 -> acc1 k = Some v) ->
      (forall k, last_stored keqb k ((o, x) :: combine os xs) (acc k) =
                 last_stored keqb k (combine os xs) (acc1 k)) ->
      (length l2 <= cap)%nat /\ NoDup (map fst l2) /\
      (forall k v, In (k, v) l2 -> last_stored keqb k ((o, x) :: combine os xs) (acc k) = Some v)).
    { intros acc1 H1 H2 H3 H4. specialize (IH l1 acc1 H1 H2 H3). rewrite Er in IH. cbn in IH.
      destruct IH as (I1 & I2 & I3). split; [assumption|]. split; [assumption|].
      intros k v Hin. rewrite H4. apply I3. assumption. }
    destruct o as [k | k v | k | k v | k |]; cbn [spec_step] in Es.
    + injection Es as <- <-. apply (Hgoal acc); auto.
    + injection Es as <- <-.
      destruct (touch_props cap k v l Hc Hl Hn) as (T1 & T2 & T3).
      apply (Hgoal (fun k' => if keqb k' k then Some v else acc k')); auto.
      intros k' v' Hin. destruct (T3 k' v' Hin) as [[-> ->] | [Hne Hin']].
      * rewrite keqb_refl. reflexivity.
      * rewrite keqb_neq by assumption. auto.
    + destruct (lookup keqb k l) as [w|] eqn:E; injection Es as <- <-.
      * destruct (touch_props cap k w l Hc Hl Hn) as (T1 & T2 & T3).
        apply (Hgoal acc); auto.
        intros k' v' Hin. destruct (T3 k' v' Hin) as [[-> ->] | [Hne Hin']]; [|auto].
        apply Hacc. apply lookup_in. assumption.
      * apply (Hgoal acc); auto.
    + destruct (lookup keqb k l) as [w|] eqn:E; injection Es as <- <-.
      * destruct (touch_props cap k w l Hc Hl Hn) as (T1 & T2 & T3).
        apply (Hgoal acc); auto.
        intros k' v' Hin. destruct (T3 k' v' Hin) as [[-> ->] | [Hne Hin']]; [|auto].
        apply Hacc. apply lookup_in. assumption.
      * destruct (touch_props cap k v l Hc Hl Hn) as (T1 & T2 & T3).
        apply (Hgoal (fun k' => if keqb k' k then Some v else acc k')); auto.
        intros k' v' Hin. destruct (T3 k' v' Hin) as [[-> ->] | [Hne Hin']].
        -- rewrite keqb_refl. reflexivity.
        -- rewrite keqb_neq by assumption. auto.
    + injection Es as <- <-. pose proof (remove_nodup k l Hn) as [N1 N2].
      apply (Hgoal (fun k' => if keqb k' k then None else acc k')); auto.
      * pose proof (remove_len k l). lia.
      * intros k' v' Hin. rewrite keqb_neq; [apply Hacc; eapply remove_incl; eassumption|].
        intros ->. apply N2. apply in_map_iff. exists (k, v'). auto.
    + injection Es as <- <-. apply (Hgoal (fun _ => None)); cbn; auto; try lia; try constructor; try tauto.
Qed.

(** The evicted key is the least recently used one and nothing else disappears. *)
Lemma touch_full_new cap k (v : V) l x : lookup keqb k (l ++ [x]) = None -> (cap <= length (l ++ [x]))%nat ->
  touch keqb cap k v (l ++ [x]) = (k, v) :: l.
Proof.
  intros H Hc. unfold touch. rewrite H.
  replace (cap <=? length (l ++ [x]))%nat with true by lia. rewrite removelast_snoc. reflexivity.
Qed.

(** The whole cache: every bucket keeps its own history. *)
Definition rep1 (b : lru K V) : Prop :=
  exists nl, rep b nl /\ (length nl <= lcap b)%nat /\ (0 < lcap b)%nat.

Lemma setNth_length {A} i (x : A) l : length (setNth i x l) = length l.
Proof. revert i. induction l as [|y l IH]; intros [|i]; cbn; auto. Qed.
Lemma nth_setNth_eq {A} i (x : A) l : (i < length l)%nat -> nth_error (setNth i x l) i = Some x.
Proof. revert i. induction l as [|y l IH]; intros [|i]; cbn; intros H; try lia; [reflexivity|]. apply IH. lia. Qed.
Lemma nth_setNth_neq {A} i j (x : A) l : i <> j -> nth_error (setNth i x l) j = nth_error l j.
Proof.
  revert i j. induction l as [|y l IH]; intros [|i] [|j]; cbn; intros H; try reflexivity; try congruence.
  apply IH. congruence.
Qed.

(** Projection of a cache run on bucket [i]. *)
Definition proj (i : nat) (os : list (nat * op K V)) : list (op K V) :=
  map snd (filter (fun p => Nat.eqb i (fst p)) os).
Fixpoint projRes (i : nat) (os : list (nat * op K V)) (rs : list (res V)) : list (res V) :=
  match os, rs with
  | (j, _) :: os', r :: rs' => if Nat.eqb i j then r :: projRes i os' rs' else projRes i os' rs'
  | _, _ => []
  end.

Lemma cacheRun_ok os : forall c,
  (forall i o, In (i, o) os -> (i < length c)%nat) ->
  (forall i b, nth_error c i = Some b -> exists nl, rep b nl /\ (0 < lcap b)%nat) ->
  exists c' rs, cacheRun keqb c os = Ret (c', rs) /\ length c' = length c /\ length rs = length os /\
    forall i b, nth_error c i = Some b -> exists b', nth_error c' i = Some b' /\
      bucketRun keqb b (proj i os) = Ret (b', projRes i os rs).
Proof.
  induction os as [|[i o] os IH]; intros c Hidx Hrep; cbn [cacheRun].
  - exists c, []. cbn. splits; auto. intros i b Hb. exists b. auto.
  - assert (Hi : (i < length c)%nat) by (apply (Hidx i o); left; reflexivity).
    destruct (nth_error c i) as [b|] eqn:Eb; [|apply nth_error_None in Eb; lia].
    unfold cacheAtomic. rewrite Eb.
    destruct (Hrep i b Eb) as (nl & R & Hc).
    destruct (bucketStep_ok b nl o R Hc) as (b1 & nl1 & Hs & R1 & _ & Hcap & _).
    rewrite Hs. cbn [obind]. set (x := snd (spec_step keqb (lcap b) (map snd nl) o)) in *.
    destruct (IH (setNth i b1 c)) as (c' & rs & Hr & Hl & Hlr & Hb).
    { intros j o' Hin. rewrite setNth_length. apply (Hidx j o'). right. assumption. }
    { intros j b0 Hj. destruct (Nat.eq_dec i j) as [<- | Hne].
      - rewrite nth_setNth_eq in Hj by assumption. injection Hj as <-. exists nl1. split; [assumption|lia].
      - rewrite nth_setNth_neq in Hj by assumption. eauto. }
    rewrite Hr. cbn [obind]. exists c', (x :: rs). rewrite setNth_length in Hl.
    splits; auto; [cbn; lia|].
    intros j b0 Hj. unfold proj. cbn [filter fst projRes]. destruct (Nat.eqb_spec j i) as [-> | Hne].
    + rewrite Eb in Hj. injection Hj as <-. cbn [map snd bucketRun].
      destruct (Hb i b1) as (b' & Hn & Hrun); [apply nth_setNth_eq; assumption|].
      exists b'. split; [assumption|]. rewrite Hs. cbn [obind]. unfold proj in Hrun. rewrite Hrun. reflexivity.
    + destruct (Hb j b0) as (b' & Hn & Hrun); [rewrite nth_setNth_neq by congruence; assumption|].
      exists b'. split; assumption.
Qed.
End Proofs.
