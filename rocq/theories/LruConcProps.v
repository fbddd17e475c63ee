(** Theorems about concurrent calls of the LRU cache (C177). *)
From Coq Require Import Permutation.
From Verif Require Import Prelude Trans LruModel LruSpec LruProofs LruProps LruConcModel.
Local Open Scope list_scope.

(** * Specification *)
Section Spec.
Context {K V : Type} (keqb : K -> K -> bool).
(** What took effect, oldest first: the bucket, the function and its result. *)
Fixpoint effects (h : list (event K V)) : list ((nat * op K V) * res V) :=
  match h with [] => [] | EDone _ i o r :: h' => effects h' ++ [((i, o), r)] | _ :: h' => effects h' end.
(** The events of one thread, oldest first. *)
Definition who (e : event K V) : nat := match e with ECall t _ | EDone t _ _ _ | ERet t _ _ => t end.
Definition ofThread (t : nat) (h : list (event K V)) : list (event K V) := filter (fun e => Nat.eqb (who e) t) (rev h).
(** One call from its beginning to its return: each bucket function takes effect once, in order, in between; the last result is returned. *)
Definition whole (n : nat) (t : nat) (es : list (event K V)) : Prop :=
  exists c a rs, es = ECall t c :: map (fun p => EDone t (fst (fst p)) (snd (fst p)) (snd p)) (combine (opsOf n c) rs) ++ [ERet t c a] /\
    length rs = length (opsOf n c) /\ (opsOf n c <> [] -> a = Res (last rs RUnit)).
Inductive orderly (n t : nat) : list (event K V) -> Prop :=
| ord_nil : orderly n t []
| ord_more h b : orderly n t h -> whole n t b -> orderly n t (h ++ b).
End Spec.

Section Proofs.
Context {K V : Type} (keqb : K -> K -> bool).
Hypothesis keqb_spec : forall a b, keqb a b = true <-> a = b.
Notation conc := (conc K V).
Notation step := (lstep (V := V) keqb).

Lemma put_eq {A} (f : nat -> A) i x : put f i x i = x.
Proof. unfold put. rewrite Nat.eqb_refl. reflexivity. Qed.
Lemma put_neq {A} (f : nat -> A) i j x : j <> i -> put f i x j = f j.
Proof. intros H. unfold put. rewrite (proj2 (Nat.eqb_neq j i) H). reflexivity. Qed.

(** ** The lock *)
(** the bucket whose mutex the thread holds *)
Definition holds (p : pc K V) : option nat := match p with Sum _ _ _ => None | _ => inUse p end.
Definition exclusive (s : conc) : Prop := forall i t, lk s i = Some t <-> holds (pcs s t) = Some i.
Lemma excl_step s s' : exclusive s -> step s s' -> exclusive s'.
Proof.
  intros X T. assert (G : forall s' t p, holds p = holds (pcs s t) -> lk s' = lk s -> pcs s' = put (pcs s) t p -> exclusive s').
  { intros s1 t p H1 H2 H3 i t1. rewrite H2, H3. rewrite (X i t1). destruct (Nat.eq_dec t1 t) as [->|N]; [rewrite put_eq, H1|rewrite put_neq by exact N]; reflexivity. }
  destruct T; try (eapply (G _ t _) ; [|reflexivity|reflexivity]; rewrite H; reflexivity).
  - (* lock *) intros j t1. cbn [setLk setPc lk pcs]. destruct (Nat.eq_dec j i) as [->|Nj].
    + rewrite put_eq. destruct (Nat.eq_dec t1 t) as [->|Nt]; [rewrite put_eq; split; reflexivity|]. rewrite put_neq by exact Nt.
      split; [congruence|]. intros Q. apply X in Q. congruence.
    + rewrite put_neq by exact Nj. rewrite (X j t1). destruct (Nat.eq_dec t1 t) as [->|Nt]; [rewrite put_eq, H; cbn; split; congruence|]. rewrite put_neq by exact Nt. reflexivity.
  - (* unlock *) intros j t1. cbn [setLk setPc lk pcs]. assert (Q : holds (pcs s t) = Some i) by (rewrite H; reflexivity).
    assert (W : holds (match l with [] => Back c (Res r) | _ => Want c l end) = None) by (destruct l; reflexivity).
    destruct (Nat.eq_dec j i) as [->|Nj].
    + rewrite put_eq. destruct (Nat.eq_dec t1 t) as [->|Nt]; [rewrite put_eq, W; split; discriminate|]. rewrite put_neq by exact Nt.
      split; [discriminate|]. intros Q1. apply X in Q, Q1. congruence.
    + rewrite put_neq by exact Nj. rewrite (X j t1). destruct (Nat.eq_dec t1 t) as [->|Nt]; [rewrite put_eq, W, Q; split; congruence|]. rewrite put_neq by exact Nt. reflexivity.
Qed.
Lemma excl_init c : exclusive (concInit c).
Proof. intros i t. cbn. split; discriminate. Qed.

(** ** The effects *)
Lemma cacheRun_app (c : list (lru K V)) a b : cacheRun keqb c (a ++ b) =
  (let* r := cacheRun keqb c a in let* r2 := cacheRun keqb (fst r) b in Ret (fst r2, snd r ++ snd r2)).
Proof.
  revert c. induction a as [|[i o] a IH]; intros c; cbn [app cacheRun].
  - cbn [obind fst snd app]. destruct (cacheRun keqb c b) as [[c' rs]| | |]; reflexivity.
  - destruct (cacheAtomic keqb c i o) as [[c' x]| | |]; try reflexivity. cbn [obind]. rewrite IH. destruct (cacheRun keqb c' a) as [[c1 r1]| | |]; try reflexivity.
    cbn [obind fst snd]. destruct (cacheRun keqb c1 b) as [[c2 r2]| | |]; reflexivity.
Qed.
(** the bucket functions that took effect, one after the other, give the buckets there are, but for one in the middle of putIfAbsent *)
Definition midOf (s : conc) (i : nat) : option K :=
  match lk s i with Some t => match pcs s t with Mid _ ((_, OPut k _) :: _) => Some k | _ => None end | None => None end.
Definition mirrors (s : conc) (c : list (lru K V)) : Prop :=
  length c = length (bks s) /\ forall i b0, nth_error c i = Some b0 -> exists b, nth_error (bks s) i = Some b /\
    match midOf s i with Some k => lruGet keqb b0 k = Ret (b, None) | None => b0 = b end.
Definition replayed (c0 : list (lru K V)) (s : conc) : Prop :=
  exists c, cacheRun keqb c0 (map fst (effects (hist s))) = Ret (c, map snd (effects (hist s))) /\ mirrors s c.
Lemma replay_same c0 s s' : replayed c0 s -> bks s' = bks s -> effects (hist s') = effects (hist s) -> (forall i, midOf s' i = midOf s i) -> replayed c0 s'.
Proof. intros (c & R & L & M) Hb Hh Hm. exists c. rewrite Hh. split; [exact R|]. split; [rewrite Hb; exact L|]. intros i b0 N. rewrite Hb, Hm. apply M, N. Qed.
Definition isMid (p : pc K V) : bool := match p with Mid _ _ => true | _ => false end.
Lemma mid_not s i t : lk s i = Some t -> isMid (pcs s t) = false -> midOf s i = None.
Proof. intros H1 H2. unfold midOf. rewrite H1. destruct (pcs s t); try reflexivity. discriminate H2. Qed.
(** changing where thread t is, from one place outside Mid to another *)
Lemma mid_put s s' t p : lk s' = lk s -> pcs s' = put (pcs s) t p -> isMid (pcs s t) = false -> isMid p = false -> forall i, midOf s' i = midOf s i.
Proof.
  intros H1 H2 H3 H4 i. unfold midOf. rewrite H1, H2. destruct (lk s i) as [t'|]; [|reflexivity]. destruct (Nat.eq_dec t' t) as [->|N]; [|rewrite put_neq by exact N; reflexivity].
  rewrite put_eq. destruct p, (pcs s t); try reflexivity; try discriminate H3; try discriminate H4.
Qed.
Lemma replay_effect c0 s t p i o b0 b' r c : exclusive s -> cacheRun keqb c0 (map fst (effects (hist s))) = Ret (c, map snd (effects (hist s))) -> mirrors s c ->
  holds (pcs s t) = Some i -> isMid p = false -> nth_error c i = Some b0 -> bucketStep keqb b0 o = Ret (b', r) ->
  replayed c0 (note (setBk (setPc s t p) i b') (EDone t i o r)).
Proof.
  intros X R [L M] Hh Hp Hn Hs. pose proof (proj2 (X i t) Hh) as Hl. exists (setNth i b' c). cbn [note setBk setPc hist effects]. split.
  - rewrite !map_app, cacheRun_app, R. cbn [obind fst snd map cacheRun]. unfold cacheAtomic. rewrite Hn, Hs. reflexivity.
  - assert (Hi : (i < length c)%nat) by (apply nth_error_Some; congruence).
    split; [cbn; rewrite !setNth_length; exact L|]. intros j x Nj. cbn [bks note setBk setPc]. destruct (Nat.eq_dec j i) as [->|N].
    + rewrite nth_setNth_eq in Nj by exact Hi. injection Nj as <-. exists b'. rewrite nth_setNth_eq by (rewrite <- L; exact Hi). split; [reflexivity|].
      rewrite (mid_not _ i t); [reflexivity|exact Hl|]. cbn [pcs note setBk setPc]. rewrite put_eq. exact Hp.
    + rewrite nth_setNth_neq in Nj by congruence. destruct (M j x Nj) as (b & B1 & B2). exists b. rewrite nth_setNth_neq by congruence. split; [exact B1|].
      replace (midOf (note (setBk (setPc s t p) i b') (EDone t i o r)) j) with (midOf s j); [exact B2|].
      unfold midOf. cbn [lk pcs note setBk setPc]. destruct (lk s j) as [t'|] eqn:Q; [|reflexivity]. destruct (Nat.eq_dec t' t) as [->|Nt]; [|rewrite put_neq by exact Nt; reflexivity].
      apply X in Q. congruence.
Qed.
Lemma replay_step c0 s s' : exclusive s -> replayed c0 s -> step s s' -> replayed c0 s'.
Proof.
  intros X I T. destruct T.
  - eapply replay_same; [exact I|reflexivity..|]. eapply mid_put; [reflexivity|reflexivity|rewrite H; reflexivity|reflexivity].
  - eapply replay_same; [exact I|reflexivity..|]. eapply mid_put; [reflexivity|reflexivity|rewrite H; reflexivity|reflexivity].
  - eapply replay_same; [exact I|reflexivity..|]. intros j. unfold midOf. cbn [setLk setPc lk pcs]. destruct (Nat.eq_dec j i) as [->|N].
    + rewrite put_eq, put_eq, H0. reflexivity.
    + rewrite put_neq by exact N. destruct (lk s j) as [t'|]; [|reflexivity]. destruct (Nat.eq_dec t' t) as [->|Nt]; [rewrite put_eq, H|rewrite put_neq by exact Nt]; reflexivity.
  - (* do *) destruct I as (cc & R & M). assert (Hh : holds (pcs s t) = Some i) by (rewrite H; reflexivity). pose proof (proj2 (X i t) Hh) as Hl.
    destruct (nth_error cc i) as [b0|] eqn:Q; [|exfalso; apply nth_error_None in Q; rewrite (proj1 M) in Q; apply nth_error_None in Q; congruence].
    destruct (proj2 M i b0 Q) as (b1 & B1 & B2). rewrite (mid_not s i t Hl) in B2 by (rewrite H; reflexivity). subst b1. assert (b0 = b) by congruence. subst b0.
    eapply replay_effect; try eassumption. reflexivity.
  - (* get some *) destruct I as (cc & R & M). assert (Hh : holds (pcs s t) = Some i) by (rewrite H; reflexivity). pose proof (proj2 (X i t) Hh) as Hl.
    destruct (nth_error cc i) as [b0|] eqn:Q; [|exfalso; apply nth_error_None in Q; rewrite (proj1 M) in Q; apply nth_error_None in Q; congruence].
    destruct (proj2 M i b0 Q) as (b1 & B1 & B2). rewrite (mid_not s i t Hl) in B2 by (rewrite H; reflexivity). subst b1. assert (b0 = b) by congruence. subst b0.
    eapply replay_effect; try eassumption; [reflexivity|]. cbn [bucketStep]. rewrite H1. reflexivity.
  - (* get none *) destruct I as (cc & R & L & M). assert (Hh : holds (pcs s t) = Some i) by (rewrite H; reflexivity). pose proof (proj2 (X i t) Hh) as Hl.
    exists cc. split; [exact R|]. split; [cbn; rewrite setNth_length; exact L|]. intros j x Nj. cbn [bks setBk setPc].
    assert (Hi : (i < length (bks s))%nat) by (apply nth_error_Some; congruence).
    destruct (M j x Nj) as (b1 & B1 & B2). destruct (Nat.eq_dec j i) as [->|N].
    + rewrite (mid_not s i t Hl) in B2 by (rewrite H; reflexivity). subst b1. exists b'. rewrite nth_setNth_eq by exact Hi. split; [reflexivity|].
      unfold midOf. cbn [lk pcs setBk setPc]. rewrite Hl, put_eq. congruence.
    + exists b1. rewrite nth_setNth_neq by congruence. split; [exact B1|].
      replace (midOf (setBk (setPc s t (Mid c ((i, OPut k v) :: l))) i b') j) with (midOf s j); [exact B2|].
      unfold midOf. cbn [lk pcs setBk setPc]. destruct (lk s j) as [t'|] eqn:Q; [|reflexivity]. destruct (Nat.eq_dec t' t) as [->|Nt]; [|rewrite put_neq by exact Nt; reflexivity].
      apply X in Q. congruence.
  - (* insert *) destruct I as (cc & R & M). assert (Hh : holds (pcs s t) = Some i) by (rewrite H; reflexivity). pose proof (proj2 (X i t) Hh) as Hl.
    destruct (nth_error cc i) as [b0|] eqn:Q; [|exfalso; apply nth_error_None in Q; rewrite (proj1 M) in Q; apply nth_error_None in Q; congruence].
    destruct (proj2 M i b0 Q) as (b1 & B1 & B2). unfold midOf in B2. rewrite Hl, H in B2. assert (b1 = b) by congruence. subst b1.
    eapply replay_effect; try eassumption; [reflexivity|]. cbn [bucketStep]. rewrite B2. cbn [obind]. rewrite H1. reflexivity.
  - (* unlock *) eapply replay_same; [exact I|reflexivity..|]. assert (Q : lk s i = Some t) by (apply X; rewrite H; reflexivity).
    intros j. unfold midOf. cbn [setLk setPc lk pcs]. destruct (Nat.eq_dec j i) as [->|N].
    + rewrite put_eq, Q, H. reflexivity.
    + rewrite put_neq by exact N. destruct (lk s j) as [t'|]; [|reflexivity]. destruct (Nat.eq_dec t' t) as [->|Nt]; [rewrite put_eq, H; destruct l|rewrite put_neq by exact Nt]; reflexivity.
  - eapply replay_same; [exact I|reflexivity..|]. eapply mid_put; [reflexivity|reflexivity|rewrite H; reflexivity|reflexivity].
  - eapply replay_same; [exact I|reflexivity..|]. eapply mid_put; [reflexivity|reflexivity|rewrite H; reflexivity|reflexivity].
  - eapply replay_same; [exact I|reflexivity..|]. eapply mid_put; [reflexivity|reflexivity|rewrite H; reflexivity|reflexivity].
Qed.
Lemma reach_both c0 s : steps step (concInit c0) s -> exclusive s /\ replayed c0 s.
Proof.
  intros T. refine (inv_reachable step (fun s => exclusive s /\ replayed c0 s) _ _ _ T _).
  - intros a b [X I] H. split; [eapply excl_step; eassumption|eapply replay_step; eassumption].
  - split; [apply excl_init|]. exists c0. split; [reflexivity|]. split; [reflexivity|]. intros i b H. exists b. split; [exact H|reflexivity].
Qed.

(** ** The order of the events of a thread *)
Definition done_ (t : nat) (ops : list (nat * op K V)) (rs : list (res V)) : list (event K V) :=
  map (fun p => EDone t (fst (fst p)) (snd (fst p)) (snd p)) (combine ops rs).
Definition begun (n t : nat) (p : pc K V) (b : list (event K V)) : Prop :=
  match p with
  | Idle => b = []
  | Want c ops | Hold c ops | Mid c ops => exists fin rs, opsOf n c = fin ++ ops /\ length rs = length fin /\ b = ECall t c :: done_ t fin rs
  | Did c ops r => exists fin rs x l, ops = x :: l /\ opsOf n c = fin ++ ops /\ length rs = length fin /\ b = ECall t c :: done_ t (fin ++ [x]) (rs ++ [r])
  | Sum w _ _ => b = [ECall t (Count w)]
  | Back c a => exists rs, length rs = length (opsOf n c) /\ b = ECall t c :: done_ t (opsOf n c) rs /\ (opsOf n c <> [] -> a = Res (last rs RUnit))
  end.
Definition ordered (n : nat) (s : conc) : Prop := length (bks s) = n /\ forall t, exists h b, ofThread t (hist s) = h ++ b /\ orderly n t h /\ begun n t (pcs s t) b.
Lemma ofThread_cons t (e : event K V) h : ofThread t (e :: h) = ofThread t h ++ (if Nat.eqb (who e) t then [e] else []).
Proof. unfold ofThread. cbn [rev]. rewrite filter_app. cbn [filter]. destruct (Nat.eqb (who e) t); reflexivity. Qed.
Lemma done_snoc t ops rs x r : length rs = length ops -> done_ t (ops ++ [x]) (rs ++ [r]) = done_ t ops rs ++ [EDone t (fst x) (snd x) r].
Proof.
  revert rs. induction ops as [|y ops IH]; intros [|q rs] L; try discriminate L; [reflexivity|]. injection L as L. unfold done_ in *. cbn [app combine map]. rewrite IH by exact L. reflexivity.
Qed.
(** a step of t that adds at most one event of its own *)
Lemma ordered_put n s s' t p es : ordered n s -> length (bks s') = length (bks s) -> pcs s' = put (pcs s) t p -> hist s' = es ++ hist s ->
  (es = [] \/ exists e, es = [e] /\ who e = t) -> (forall b, begun n t (pcs s t) b -> (p <> Idle /\ begun n t p (b ++ es)) \/ (p = Idle /\ whole n t (b ++ es))) -> ordered n s'.
Proof.
  intros [L O] Hl Hp Hh He Hb. split; [congruence|]. intros t'. destruct (O t') as (h & b & H1 & H2 & H3). rewrite Hh, Hp. destruct (Nat.eq_dec t' t) as [->|N].
  - rewrite put_eq. assert (Q : ofThread t (es ++ hist s) = ofThread t (hist s) ++ es).
    { destruct He as [->|(e & -> & We)]; [cbn [app]; rewrite app_nil_r; reflexivity|]. cbn [app]. rewrite ofThread_cons, We, Nat.eqb_refl. reflexivity. }
    rewrite Q, H1. destruct (Hb b H3) as [[_ B]|[-> B]].
    + exists h, (b ++ es). rewrite app_assoc. splits; auto.
    + exists (h ++ (b ++ es)), []. splits; [rewrite app_nil_r, app_assoc; reflexivity|constructor; assumption|reflexivity].
  - rewrite put_neq by exact N. exists h, b. split; [|split; assumption]. destruct He as [->|(e & -> & We)]; [exact H1|]. cbn [app]. rewrite ofThread_cons, We.
    rewrite (proj2 (Nat.eqb_neq t t')) by congruence. rewrite app_nil_r. exact H1.
Qed.
Lemma ordered_step n s s' : ordered n s -> step s s' -> ordered n s'.
Proof.
  intros O T. pose proof (proj1 O) as L. destruct T.
  - eapply (ordered_put n s _ t _ [ECall t c]); [exact O|reflexivity..|right; eexists; split; reflexivity|]. intros b B. rewrite H in B. cbn in B. subst b. left. split; [discriminate|].
    exists [], []. rewrite L. splits; reflexivity.
  - eapply (ordered_put n s _ t _ [ECall t (Count w)]); [exact O|reflexivity..|right; eexists; split; reflexivity|]. intros b B. rewrite H in B. cbn in B. subst b. left. split; [discriminate|reflexivity].
  - eapply (ordered_put n s _ t _ []); [exact O|reflexivity..|left; reflexivity|]. intros b B. rewrite H in B. rewrite app_nil_r. left. split; [discriminate|exact B].
  - eapply (ordered_put n s _ t _ [EDone t i o r]); [exact O|cbn; apply setNth_length|reflexivity..|right; eexists; split; reflexivity|]. intros b0 B. rewrite H in B. left. split; [discriminate|].
    destruct B as (fin & rs & B1 & B2 & ->). exists fin, rs, (i, o), l. splits; auto. rewrite done_snoc by exact B2. reflexivity.
  - eapply (ordered_put n s _ t _ [EDone t i (OPut k v) (RVal w)]); [exact O|cbn; apply setNth_length|reflexivity..|right; eexists; split; reflexivity|]. intros b0 B. rewrite H in B. left. split; [discriminate|].
    destruct B as (fin & rs & B1 & B2 & ->). exists fin, rs, (i, OPut k v), l. splits; auto. rewrite done_snoc by exact B2. reflexivity.
  - eapply (ordered_put n s _ t _ []); [exact O|cbn; apply setNth_length|reflexivity..|left; reflexivity|]. intros b0 B. rewrite H in B. rewrite app_nil_r. left. split; [discriminate|exact B].
  - eapply (ordered_put n s _ t _ [EDone t i (OPut k v) RInserted]); [exact O|cbn; apply setNth_length|reflexivity..|right; eexists; split; reflexivity|]. intros b0 B. rewrite H in B. left. split; [discriminate|].
    destruct B as (fin & rs & B1 & B2 & ->). exists fin, rs, (i, OPut k v), l. splits; auto. rewrite done_snoc by exact B2. reflexivity.
  - eapply (ordered_put n s _ t _ []); [exact O|reflexivity..|left; reflexivity|]. intros b B. rewrite H in B. rewrite app_nil_r. left. destruct B as (fin & rs & x & l' & E & B1 & B2 & ->). injection E as <- <-.
    split; [destruct l; discriminate|]. destruct l as [|y l].
    + exists (rs ++ [r]). rewrite B1, !app_length, B2. splits; try reflexivity. intros _. rewrite last_last. reflexivity.
    + exists (fin ++ [(i, o)]), (rs ++ [r]). rewrite !app_length, B2, <- app_assoc. splits; auto.
  - eapply (ordered_put n s _ t _ []); [exact O|reflexivity..|left; reflexivity|]. intros b0 B. rewrite H in B. rewrite app_nil_r. left. split; [discriminate|exact B].
  - eapply (ordered_put n s _ t _ []); [exact O|reflexivity..|left; reflexivity|]. intros b0 B. rewrite H in B. rewrite app_nil_r. left. split; [discriminate|]. cbn in B. subst b0. exists []. splits; try reflexivity. intros Q. destruct (Q eq_refl).
  - eapply (ordered_put n s _ t _ [ERet t c a]); [exact O|reflexivity..|right; eexists; split; reflexivity|]. intros b B. rewrite H in B. right. split; [reflexivity|].
    destruct B as (rs & B1 & -> & B3). exists c, a, rs. splits; auto.
Qed.
Lemma ordered_reach c0 s : steps step (concInit c0) s -> ordered (length c0) s.
Proof.
  intros T. refine (inv_reachable step (ordered (length c0)) _ _ _ T _); [intros a b O H; eapply ordered_step; eassumption|].
  split; [reflexivity|]. intros t. exists [], []. splits; [reflexivity|constructor|reflexivity].
Qed.

(** * C177 *)
(** At any moment of any execution: the bucket functions that have taken effect, one after the other, give the results they have
    given and the buckets that no thread is using. *)
Theorem C177_one_after_the_other : forall c0 s, steps step (concInit c0) s ->
  exists c, cacheRun keqb c0 (map fst (effects (hist s))) = Ret (c, map snd (effects (hist s))) /\
    length c = length (bks s) /\ forall i, (forall t, holds (pcs s t) <> Some i) -> nth_error c i = nth_error (bks s) i.
Proof.
  intros c0 s T. destruct (reach_both c0 s T) as [X (c & R & L & M)]. exists c. splits; auto. intros i F.
  destruct (nth_error c i) as [b0|] eqn:Q.
  - destruct (M i b0 Q) as (b & B1 & B2). unfold midOf in B2. destruct (lk s i) as [t|] eqn:E; [apply X in E; destruct (F t E)|]. congruence.
  - symmetry. apply nth_error_None. rewrite <- L. apply nth_error_None. exact Q.
Qed.
(** Each of them takes effect between the call and the return of the public function it belongs to; the last result is returned. *)
Theorem C177_in_between : forall c0 s t, steps step (concInit c0) s ->
  exists h b, ofThread t (hist s) = h ++ b /\ orderly (length c0) t h /\ (pcs s t = Idle -> b = []) /\ (pcs s t <> Idle -> exists b', whole (length c0) t (b ++ b')).
Proof.
  intros c0 s t T. destruct (proj2 (ordered_reach c0 s T) t) as (h & b & H1 & H2 & H3). exists h, b. splits; auto.
  - intros E. rewrite E in H3. exact H3.
  - intros N.
    assert (G : forall c fin ops rs, opsOf (length c0) c = fin ++ ops -> length rs = length fin -> exists b', whole (length c0) t ((ECall t c :: done_ t fin rs) ++ b')).
    { intros c fin ops rs E Lr. exists (done_ t ops (map (fun _ => RUnit) ops) ++ [ERet t c (Res (last (rs ++ map (fun _ => RUnit) ops) RUnit))]).
      exists c, (Res (last (rs ++ map (fun _ => RUnit) ops) RUnit)), (rs ++ map (fun _ => RUnit) ops). splits; [|rewrite E, !app_length, map_length, Lr; reflexivity|reflexivity].
      rewrite E. cbn [app]. f_equal. rewrite app_assoc. f_equal. unfold done_. rewrite <- map_app. f_equal.
      clear - Lr. revert rs Lr. induction fin as [|x fin IH]; intros [|r rs] Lr; try discriminate Lr; [reflexivity|]. injection Lr as Lr. cbn [app combine]. rewrite IH by exact Lr. reflexivity. }
    destruct (pcs s t) as [|c ops|c ops|c ops|c ops r|w i acc|c a]; [destruct (N eq_refl)| | | | | |].
    + destruct H3 as (fin & rs & E & Lr & ->). eapply G; eassumption.
    + destruct H3 as (fin & rs & E & Lr & ->). eapply G; eassumption.
    + destruct H3 as (fin & rs & E & Lr & ->). eapply G; eassumption.
    + destruct H3 as (fin & rs & x & l & -> & E & Lr & ->). eapply (G c (fin ++ [x]) l); [rewrite E, <- app_assoc; reflexivity|rewrite !app_length, Lr; reflexivity].
    + cbn in H3. subst b. exists [ERet t (Count w) (Num 0)]. exists (Count w), (Num 0), []. splits; try reflexivity. intros Q. destruct (Q eq_refl).
    + destruct H3 as (rs & Lr & -> & A). exists [ERet t c a]. exists c, a, rs. splits; auto.
Qed.
(** Two threads never hold the mutex of one bucket; no two threads are inside the functions of one bucket. *)
Theorem C177_exclusion : forall c0 s t1 t2 i, steps step (concInit c0) s -> holds (pcs s t1) = Some i -> holds (pcs s t2) = Some i -> t1 = t2.
Proof. intros c0 s t1 t2 i T H1 H2. destruct (reach_both c0 s T) as [X _]. apply X in H1, H2. congruence. Qed.

(** ** Progress and capacity *)
Definition fit (n : nat) (p : pc K V) : Prop :=
  match p with
  | Want _ ops | Hold _ ops | Did _ ops _ => ops <> [] /\ forall i o, In (i, o) ops -> (i < n)%nat
  | Mid _ ops => (exists i k v l, ops = (i, OPut k v) :: l) /\ forall i o, In (i, o) ops -> (i < n)%nat
  | _ => True
  end.
Lemma fit_step n s s' : (0 < n)%nat -> length (bks s) = n /\ (forall t, fit n (pcs s t)) -> step s s' -> length (bks s') = n /\ (forall t, fit n (pcs s' t)).
Proof.
  intros Pos [L F] T.
  assert (G : forall s' t p, length (bks s') = length (bks s) -> pcs s' = put (pcs s) t p -> fit n p -> length (bks s') = n /\ (forall t, fit n (pcs s' t))).
  { intros s1 t p H1 H2 H3. split; [congruence|]. intros t'. rewrite H2. destruct (Nat.eq_dec t' t) as [->|N]; [rewrite put_eq; exact H3|rewrite put_neq by exact N; apply F]. }
  destruct T; (eapply G; [try reflexivity; cbn; apply setNth_length|reflexivity|]); try exact I; try (specialize (F t); rewrite H in F; cbn [fit] in *; destruct F as [F1 F2]).
  - rewrite L. cbn [fit]. destruct c as [i o| |w]; cbn [opsOf].
    + split; [discriminate|]. intros j o' [E|[]]. injection E as <- <-. rewrite <- L. apply H0.
    + split; [destruct n; [lia|discriminate]|]. intros j o' Hin. apply in_map_iff in Hin as (x & E & Hin). injection E as <- <-. apply in_seq in Hin. lia.
    + destruct (H1 w eq_refl).
  - split; [discriminate|exact F2].
  - split; [discriminate|exact F2].
  - split; [discriminate|exact F2].
  - split; [do 4 eexists; reflexivity|exact F2].
  - split; [discriminate|exact F2].
  - destruct l; [exact I|]. split; [discriminate|]. intros j o' Hin. apply (F2 j o'). right. exact Hin.
Qed.
Lemma fit_reach c0 s : c0 <> [] -> steps step (concInit c0) s -> length (bks s) = length c0 /\ forall t, fit (length c0) (pcs s t).
Proof.
  intros Hne T. refine (inv_reachable step (fun s => length (bks s) = length c0 /\ forall t, fit (length c0) (pcs s t)) _ _ _ T _).
  - intros a b I H. eapply fit_step; try eassumption. destruct c0; [congruence|cbn; lia].
  - split; [reflexivity|]. intros t. exact I.
Qed.
Lemma run_idx : forall os (c : list (lru K V)) x, cacheRun keqb c os = Ret x -> forall i o, In (i, o) os -> (i < length c)%nat.
Proof.
  induction os as [|[i o] os IH]; intros c x H j o' Hin; [destruct Hin|]. cbn [cacheRun] in H. destruct (cacheAtomic keqb c i o) as [[c' y]| | |] eqn:Q; try discriminate H. cbn [obind] in H.
  assert (L : length c' = length c /\ (i < length c)%nat).
  { unfold cacheAtomic in Q. destruct (nth_error c i) eqn:N; [|discriminate Q]. destruct (bucketStep keqb l o) as [[b' z]| | |]; try discriminate Q. cbn [obind] in Q. apply Ret_inj in Q. injection Q as <- <-.
    split; [apply setNth_length|apply nth_error_Some; congruence]. }
  destruct Hin as [E|Hin]; [injection E as <- <-; apply L|]. rewrite <- (proj1 L). destruct (cacheRun keqb c' os) eqn:Q2; try discriminate H. eapply IH; eassumption.
Qed.
Lemma lruGet_map (b b' : lru K V) k x : lruGet keqb b k = Ret (b', x) -> lmap b' = lmap b.
Proof.
  unfold lruGet. cbn [lmap llist]. destruct (mfind keqb k (lmap b)) as [[v j]|]; [|intros H; apply Ret_inj in H; injection H as <- <-; reflexivity].
  destruct (node j (llist b)); [|discriminate]. destruct (keqb k k0); [|discriminate].
  match goal with |- obind ?q _ = _ -> _ => destruct q; try discriminate end. intros H. apply Ret_inj in H. injection H as <- <-. reflexivity.
Qed.
(** The next bucket function, whatever it is, returns. *)
Lemma next_returns capacity e c0 s i o b0 c : cacheNew capacity e = Ret c0 -> steps step (concInit c0) s ->
  cacheRun keqb c0 (map fst (effects (hist s))) = Ret (c, map snd (effects (hist s))) -> nth_error c i = Some b0 -> (i < length c0)%nat -> exists b' r, bucketStep keqb b0 o = Ret (b', r).
Proof.
  intros Hn T R N Hi. destruct (C14_cache_capacity keqb keqb_spec capacity e c0 (map fst (effects (hist s)) ++ [(i, o)]) Hn) as (c' & rs & Q & _).
  { intros j o' Hin. apply in_app_iff in Hin as [Hin|[E|[]]]; [eapply run_idx; eassumption|]. injection E as <- <-. exact Hi. }
  rewrite cacheRun_app, R in Q. cbn [obind fst snd cacheRun] in Q. unfold cacheAtomic in Q. rewrite N in Q. destruct (bucketStep keqb b0 o) as [[b' r]| | |]; try discriminate Q. eauto.
Qed.
Lemma new_nonempty capacity e (c0 : list (lru K V)) : cacheNew capacity e = Ret c0 -> c0 <> [].
Proof.
  unfold cacheNew. destruct (_ && _); [|discriminate]. destruct (0 <? _)%nat; [|discriminate]. intros H. apply Ret_inj in H. subst c0. intros E. apply app_eq_nil in E as [_ E]. discriminate E.
Qed.
(** A thread in the middle of a call goes on by itself, unless it waits for a mutex; then the thread that holds it goes on by itself. *)
Definition goes (s : conc) (t : nat) : Prop := exists s', step s s' /\ pcs s' t <> pcs s t /\ forall t', t' <> t -> pcs s' t' = pcs s t'.
Theorem C177_progress : forall capacity e c0 s t, cacheNew capacity e = Ret c0 -> steps step (concInit c0) s -> pcs s t <> Idle ->
  goes s t \/ exists c i o l t', pcs s t = Want c ((i, o) :: l) /\ holds (pcs s t') = Some i /\ goes s t'.
Proof.
  intros capacity e c0 s t Hn T N. destruct (reach_both c0 s T) as [X (cc & R & L & M)]. destruct (fit_reach c0 s (new_nonempty _ _ _ Hn) T) as [Lb F].
  assert (P : forall s' t p, pcs s' = put (pcs s) t p -> step s s' -> p <> pcs s t -> goes s t).
  { intros s1 t1 p H1 H2 H3. exists s1. split; [exact H2|]. rewrite H1, put_eq. split; [exact H3|]. intros t' N'. rewrite put_neq by exact N'. reflexivity. }
  assert (A : forall t, match pcs s t with Idle | Want _ _ => True | _ => goes s t end).
  { intros t1. specialize (F t1). destruct (pcs s t1) as [|c ops|c ops|c ops|c ops r|w i acc|c a] eqn:E; try exact I; cbn [fit] in F.
    - destruct F as [F1 F2]. destruct ops as [|[i o] l]; [congruence|]. assert (Hi : (i < length c0)%nat) by (apply (F2 i o); left; reflexivity).
      assert (Hh : holds (pcs s t1) = Some i) by (rewrite E; reflexivity). pose proof (proj2 (X i t1) Hh) as Hl.
      destruct (nth_error cc i) as [b0|] eqn:Q; [|exfalso; apply nth_error_None in Q; lia]. destruct (M i b0 Q) as (b & B1 & B2). rewrite (mid_not s i t1 Hl) in B2 by (rewrite E; reflexivity). subst b0.
      destruct (next_returns _ _ _ _ i o _ _ Hn T R Q Hi) as (b' & r & S1). destruct o as [k|k v|k|k v|k|];
        try (eapply P; [|eapply l_do; [exact E|reflexivity|exact B1|exact S1]|]; [reflexivity|rewrite E; discriminate]).
      cbn [bucketStep] in S1. destruct (lruGet keqb b k) as [[b1 [w|]]| | |] eqn:G1; try discriminate S1.
      + eapply P; [|eapply l_get_some; [exact E|exact B1|exact G1]|]; [reflexivity|rewrite E; discriminate].
      + eapply P; [|eapply l_get_none; [exact E|exact B1|exact G1]|]; [reflexivity|rewrite E; discriminate].
    - destruct F as [(i & k & v & l & ->) F2]. assert (Hi : (i < length c0)%nat) by (apply (F2 i (OPut k v)); left; reflexivity).
      assert (Hh : holds (pcs s t1) = Some i) by (rewrite E; reflexivity). pose proof (proj2 (X i t1) Hh) as Hl.
      destruct (nth_error cc i) as [b0|] eqn:Q; [|exfalso; apply nth_error_None in Q; lia]. destruct (M i b0 Q) as (b & B1 & B2). unfold midOf in B2. rewrite Hl, E in B2.
      destruct (next_returns _ _ _ _ i (OPut k v) _ _ Hn T R Q Hi) as (b' & r & S1). cbn [bucketStep] in S1. rewrite B2 in S1. cbn [obind] in S1.
      destruct (lruInsert keqb b k v) as [b1| | |] eqn:G1; try discriminate S1. eapply P; [|eapply l_insert; [exact E|exact B1|exact G1]|]; [reflexivity|rewrite E; discriminate].
    - destruct F as [F1 F2]. destruct ops as [|[i o] l]; [congruence|]. eapply P; [|eapply l_unlock; exact E|]; [reflexivity|rewrite E; destruct l; discriminate].
    - destruct (nth_error (bks s) i) as [b|] eqn:Q.
      + eapply P; [|eapply l_read; [exact E|exact Q]|]; [reflexivity|rewrite E; intros J; injection J as J _; lia].
      + eapply P; [|eapply l_sum; [exact E|exact Q]|]; [reflexivity|rewrite E; discriminate].
    - eapply P; [|eapply l_return; exact E|]; [reflexivity|rewrite E; discriminate]. }
  pose proof (A t) as At. destruct (pcs s t) as [|c ops|c ops|c ops|c ops r|w i acc|c a] eqn:E; try (left; exact At); [congruence|].
  specialize (F t). rewrite E in F. destruct F as [F1 F2]. destruct ops as [|[i o] l]; [congruence|]. destruct (lk s i) as [t'|] eqn:Q.
  - right. exists c, i, o, l, t'. split; [reflexivity|]. apply X in Q. split; [exact Q|]. pose proof (A t') as At'. destruct (pcs s t') as [|? []|? []|? []|? [] ?|? ? ?|? ?]; try discriminate Q; exact At'.
  - left. eapply P; [|eapply l_lock; [exact E|exact Q]|]; [reflexivity|rewrite E; discriminate].
Qed.
(** There are never more entries than the capacity, not even while calls are under way. *)
Theorem C177_capacity : forall capacity e c0 s, cacheNew capacity e = Ret c0 -> steps step (concInit c0) s ->
  (fold_right (fun b a => length (lmap b) + a) 0 (bks s) <= capacity)%nat.
Proof.
  intros capacity e c0 s Hn T. destruct (reach_both c0 s T) as [X (cc & R & L & M)].
  destruct (C14_cache_capacity keqb keqb_spec capacity e c0 (map fst (effects (hist s))) Hn) as (c' & rs & Q & Cap); [intros i o Hin; eapply run_idx; eassumption|].
  rewrite R in Q. apply Ret_inj in Q. injection Q as <- <-.
  assert (E : forall (x y : list (lru K V)), length x = length y -> (forall i b, nth_error x i = Some b -> exists b', nth_error y i = Some b' /\ lmap b' = lmap b) ->
    fold_right (fun b a => length (lmap b) + a)%nat 0%nat y = fold_right (fun b a => length (lmap b) + a)%nat 0%nat x).
  { induction x as [|b x IH]; intros [|b' y] Le H; try discriminate Le; [reflexivity|]. injection Le as Le. cbn [fold_right].
    destruct (H 0%nat b eq_refl) as (b1 & J & Q). injection J as ->. rewrite Q, (IH y Le); [reflexivity|]. intros i b2 N. apply (H (S i) b2 N). }
  rewrite (E cc (bks s) L); [exact Cap|]. intros i b0 N. destruct (M i b0 N) as (b & B1 & B2). exists b. split; [exact B1|].
  destruct (midOf s i); [|congruence]. eapply lruGet_map. exact B2.
Qed.
End Proofs.

(** The counters are read without the mutex: a thread may be reading total_ of a bucket while another is inside get() and changes it. *)
Tactic Notation "go" open_constr(c) := eapply steps_cons; [eapply c; cbn; try reflexivity|].
Theorem C177_counters_refuted : exists (c0 : list (lru Z Z)) s, cacheNew 4 1 = Ret c0 /\ steps (lstep Z.eqb) (concInit c0) s /\
  pcs s 0%nat = Sum Total 0 0 /\ pcs s 1%nat = Hold (Keyed 0 (OGet 0)) [(0%nat, OGet 0)] /\ inUse (pcs s 0%nat) = inUse (pcs s 1%nat) /\
  exists s', lstep Z.eqb s s' /\ pcs s' 0%nat = pcs s 0%nat /\ option_map ltotal (nth_error (bks s) 0) = Some 0 /\ option_map ltotal (nth_error (bks s') 0) = Some 1.
Proof.
  exists [lruNew 2; lruNew (V := Z) 2]. eexists. split; [reflexivity|]. split.
  { go (@l_count Z Z Z.eqb _ 0%nat Total). go (@l_call Z Z Z.eqb _ 1%nat (Keyed 0 (OGet 0))); [split; [lia|discriminate]|discriminate|].
    go (@l_lock Z Z Z.eqb _ 1%nat). apply steps_refl. }
  splits; try reflexivity. eexists. split; [eapply (@l_do Z Z Z.eqb _ 1%nat); cbn; reflexivity|]. splits; reflexivity.
Qed.
(** clear() is not one moment: of two entries stored one after the other while it runs, the later one is gone and the earlier one is
    still there, which no moment of clearing everything explains. *)
Definition after_ (c0 : list (lru Z Z)) (calls : list (call Z Z)) : outcome (list (lru Z Z) * list (res Z)) :=
  cacheRun Z.eqb c0 (flat_map (opsOf (length c0)) calls).
Theorem C177_clear_refuted : exists (c0 : list (lru Z Z)) s i0 i1, cacheNew 4 1 = Ret c0 /\ steps (lstep Z.eqb) (concInit c0) s /\ (forall t, pcs s t = Idle) /\
  i0 = Keyed 0 (OInsert 0 5) /\ i1 = Keyed 1 (OInsert 1 6) /\
  filter (fun e => match e with ECall _ _ | ERet _ _ _ => true | _ => false end) (rev (hist s)) =
    [ECall 0 Clear; ECall 1 i0; ERet 1 i0 (Res RUnit); ECall 1 i1; ERet 1 i1 (Res RUnit); ERet 0 Clear (Res RUnit)] /\
  map (fun p => lruContains Z.eqb (fst p) (snd p)) (combine (bks s) [0; 1]) = [true; false] /\
  forall before after c rs, [i0; i1] = before ++ after -> after_ c0 (before ++ Clear :: after) = Ret (c, rs) ->
    map (fun p => lruContains Z.eqb (fst p) (snd p)) (combine c [0; 1]) <> [true; false].
Proof.
  exists [lruNew 2; lruNew 2]. eexists. exists (Keyed 0 (OInsert 0 5)), (Keyed 1 (OInsert 1 6)). split; [reflexivity|]. split.
  { go (@l_call Z Z Z.eqb _ 0%nat Clear); [discriminate|]. go (@l_lock Z Z Z.eqb _ 0%nat). go (@l_do Z Z Z.eqb _ 0%nat). go (@l_unlock Z Z Z.eqb _ 0%nat).
    go (@l_call Z Z Z.eqb _ 1%nat (Keyed 0 (OInsert 0 5))); [split; [lia|discriminate]|discriminate|]. go (@l_lock Z Z Z.eqb _ 1%nat). go (@l_do Z Z Z.eqb _ 1%nat). go (@l_unlock Z Z Z.eqb _ 1%nat). go (@l_return Z Z Z.eqb _ 1%nat).
    go (@l_call Z Z Z.eqb _ 1%nat (Keyed 1 (OInsert 1 6))); [split; [lia|discriminate]|discriminate|]. go (@l_lock Z Z Z.eqb _ 1%nat). go (@l_do Z Z Z.eqb _ 1%nat). go (@l_unlock Z Z Z.eqb _ 1%nat). go (@l_return Z Z Z.eqb _ 1%nat).
    go (@l_lock Z Z Z.eqb _ 0%nat). go (@l_do Z Z Z.eqb _ 0%nat). go (@l_unlock Z Z Z.eqb _ 0%nat). go (@l_return Z Z Z.eqb _ 0%nat). apply steps_refl. }
  splits; try reflexivity.
  - intros [|[|t]]; reflexivity.
  - intros before after c rs E R. destruct before as [|x [|y [|z before]]].
    + cbn in E. subst after. cbn in R. injection R as <- <-. discriminate.
    + injection E as <- <-. cbn in R. injection R as <- <-. discriminate.
    + injection E as <- <- <-. cbn in R. injection R as <- <-. discriminate.
    + cbn in E. injection E as _ _ E. destruct before; discriminate E.
Qed.
(** Two threads put the same key if it is absent: one inserts, the other gets what was inserted. *)
Example C177_ex : exists (c0 : list (lru Z Z)) s, cacheNew 4 1 = Ret c0 /\ steps (lstep Z.eqb) (concInit c0) s /\ (forall t, pcs s t = Idle) /\
  effects (hist s) = [((0%nat, OPut 0 5), RInserted); ((0%nat, OPut 0 6), RVal 5)] /\
  ofThread 0 (hist s) = [ECall 0 (Keyed 0 (OPut 0 6)); EDone 0 0 (OPut 0 6) (RVal 5); ERet 0 (Keyed 0 (OPut 0 6)) (Res (RVal 5))].
Proof.
  exists [lruNew 2; lruNew 2]. eexists. split; [reflexivity|]. split.
  { go (@l_call Z Z Z.eqb _ 0%nat (Keyed 0 (OPut 0 6))); [split; [lia|discriminate]|discriminate|]. go (@l_call Z Z Z.eqb _ 1%nat (Keyed 0 (OPut 0 5))); [split; [lia|discriminate]|discriminate|].
    go (@l_lock Z Z Z.eqb _ 1%nat). go (@l_get_none Z Z Z.eqb _ 1%nat). go (@l_insert Z Z Z.eqb _ 1%nat). go (@l_unlock Z Z Z.eqb _ 1%nat).
    go (@l_lock Z Z Z.eqb _ 0%nat). go (@l_get_some Z Z Z.eqb _ 0%nat). go (@l_unlock Z Z Z.eqb _ 0%nat). go (@l_return Z Z Z.eqb _ 0%nat). go (@l_return Z Z Z.eqb _ 1%nat). apply steps_refl. }
  splits; try reflexivity. intros [|[|t]]; reflexivity.
Qed.
Print Assumptions C177_one_after_the_other. Print Assumptions C177_in_between. Print Assumptions C177_exclusion. Print Assumptions C177_progress. Print Assumptions C177_capacity.
Print Assumptions C177_counters_refuted. Print Assumptions C177_clear_refuted.
