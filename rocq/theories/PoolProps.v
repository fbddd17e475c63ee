(** C157: what is given to a pool is deleted once. *)
From Coq Require Import Permutation.
From Verif Require Import Prelude Trans PoolModel.
Local Open Scope Z_scope.

(** * Specification *)
(** the objects that a list of calls adds *)
Definition adds (p : list act) : list Z := flat_map (fun a => match a with AAdd o => [o] | AClear => [] end) p.
Definition finished (s : pool) : Prop := forall t, In t (pThreads s) -> t = mkThread None [].
(** a history: who added what, in the order in which the adding happened; each thread's own order is kept *)
Definition history (progs : list (list act)) (log : list (nat * Z)) : Prop :=
  (forall i o, In (i, o) log -> (i < length progs)%nat) /\
  forall i p, nth_error progs i = Some p -> map snd (filter (fun e => Nat.eqb (fst e) i) log) = adds p.

(** * Proofs *)
Definition doing (t : thread) : list Z := match tAt t with Some (PAdd o _) => [o] | _ => [] end.
Definition pending (t : thread) : list Z := doing t ++ adds (tTodo t).
Record inv (progs : list (list act)) (s : pool) : Prop := {
  iLen : length (pThreads s) = length progs;
  iHolds : forall i t, nth_error (pThreads s) i = Some t -> tAt t <> None -> pLock s = Some i;
  iHeld : forall i, pLock s = Some i -> exists t, nth_error (pThreads s) i = Some t /\ tAt t <> None;
  iSeen : forall i o l r, nth_error (pThreads s) i = Some (mkThread (Some (PAdd o (Some l))) r) -> l = pObjs s;
  iLog : exists log, map snd log = pDeleted s ++ pObjs s /\ (forall i o, In (i, o) log -> (i < length progs)%nat) /\
    forall i t p, nth_error (pThreads s) i = Some t -> nth_error progs i = Some p ->
      map snd (filter (fun e => Nat.eqb (fst e) i) log) ++ pending t = adds p }.
Lemma start_inv progs : inv progs (start progs).
Proof.
  split; cbn.
  - apply map_length.
  - intros i t H. rewrite nth_error_map in H. destruct (nth_error progs i); [|discriminate]. injection H as <-. cbn. congruence.
  - discriminate.
  - intros i o l r H. rewrite nth_error_map in H. destruct (nth_error progs i); discriminate.
  - exists []. splits; auto; [intros ? ? []|]. intros i t p H P. rewrite nth_error_map, P in H. injection H as <-. reflexivity.
Qed.
(** a thread inside a call has the lock, so a step of another keeps it out *)
Lemma alone progs s i t j t' : inv progs s -> nth_error (pThreads s) i = Some t -> tAt t <> None ->
  nth_error (pThreads s) j = Some t' -> tAt t' <> None -> j = i.
Proof. intros I H A H' A'. apply (iHolds _ _ I) in H; auto. apply (iHolds _ _ I) in H'; auto. congruence. Qed.
Lemma step_inv uses progs s s' : inv progs s -> pstep uses s s' -> inv progs s'.
Proof.
  intros I H. destruct H as [s i a r Hi Hl|s i o r Hi|s i o l r Hi|s i o l r Hi Ho _|s i r Hi Ho].
  - assert (Li := nth_some_lt _ _ _ Hi).
    assert (None_ : forall j t, nth_error (pThreads s) j = Some t -> tAt t = None).
    { intros j t Hj. destruct (tAt t) eqn:E; auto. assert (X : pLock s = Some j) by (eapply (iHolds _ _ I); eauto; congruence). congruence. }
    split; cbn.
    + rewrite supd_length. apply I.
    + intros j t Hj A. rewrite nth_supd in Hj by auto. destruct (Nat.eqb_spec j i); [subst; auto|]. apply None_ in Hj. congruence.
    + intros j Hj. injection Hj as <-. exists (mkThread (Some (enter a)) r). rewrite nth_supd, Nat.eqb_refl by auto. cbn. split; [auto|discriminate].
    + intros j o l r' Hj. rewrite nth_supd in Hj by auto. destruct (Nat.eqb_spec j i); [destruct a; discriminate|]. apply None_ in Hj. discriminate.
    + destruct (iLog _ _ I) as (log & L1 & L2 & L3). exists log. splits; auto. intros j t p Hj P. rewrite nth_supd in Hj by auto.
      destruct (Nat.eqb_spec j i); [|eauto]. subst. injection Hj as <-. rewrite <- (L3 _ _ _ Hi P). destruct a; reflexivity.
  - assert (Li := nth_some_lt _ _ _ Hi).
    split; cbn.
    + rewrite supd_length. apply I.
    + intros j t Hj A. rewrite nth_supd in Hj by auto. destruct (Nat.eqb_spec j i); [subst; apply (iHolds _ _ I _ _ Hi); discriminate|].
      eapply (iHolds _ _ I); eauto.
    + intros j Hj. destruct (iHeld _ _ I _ Hj) as (t & T1 & T2). rewrite nth_supd by auto. destruct (Nat.eqb_spec j i); eauto.
      eexists. split; [reflexivity|]. discriminate.
    + intros j o' l r' Hj. rewrite nth_supd in Hj by auto. destruct (Nat.eqb_spec j i); [injection Hj as <- <- <-; auto|].
      eapply (iSeen _ _ I); eauto.
    + destruct (iLog _ _ I) as (log & L1 & L2 & L3). exists log. splits; auto. intros j t p Hj P. rewrite nth_supd in Hj by auto.
      destruct (Nat.eqb_spec j i); [|eauto]. subst. injection Hj as <-. rewrite <- (L3 _ _ _ Hi P). reflexivity.
  - assert (Li := nth_some_lt _ _ _ Hi). pose proof (iSeen _ _ I _ _ _ _ Hi). subst l.
    assert (None_ : forall j t, j <> i -> nth_error (pThreads s) j = Some t -> tAt t = None).
    { intros j t Nj Hj. destruct (tAt t) eqn:E; auto. exfalso. apply Nj. eapply (alone _ _ _ _ _ _ I Hi); [discriminate|exact Hj|congruence]. }
    split; cbn.
    + rewrite supd_length. apply I.
    + intros j t Hj A. rewrite nth_supd in Hj by auto. destruct (Nat.eqb_spec j i); [injection Hj as <-; cbn in A; congruence|].
      apply None_ in Hj; auto. congruence.
    + discriminate.
    + intros j o' l r' Hj. rewrite nth_supd in Hj by auto. destruct (Nat.eqb_spec j i); [discriminate|]. apply None_ in Hj; auto. discriminate.
    + destruct (iLog _ _ I) as (log & L1 & L2 & L3). exists (log ++ [(i, o)]). splits.
      * rewrite map_app, L1, app_assoc. reflexivity.
      * intros j o' Hin. apply in_app_or in Hin. destruct Hin as [Hin|[E|[]]]; eauto. injection E as <- <-. rewrite <- (iLen _ _ I). auto.
      * intros j t p Hj P. rewrite nth_supd in Hj by auto. rewrite filter_app, map_app. cbn [filter fst]. rewrite (Nat.eqb_sym i j).
        destruct (Nat.eqb_spec j i); cbn [map snd].
        -- subst. injection Hj as <-. rewrite <- (L3 _ _ _ Hi P). unfold pending. cbn. rewrite <- app_assoc. reflexivity.
        -- rewrite app_nil_r. eauto.
  - assert (Li := nth_some_lt _ _ _ Hi).
    split; cbn; try apply I.
    + intros j o' l' r' Hj. exfalso. assert (j = i) by (eapply (alone _ _ _ _ _ _ I Hi); [discriminate|exact Hj|discriminate]). subst. congruence.
    + destruct (iLog _ _ I) as (log & L1 & L2 & L3). exists log. splits; auto. rewrite L1, Ho, <- app_assoc. reflexivity.
  - assert (Li := nth_some_lt _ _ _ Hi).
    assert (None_ : forall j t, j <> i -> nth_error (pThreads s) j = Some t -> tAt t = None).
    { intros j t Nj Hj. destruct (tAt t) eqn:E; auto. exfalso. apply Nj. eapply (alone _ _ _ _ _ _ I Hi); [discriminate|exact Hj|congruence]. }
    split; cbn.
    + rewrite supd_length. apply I.
    + intros j t Hj A. rewrite nth_supd in Hj by auto. destruct (Nat.eqb_spec j i); [injection Hj as <-; cbn in A; congruence|].
      apply None_ in Hj; auto. congruence.
    + discriminate.
    + intros j o' l r' Hj. rewrite nth_supd in Hj by auto. destruct (Nat.eqb_spec j i); [discriminate|]. apply None_ in Hj; auto. discriminate.
    + destruct (iLog _ _ I) as (log & L1 & L2 & L3). exists log. splits; auto.
      * rewrite L1, Ho. reflexivity.
      * intros j t p Hj P. rewrite nth_supd in Hj by auto. destruct (Nat.eqb_spec j i); [|eauto]. subst. injection Hj as <-.
        rewrite <- (L3 _ _ _ Hi P). reflexivity.
Qed.
Lemma reach_inv uses progs s : steps (pstep uses) (start progs) s -> inv progs s.
Proof. intros H. eapply inv_reachable; [|exact H|apply start_inv]. intros a b. apply step_inv. Qed.

(** When the threads are done and the pool is gone, the deleted objects are those that were added, each as often as it was added, in the order in
    which the adding happened. *)
Theorem C157_all : forall uses progs s, steps (pstep uses) (start progs) s -> finished s ->
  exists log, history progs log /\ destroyed s = map snd log.
Proof.
  intros uses progs s H F. apply reach_inv in H. destruct (iLog _ _ H) as (log & L1 & L2 & L3). exists log. splits; auto.
  split; auto. intros i p P. assert (Li := nth_some_lt _ _ _ P). rewrite <- (iLen _ _ H) in Li.
  destruct (nth_error (pThreads s) i) as [t|] eqn:T; [|apply nth_error_None in T; lia].
  pose proof (L3 _ _ _ T P) as X. apply nth_error_In in T. rewrite (F _ T) in X. cbn in X. rewrite app_nil_r in X. exact X.
Qed.

Lemma log_perm (progs : list (list act)) (log : list (nat * Z)) (f : list act -> list Z) :
  (forall i o, In (i, o) log -> (i < length progs)%nat) ->
  (forall i p, nth_error progs i = Some p -> map snd (filter (fun e => Nat.eqb (fst e) i) log) = f p) ->
  Permutation (map snd log) (flat_map f progs).
Proof.
  revert log. induction progs as [|p progs IH] using rev_ind; intros log B E.
  - destruct log as [|[i o] log]; [apply Permutation_refl|]. specialize (B i o (or_introl eq_refl)). cbn in B. lia.
  - rewrite flat_map_app. cbn. rewrite app_nil_r.
    assert (P : forall l : list (nat * Z), Permutation l (filter (fun e => negb (Nat.eqb (fst e) (length progs))) l ++ filter (fun e => Nat.eqb (fst e) (length progs)) l)).
    { induction l as [|x l IHl]; [apply Permutation_refl|]. cbn. destruct (Nat.eqb (fst x) (length progs)); cbn.
      - rewrite IHl at 1. apply Permutation_middle.
      - constructor. exact IHl. }
    rewrite (Permutation_map snd (P log)), map_app. apply Permutation_app.
    + apply IH.
      * intros i o H. apply filter_In in H. destruct H as [H N]. apply B in H. rewrite app_length in H. cbn in H. cbn in N.
        destruct (Nat.eqb_spec i (length progs)); [discriminate|lia].
      * intros i q Q. rewrite <- (E i q); [|rewrite nth_error_app1; auto; eapply nth_some_lt; eauto]. apply nth_some_lt in Q. f_equal.
        clear - Q. induction log as [|[j o] log IHl]; auto. cbn. destruct (Nat.eqb_spec j (length progs)); cbn; [subst|].
        -- destruct (Nat.eqb_spec (length progs) i); [lia|exact IHl].
        -- destruct (Nat.eqb j i); [f_equal|]; exact IHl.
    + rewrite (E (length progs) p); [apply Permutation_refl|]. rewrite nth_error_app2, Nat.sub_diag by lia. reflexivity.
Qed.
(** If no object is given to the pool twice, no object is ever deleted twice, and in the end each was deleted exactly once. *)
Theorem C157_once : forall uses progs s, NoDup (flat_map adds progs) -> steps (pstep uses) (start progs) s ->
  NoDup (destroyed s) /\ (finished s -> forall o, In o (destroyed s) <-> In o (flat_map adds progs)).
Proof.
  intros uses progs s N H. pose proof (reach_inv _ _ _ H) as I. split.
  - destruct (iLog _ _ I) as (log & L1 & L2 & L3). unfold destroyed. rewrite <- L1.
    (* what is in the log of a thread is a prefix of what it adds *)
    assert (S : forall (log : list (nat * Z)) ts ps, length ts = length ps -> (forall i o, In (i, o) log -> (i < length ps)%nat) ->
      (forall i t p, nth_error ts i = Some t -> nth_error ps i = Some p -> map snd (filter (fun e => Nat.eqb (fst e) i) log) ++ pending t = adds p) ->
      Permutation (map snd log ++ flat_map pending ts) (flat_map adds ps)).
    { clear. intros log ts. revert log. induction ts as [|t ts IH] using rev_ind; intros log ps Le B E.
      - destruct ps; [|discriminate]. destruct log as [|[i o] log]; [apply Permutation_refl|]. specialize (B i o (or_introl eq_refl)). cbn in B. lia.
      - destruct ps as [|p ps _] using rev_ind; [rewrite app_length in Le; cbn in Le; lia|]. rewrite !app_length in Le. cbn in Le.
        rewrite !flat_map_app. cbn. rewrite !app_nil_r.
        assert (P : forall l : list (nat * Z), Permutation l (filter (fun e => negb (Nat.eqb (fst e) (length ps))) l ++ filter (fun e => Nat.eqb (fst e) (length ps)) l)).
        { induction l as [|x l IHl]; [apply Permutation_refl|]. cbn. destruct (Nat.eqb (fst x) (length ps)); cbn.
          - rewrite IHl at 1. apply Permutation_middle.
          - constructor. exact IHl. }
        rewrite (Permutation_map snd (P log)), map_app.
        rewrite <- (E (length ps) t p); [|rewrite nth_error_app2 by lia; replace (length ps - length ts)%nat with 0%nat by lia; reflexivity|
                                         rewrite nth_error_app2 by lia; rewrite Nat.sub_diag; reflexivity].
        rewrite <- (IH (filter (fun e => negb (Nat.eqb (fst e) (length ps))) log) ps).
        + set (A := map snd (filter _ log)). set (C := map snd (filter _ log)). rewrite <- !app_assoc. apply Permutation_app_head.
          rewrite app_assoc. rewrite (Permutation_app_comm C). rewrite <- app_assoc. apply Permutation_refl.
        + lia.
        + intros i o H. apply filter_In in H. destruct H as [H Nn]. apply B in H. rewrite app_length in H. cbn in H. cbn in Nn.
          destruct (Nat.eqb_spec i (length ps)); [discriminate|lia].
        + intros i t' q T Q. rewrite <- (E i t' q); [|rewrite nth_error_app1; auto; eapply nth_some_lt; eauto..].
          apply nth_some_lt in Q. f_equal. f_equal.
          clear - Q. induction log as [|[j o] log IHl]; auto. cbn. destruct (Nat.eqb_spec j (length ps)); cbn; [subst|].
          * destruct (Nat.eqb_spec (length ps) i); [lia|exact IHl].
          * destruct (Nat.eqb j i); [f_equal|]; exact IHl. }
    specialize (S log (pThreads s) progs (iLen _ _ I) L2 L3). eapply Permutation_NoDup in N; [|apply Permutation_sym; exact S].
    clear - N. revert N. generalize (flat_map pending (pThreads s)). intros m. induction (map snd log) as [|x l IH]; cbn; intros N; constructor; inversion N; subst; auto.
    intros Hx. match goal with H : ~ In x (l ++ m) |- _ => apply H end. apply in_or_app. auto.
  - intros F. destruct (C157_all _ _ _ H F) as (log & [B E] & ->). intros o. pose proof (log_perm progs log adds B E) as P.
    split; apply Permutation_in; [exact P|apply Permutation_sym; exact P].
Qed.

(** If no destructor uses the pool, there is always a thread that can go on until all are done, *)
Theorem C157_progress : forall uses progs s, (forall o, uses o = false) -> steps (pstep uses) (start progs) s ->
  finished s \/ exists s', pstep uses s s'.
Proof.
  intros uses progs s U H. pose proof (reach_inv _ _ _ H) as I.
  assert (X : (exists i t, nth_error (pThreads s) i = Some t /\ t <> mkThread None []) \/ finished s).
  { unfold finished. clear. induction (pThreads s) as [|t l IH]; [right; intros ? []|]. destruct t as [[ph|] td].
    - left. exists 0%nat. eexists. split; [reflexivity|discriminate].
    - destruct td; [|left; exists 0%nat; eexists; split; [reflexivity|discriminate]].
      destruct IH as [(i & t & A & B)|IH]; [left; exists (S i), t; auto|]. right. intros t [<-|J]; auto. }
  destruct X as [(i & t & T & N)|F]; auto. right. destruct (pLock s) as [j|] eqn:L.
  - destruct (iHeld _ _ I _ L) as ([[ph|] r] & J & A); [|cbn in A; congruence]. destruct ph as [o [l|]|].
    + eexists. eapply step_write. exact J.
    + eexists. eapply step_read. exact J.
    + destruct (pObjs s) as [|o l] eqn:O; eexists; [eapply step_cleared; eauto|eapply step_delete; eauto].
  - destruct t as [[ph|] [|a r]]; [| | congruence|].
    + assert (pLock s = Some i) by (apply (iHolds _ _ I _ _ T); discriminate). congruence.
    + assert (pLock s = Some i) by (apply (iHolds _ _ I _ _ T); discriminate). congruence.
    + eexists. eapply step_lock; eauto.
Qed.
(** and all are done after a number of steps that depends only on the calls: four for an object, two for a clear() *)
Definition work (p : list act) : nat := list_sum (map (fun a => match a with AAdd _ => 4 | AClear => 2 end) p)%nat.
Definition left (t : thread) : nat :=
  ((match tAt t with Some (PAdd _ None) => 3 | Some (PAdd _ (Some _)) => 2 | Some PClear => 1 | None => 0 end) + work (tTodo t))%nat.
Definition leftAll (s : pool) : nat := (length (pObjs s) + list_sum (map left (pThreads s)))%nat.
Inductive nsteps (uses : Z -> bool) : nat -> pool -> pool -> Prop :=
| nsteps_0 s : nsteps uses 0 s s
| nsteps_S n a b c : nsteps uses n a b -> pstep uses b c -> nsteps uses (S n) a c.
Lemma sum_supd i t' t l : nth_error l i = Some t -> (list_sum (map left (supd i t' l)) + left t = list_sum (map left l) + left t')%nat.
Proof.
  revert i. induction l as [|x l IH]; intros [|i] H; cbn in *; try discriminate.
  - injection H as ->. unfold list_sum in *. lia.
  - specialize (IH i H). unfold list_sum in *. lia.
Qed.
Lemma left_first a r : left (mkThread None (a :: r)) = ((match a with AAdd _ => 4 | AClear => 2 end) + work r)%nat.
Proof. unfold left, work, list_sum. reflexivity. Qed.
Lemma step_less uses progs s s' : inv progs s -> pstep uses s s' -> (leftAll s' < leftAll s)%nat.
Proof.
  intros I H. unfold leftAll. destruct H as [s i a r Hi Hl|s i o r Hi|s i o l r Hi|s i o l r Hi Ho _|s i r Hi Ho]; cbn [pObjs pThreads].
  - pose proof (sum_supd i (mkThread (Some (enter a)) r) _ _ Hi) as X. rewrite left_first in X. destruct a; cbn [enter] in X |- *; change (left (mkThread (Some (PAdd o None)) r)) with (3 + work r)%nat in X || change (left (mkThread (Some PClear) r)) with (1 + work r)%nat in X; lia.
  - pose proof (sum_supd i (mkThread (Some (PAdd o (Some (pObjs s)))) r) _ _ Hi) as X. unfold left at 2 4 in X. cbn in X. lia.
  - pose proof (iSeen _ _ I _ _ _ _ Hi). subst l. pose proof (sum_supd i (mkThread None r) _ _ Hi) as X. unfold left at 2 4 in X. cbn in X.
    rewrite app_length. cbn. lia.
  - rewrite Ho. cbn. lia.
  - pose proof (sum_supd i (mkThread None r) _ _ Hi) as X. unfold left at 2 4 in X. cbn in X. rewrite Ho. cbn. lia.
Qed.
Theorem C157_ends : forall uses progs n s, nsteps uses n (start progs) s -> (n <= list_sum (map work progs))%nat.
Proof.
  intros uses progs n s H. assert (X : inv progs s /\ (n + leftAll s <= leftAll (start progs))%nat).
  { remember (start progs) as s0 eqn:E. induction H as [s|n a b c H IH St]; subst; [split; [apply start_inv|lia]|].
    destruct (IH eq_refl) as [I L]. split; [eapply step_inv; eauto|]. pose proof (step_less _ _ _ _ I St). lia. }
  destruct X as [_ X]. assert (E : leftAll (start progs) = list_sum (map work progs)) by (unfold leftAll, start; cbn; rewrite map_map; reflexivity). lia.
Qed.

(** * Concrete cases *)
Example C157_example : exists s, steps (pstep (fun _ => false)) (start [[AAdd 1; AAdd 2]; [AAdd 3; AClear]]) s /\
  finished s /\ destroyed s = [1; 3; 2] /\ NoDup (flat_map adds [[AAdd 1; AAdd 2]; [AAdd 3; AClear]]).
Proof.
  eexists. splits.
  - eapply steps_cons; [apply (step_lock _ _ 0%nat); reflexivity|cbn]. eapply steps_cons; [apply (step_read _ _ 0%nat); reflexivity|cbn].
    eapply steps_cons; [eapply (step_write _ _ 0%nat); reflexivity|cbn]. eapply steps_cons; [apply (step_lock _ _ 1%nat); reflexivity|cbn].
    eapply steps_cons; [apply (step_read _ _ 1%nat); reflexivity|cbn]. eapply steps_cons; [eapply (step_write _ _ 1%nat); reflexivity|cbn].
    eapply steps_cons; [apply (step_lock _ _ 1%nat); reflexivity|cbn]. eapply steps_cons; [eapply (step_delete _ _ 1%nat); reflexivity|cbn].
    eapply steps_cons; [eapply (step_delete _ _ 1%nat); reflexivity|cbn]. eapply steps_cons; [eapply (step_cleared _ _ 1%nat); reflexivity|cbn].
    eapply steps_cons; [apply (step_lock _ _ 0%nat); reflexivity|cbn]. eapply steps_cons; [apply (step_read _ _ 0%nat); reflexivity|cbn].
    eapply steps_cons; [eapply (step_write _ _ 0%nat); reflexivity|cbn]. apply steps_refl.
  - intros t [<-|[<-|[]]]; reflexivity.
  - reflexivity.
  - cbn. repeat constructor; cbn; intuition discriminate.
Qed.
(** an object that is given to the pool twice is deleted twice *)
Theorem C157_twice_refuted : exists progs s, steps (pstep (fun _ => false)) (start progs) s /\ finished s /\ ~ NoDup (destroyed s).
Proof.
  exists [[AAdd 1; AAdd 1]]. eexists. splits.
  - eapply steps_cons; [apply (step_lock _ _ 0%nat); reflexivity|cbn]. eapply steps_cons; [apply (step_read _ _ 0%nat); reflexivity|cbn].
    eapply steps_cons; [eapply (step_write _ _ 0%nat); reflexivity|cbn]. eapply steps_cons; [apply (step_lock _ _ 0%nat); reflexivity|cbn].
    eapply steps_cons; [apply (step_read _ _ 0%nat); reflexivity|cbn]. eapply steps_cons; [eapply (step_write _ _ 0%nat); reflexivity|cbn]. apply steps_refl.
  - intros t [<-|[]]. reflexivity.
  - cbn. intros N. inversion N; subst. cbn in *. tauto.
Qed.
(** clear() on an object whose destructor uses the pool holds the lock for ever: every other thread waits *)
Theorem C157_deadlock_refuted : exists uses progs s, steps (pstep uses) (start progs) s /\ NoDup (flat_map adds progs) /\
  ~ finished s /\ forall s', ~ pstep uses s s'.
Proof.
  exists (fun o => o =? 1), [[AAdd 1; AClear]; [AAdd 2]]. eexists. splits.
  - eapply steps_cons; [apply (step_lock _ _ 0%nat); reflexivity|cbn]. eapply steps_cons; [apply (step_read _ _ 0%nat); reflexivity|cbn].
    eapply steps_cons; [eapply (step_write _ _ 0%nat); reflexivity|cbn]. eapply steps_cons; [apply (step_lock _ _ 0%nat); reflexivity|cbn]. apply steps_refl.
  - cbn. repeat constructor; cbn; intuition discriminate.
  - intros F. specialize (F _ (or_introl eq_refl)). discriminate.
  - intros s' H. inversion H as [s i a r Hi Hl|s i o r Hi|s i o l r Hi|s i o l r Hi Ho U|s i r Hi Ho]; subst; cbn in *; try discriminate.
    + destruct i as [|[|[|]]]; cbn in Hi; discriminate.
    + destruct i as [|[|[|]]]; cbn in Hi; discriminate.
    + injection Ho as <- <-. discriminate.
Qed.

Print Assumptions C157_all. Print Assumptions C157_once. Print Assumptions C157_progress. Print Assumptions C157_ends.
Print Assumptions C157_twice_refuted. Print Assumptions C157_deadlock_refuted.
