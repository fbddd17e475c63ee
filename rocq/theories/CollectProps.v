(** Theorems for C28 (collectNSucceeded) and C29 (reservoir sampling). *)
From Verif Require Import Prelude CollectModel CollectProofs.

(** C28: after any completions (in any order) the promise has been set at most once; it is set with result r
    exactly when a moment k is due among the completions so far (n successes, or all futures done, for the first time),
    and r are the values that arrived up to k, in order of arrival.  When all have completed, it is set. *)
Theorem C28_completes_exactly_once :
  forall (V : Type) (eval : nat -> V -> bool) (total n : nat) (evs : list (nat * option V)),
  (0 < n <= total)%nat ->
  exists c, collectN eval total n evs = CPromise c /\
    (csets c <= 1)%nat /\
    (forall r, cpromise c = Some r <-> csets c = 1%nat /\ exists k, dueAt eval total n evs k /\ r = values (firstn k evs)) /\
    (length evs = total -> exists r, cpromise c = Some r).
Proof.
  intros V eval total n evs Hn. unfold collectN.
  replace (Nat.eqb n 0) with false by lia. replace (Nat.ltb total n) with false by lia.
  eexists. split; [reflexivity|]. destruct (cinv_run eval total n evs Hn) as [Ht H].
  destruct (cpromise _) as [r|].
  - destruct H as [Hs [k [Hk Hr]]]. splits.
    + lia.
    + intros r'. split.
      * intros E. injection E as <-. eauto.
      * intros [_ [k' [Hk' Hr']]]. rewrite (dueAt_unique _ _ _ _ _ _ Hk Hk') in Hr. congruence.
    + intros _. eauto.
  - destruct H as [Hs [Hr [Hc [Hg Hn']]]]. splits.
    + lia.
    + intros r'. split; [discriminate|]. intros [E _]. lia.
    + intros E. destruct (Hn' (length evs) ltac:(lia)). lia.
Qed.
Print Assumptions C28_completes_exactly_once.

Theorem C28_degenerate :
  forall (V : Type) (eval : nat -> V -> bool) (total n : nat) (evs : list (nat * option V)),
  (n = 0%nat -> collectN eval total n evs = CNow []) /\
  ((total < n)%nat -> collectN eval total n evs = CNotEnough).
Proof.
  intros V eval total n evs. unfold collectN. split; intros H; [subst; reflexivity|].
  replace (Nat.eqb n 0) with false by lia. replace (Nat.ltb total n) with true by lia. reflexivity.
Qed.
Print Assumptions C28_degenerate.

(** Five futures, 2 successes wanted: 3 fails by exception, 1 is rejected by eval, 0 and 4 succeed. *)
Example C28_example :
  let eval := fun (_ : nat) (v : Z) => 0 <? v in
  let evs := [(3%nat, None); (0%nat, Some 10); (1%nat, Some (-5)); (4%nat, Some 7); (2%nat, Some 9)] in
  dueAt eval 5 2 evs 4 /\ values (firstn 4 evs) = [(0%nat, 10); (1%nat, -5); (4%nat, 7)].
Proof.
  cbv zeta. split; [|reflexivity]. split; [cbn; lia|]. split; [right; reflexivity|].
  intros j Hj. split; [lia|]. do 4 (destruct j as [|j]; [cbn; congruence|]). lia.
Qed.

(** The comment of CollectNSucceeded.h promises "an array of succeeded values"; values rejected by the
    evaluator are in the array as well. *)
Theorem C28_only_succeeded_values_refuted :
  exists (eval : nat -> Z -> bool) total n evs c r i v,
    (0 < n <= total)%nat /\ collectN eval total n evs = CPromise c /\ cpromise c = Some r /\ In (i, v) r /\ eval i v = false.
Proof.
  exists (fun _ v => 0 <? v), 2%nat, 1%nat, [(0%nat, Some (-5)); (1%nat, Some 5)]. eexists. eexists. exists 0%nat, (-5).
  split; [lia|]. split; [reflexivity|]. split; [reflexivity|]. split; [cbn; auto|reflexivity].
Qed.
Print Assumptions C28_only_succeeded_values_refuted.

(** C29: for every stream and all draws the reservoir holds min(num, offered) samples, taken from pairwise
    different positions of the stream; no access is out of bounds. *)
Theorem C29_genuine_sample :
  forall (T : Type) (num : nat) (xs : list (T * Z)) (dflt : T),
  Z.of_nat (length xs) < two64 ->
  (forall i x d, nth_error xs i = Some (x, d) -> (num <= i)%nat -> 0 <= d) ->
  exists s ps, sampleAll (resNew (Z.of_nat num)) xs = Ret s /\
    rsamples s = map (fun p => nth p (map fst xs) dflt) ps /\ NoDup ps /\
    Forall (fun p => (p < length xs)%nat) ps /\ length (rsamples s) = Nat.min num (length xs).
Proof.
  intros T num xs dflt Hl Hd. rewrite (reservoir_run num xs dflt Hl Hd). eexists. eexists. split; [reflexivity|].
  destruct (held_props num (skipn num (map snd xs)) (length xs)) as [P1 [P2 P3]].
  cbn [rsamples]. splits; [reflexivity|assumption|assumption|]. rewrite map_length. assumption.
Qed.
Print Assumptions C29_genuine_sample.

(** C29, the exact distribution, by counting the equally likely draw sequences: after N > num offers, an element
    among the first num is kept in (num-1)/(N-1) of the cases and a later one in num/(N-1).  [held] is the set of kept
    positions of the run (C29_held_is_the_run); the i-th draw of a full reservoir ranges over 0..num+i-1 as rand64(cnt_) does. *)
Theorem C29_exact_distribution :
  forall num N j : nat, (1 <= num <= N)%nat -> (j < N)%nat ->
  keptCount num j N * (Z.of_nat N - 1) =
    (if Nat.ltb j num then Z.of_nat num - 1 else Z.of_nat num) * drawCount num N.
Proof. intros. apply kept_exact; assumption. Qed.
Print Assumptions C29_exact_distribution.

Theorem C29_held_is_the_run :
  forall (T : Type) (num : nat) (xs : list (T * Z)) (dflt : T),
  Z.of_nat (length xs) < two64 ->
  (forall i x d, nth_error xs i = Some (x, d) -> (num <= i)%nat -> 0 <= d) ->
  exists s, sampleAll (resNew (Z.of_nat num)) xs = Ret s /\
    rsamples s = map (fun p => nth p (map fst xs) dflt) (held num (skipn num (map snd xs)) (length xs)).
Proof. intros. rewrite (reservoir_run num xs dflt); auto. eexists. split; reflexivity. Qed.
Print Assumptions C29_held_is_the_run.

Example C29_example : keptCount 2 0 5 = 6 /\ keptCount 2 3 5 = 12 /\ drawCount 2 5 = 24.
Proof. vm_compute. auto. Qed.

(** So the sampling is not uniform: the element after the first num is never dropped at once, and with num = 1
    the first element is never kept.  (Uniform would be num/N for all.) *)
Theorem C29_uniform_refuted :
  (exists num N j : nat, (1 <= num < N)%nat /\ (j < N)%nat /\
     keptCount num j N * Z.of_nat N <> Z.of_nat num * drawCount num N) /\
  (forall num : nat, (1 <= num)%nat -> keptCount num num (S num) = drawCount num (S num)) /\
  (forall N : nat, (2 <= N)%nat -> keptCount 1 0 N = 0).
Proof.
  splits.
  - exists 2%nat, 5%nat, 0%nat. splits; try lia. vm_compute. discriminate.
  - intros num H. pose proof (kept_exact num num (S num)) as K. specialize (K ltac:(lia) ltac:(lia)).
    replace (Nat.ltb num num) with false in K by lia. nia.
  - intros N H. pose proof (kept_exact 1 0 N) as K. specialize (K ltac:(lia) ltac:(lia)). cbn [Nat.ltb Nat.leb] in K.
    assert (Z.of_nat N - 1 > 0) by lia. nia.
Qed.
Print Assumptions C29_uniform_refuted.
