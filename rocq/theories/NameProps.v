(** C160: the names and the ids of threads. *)
From Coq Require Import String List.
From Verif Require Import Prelude ValueBase CloneModel Trans AssocModel NameModel.
Import ListNotations.
Local Open Scope Z_scope.

(** * Specification *)
(** what the kernel keeps: at most 15 bytes, no NUL *)
Definition validName (p : str) : Prop := (length p <= 15)%nat /\ ~ In 0 p.
(** [p] is what is left of [n]: all of it, or up to its first NUL, or 15 bytes *)
Definition isCut (n p : str) : Prop :=
  validName p /\ exists rest, n = p ++ rest /\ (rest = [] \/ hd 1 rest = 0 \/ length p = 15%nat).
(** states of a process whose first thread is named [nm] and runs [p] *)
Definition reach (nm : str) (p : list op) (s : sys) : Prop := steps tstep (first nm p) s.
Definition touches (i : nat) (o : op) : Prop := match o with OOpen j _ | OClose j => j = i | _ => False end.
Fixpoint noFork (o : op) : bool := match o with OFork _ => false | OSpawn _ p => forallb noFork p | _ => true end.

(** * Proofs *)
Lemma cut_ok : forall n s, ((length (cutAt n s) <= n)%nat /\ ~ In 0 (cutAt n s)) /\
  exists rest, s = cutAt n s ++ rest /\ (rest = [] \/ hd 1 rest = 0 \/ length (cutAt n s) = n).
Proof.
  induction n as [|n IH]; intros s.
  - cbn. split; [split; [lia|tauto]|]. exists s. auto.
  - destruct s as [|c s]; cbn [cutAt]. { split; [split; [cbn; lia|tauto]|]. exists []. auto. }
    destruct (Z.eqb_spec c 0) as [->|E]. { split; [split; [cbn; lia|tauto]|]. exists (0 :: s). auto. }
    destruct (IH s) as [[A1 A2] [rest [B1 B2]]]. split.
    + cbn [length]. split; [lia|]. intros [H|H]; [congruence|tauto].
    + exists rest. split; [cbn; congruence|]. cbn [length]. destruct B2 as [B|[B|B]]; auto.
Qed.
Lemma kernel_cut n : isCut n (kernelName n).
Proof. destruct (cut_ok 15 n) as [A B]. split; assumption. Qed.
Lemma cut_id : forall n s, (length s <= n)%nat -> ~ In 0 s -> cutAt n s = s.
Proof.
  induction n as [|n IH]; intros [|c s] L N; cbn in *; try lia; auto.
  destruct (Z.eqb_spec c 0) as [->|E]; [tauto|]. rewrite IH; [reflexivity|lia|tauto].
Qed.
Lemma kernel_id s : validName s -> kernelName s = s.
Proof. intros [A B]. apply cut_id; assumption. Qed.

(** a thread by itself *)
Definition one (t : th) (o : op) : th := fst (exec t o 0).
Definition run (t : th) (os : list op) : th := fold_left one os t.
Lemma exec_one t o f : fst (exec t o f) = one t o.
Proof. destruct o; reflexivity. Qed.
Lemma one_prog t o : tProg (one t o) = tl (tProg t).
Proof. destruct o; try reflexivity. cbn. destruct (aget Nat.eqb i (tObjs t)); reflexivity. Qed.
Lemma one_id t o : tId (one t o) = tId t.
Proof. destruct o; try reflexivity. cbn. destruct (aget Nat.eqb i (tObjs t)); reflexivity. Qed.

Lemma local_step s s' k t : tstep s s' -> nth_error s k = Some t ->
  nth_error s' k = Some t \/ exists o r, tProg t = o :: r /\ nth_error s' k = Some (one t o).
Proof.
  intros St N. inversion St as [s0 i u o r u' c Ni P E]; subst. pose proof (nth_some_lt _ _ _ Ni) as Li.
  rewrite nth_error_app1 by (rewrite supd_length; eapply nth_some_lt; eassumption).
  rewrite nth_supd by assumption. destruct (Nat.eqb_spec k i) as [->|D]; [|auto].
  right. exists o, r. assert (u = t) as -> by congruence. split; [assumption|]. rewrite <- (exec_one t o (length s)), E. reflexivity.
Qed.
Lemma local_steps s s' k t : steps tstep s s' -> nth_error s k = Some t ->
  exists done t', nth_error s' k = Some t' /\ tProg t = done ++ tProg t' /\ t' = run t done.
Proof.
  intros H N. induction H as [s|s s1 s2 H IH St]. { exists [], t. auto. }
  destruct (IH N) as [done [t1 [N1 [P1 R1]]]]. destruct (local_step _ _ _ _ St N1) as [N2|[o [r [P2 N2]]]].
  - exists done, t1. auto.
  - exists (done ++ [o]), (one t1 o). split; [assumption|]. rewrite one_prog, P2. cbn [tl]. rewrite <- app_assoc. cbn.
    split; [congruence|]. unfold run in *. rewrite fold_left_app. cbn. congruence.
Qed.
Lemma local_done s s' k t t' os : steps tstep s s' -> nth_error s k = Some t -> nth_error s' k = Some t' -> tProg t = os ++ tProg t' ->
  t' = run t os.
Proof.
  intros H N N' P. destruct (local_steps _ _ _ _ H N) as [done [u [Nu [Pu R]]]]. assert (u = t') as -> by congruence.
  rewrite P in Pu. apply app_inv_tail in Pu. congruence.
Qed.

(** names are valid at all times *)
Definition okTh (t : th) : Prop :=
  validName (tName t) /\ NoDup (akeys (tObjs t)) /\ forall i p, aget Nat.eqb i (tObjs t) = Some p -> validName p.
Lemma valid_kernel n : validName (kernelName n).
Proof. apply kernel_cut. Qed.
Lemma ok_exec t o f : okTh t -> okTh (fst (exec t o f)) /\ forall u, snd (exec t o f) = Some u -> okTh u.
Proof.
  intros [V [D O]]. split.
  - destruct o; cbn [exec fst]; try (split; [|split]; cbn [tName tObjs]; auto using valid_kernel; fail).
    + split; [apply valid_kernel|split; cbn [tObjs]]. { apply (aset_keys Nat.eqb Nat.eqb_eq), D. }
      intros j p. rewrite (aget_aset Nat.eqb Nat.eqb_eq). destruct (Nat.eqb j i); [congruence|apply O].
    + destruct (aget Nat.eqb i (tObjs t)) as [prev|] eqn:E; cbn; [|split; [|split]; cbn; auto].
      split; [apply valid_kernel|split; cbn [tObjs]]. { apply (adel_keys Nat.eqb Nat.eqb_eq), D. }
      intros j p. rewrite (aget_adel Nat.eqb Nat.eqb_eq) by assumption. destruct (Nat.eqb j i); [discriminate|apply O].
  - destruct o; cbn [exec snd]; intros u E; try discriminate; injection E as <-.
    + split; [assumption|split; cbn [tObjs akeys]; [constructor|intros; discriminate]].
    + split; [|split]; cbn [tName tObjs]; auto.
Qed.
Lemma ok_one t o : okTh t -> okTh (one t o).
Proof. intros H. apply (proj1 (ok_exec t o 0 H)). Qed.
Lemma ok_reach nm p s : validName nm -> reach nm p s -> Forall okTh s.
Proof.
  intros V R. eapply inv_reachable with (inv := fun s => Forall okTh s); [|exact R|].
  - clear. intros s s' F St. inversion St as [s0 i t o r t' c N P E]; subst.
    assert (Ht : okTh t) by (eapply Forall_forall; [exact F|eapply nth_error_In; exact N]).
    destruct (ok_exec t o (length s) Ht) as [A B]. rewrite E in A, B. cbn in A, B. apply Forall_app. split.
    + clear - F A. revert i. induction F as [|x l Hx F IH]; intros [|i]; cbn; constructor; auto.
    + destruct c; constructor; auto.
  - constructor; [|constructor]. split; [assumption|split; cbn; [constructor|intros; discriminate]].
Qed.
Lemma ok_at nm p s k t : validName nm -> reach nm p s -> nth_error s k = Some t -> okTh t.
Proof. intros V R N. eapply Forall_forall; [eapply ok_reach; eassumption|eapply nth_error_In; exact N]. Qed.

(** what a thread does without touching a Nominator leaves its prevName_ alone *)
Lemma untouched i : forall os t, okTh t -> Forall (fun o => ~ touches i o) os -> okTh (run t os) /\ aget Nat.eqb i (tObjs (run t os)) = aget Nat.eqb i (tObjs t).
Proof.
  induction os as [|o os IH]; intros t K F; [auto|]. inversion F as [|? ? Ho F']; subst. cbn [run fold_left].
  destruct (IH (one t o) (ok_one t o K) F') as [A B]. split; [exact A|]. unfold run in B. rewrite B. clear - Ho K.
  destruct o; try reflexivity; cbn in *.
  - rewrite (aget_aset Nat.eqb Nat.eqb_eq). destruct (Nat.eqb_spec i i0); [congruence|reflexivity].
  - destruct (aget Nat.eqb i0 (tObjs t)); [|reflexivity]. cbn. destruct K as [_ [D _]].
    rewrite (aget_adel Nat.eqb Nat.eqb_eq) by assumption. destruct (Nat.eqb_spec i i0); [congruence|reflexivity].
Qed.

(** * C160 *)
(** Whatever the other threads do: after set, get gives the name, cut as the kernel does. *)
Theorem C160_read : forall nm p s s' k t t' n, validName nm -> reach nm p s -> steps tstep s s' ->
  nth_error s k = Some t -> nth_error s' k = Some t' -> tProg t = OSet n :: OGet :: tProg t' ->
  isCut n (tName t') /\ tLog t' = tLog t ++ [ERead (tName t')].
Proof.
  intros nm p s s' k t t' n V R H N N' P. rewrite (local_done s s' k t t' [OSet n; OGet] H N N' P). cbn. split; [apply kernel_cut|reflexivity].
Qed.
(** Inside the scope of a Nominator the thread has its name; after it, the name that it had before, whatever it does in between,
    renaming itself and leaving other Nominators alive included, and whatever the other threads do. *)
Theorem C160_scope : forall nm p s s' k t t' i n body r, validName nm -> reach nm p s -> steps tstep s s' ->
  nth_error s k = Some t -> nth_error s' k = Some t' ->
  tProg t = OOpen i n :: body ++ OClose i :: r -> Forall (fun o => ~ touches i o) body ->
  (tProg t' = body ++ OClose i :: r -> isCut n (tName t')) /\
  (tProg t' = r -> tName t' = tName t).
Proof.
  intros nm p s s' k t t' i n body r V R H N N' P F. pose proof (ok_at _ _ _ _ _ V R N) as K. split; intros Q.
  - rewrite (local_done s s' k t t' [OOpen i n] H N N'); [apply kernel_cut|]. rewrite Q. exact P.
  - rewrite (local_done s s' k t t' (OOpen i n :: body ++ [OClose i]) H N N').
    2:{ rewrite Q, P. cbn. rewrite <- app_assoc. reflexivity. }
    unfold run. cbn [fold_left]. rewrite fold_left_app. cbn [fold_left].
    destruct (untouched i body (one t (OOpen i n)) (ok_one _ _ K) F) as [_ G]. unfold run in G.
    set (m := fold_left one body (one t (OOpen i n))) in *. cbn in G. rewrite (aget_aset Nat.eqb Nat.eqb_eq), Nat.eqb_refl in G.
    unfold one. cbn [exec fst]. rewrite G. cbn. apply kernel_id. apply K.
Qed.
(** A NamedThread runs under its name; without one, under the name of the thread that started it. That one keeps its name. *)
Theorem C160_thread : forall nm p s s' k t t' n q, validName nm -> reach nm p s -> tstep s s' ->
  nth_error s k = Some t -> nth_error s' k = Some t' -> tProg t = OSpawn n q :: tProg t' ->
  tName t' = tName t /\ length s' = S (length s) /\
  forall s2 u, steps tstep s' s2 -> nth_error s2 (length s) = Some u -> tProg u = q ->
    (n = [] -> tName u = tName t) /\ (n <> [] -> isCut n (tName u)).
Proof.
  intros nm p s s' k t t' n q V R St N N' P. inversion St as [s0 i u o r u' c Ni Pi E]; subst.
  pose proof (nth_some_lt _ _ _ N) as Lk. pose proof (nth_some_lt _ _ _ Ni) as Li.
  assert (i = k) as ->.
  { destruct (Nat.eq_dec i k) as [|D]; [assumption|exfalso]. rewrite nth_error_app1, nth_supd in N' by (rewrite ?supd_length; lia).
    destruct (Nat.eqb_spec k i); [congruence|]. assert (t' = t) as -> by congruence.
    apply (f_equal (@length op)) in P. cbn in P. lia. }
  assert (u = t) as -> by congruence. rewrite P in Pi. injection Pi as <- <-.
  cbn [exec] in E. injection E as <- <-.
  rewrite nth_error_app1, nth_supd, Nat.eqb_refl in N' by (rewrite ?supd_length; lia). injection N' as <-.
  split; [reflexivity|]. split; [rewrite app_length, supd_length; cbn; lia|]. intros s2 u H N2 Q.
  set (child := mkTh (length s) (tName t) [] None (hook n q) []) in *.
  assert (Nc : nth_error (supd k (mkTh (tId t) (tName t) (tObjs t) (tCached t) (tl (tProg t)) (tLog t)) s ++ [child]) (length s) = Some child).
  { rewrite nth_error_app2, supd_length, Nat.sub_diag by (rewrite supd_length; lia). reflexivity. }
  destruct n as [|b n].
  - split; [intros _|congruence]. rewrite (local_done _ _ _ _ _ [] H Nc N2); [reflexivity|]. cbn. congruence.
  - split; [congruence|intros _]. rewrite (local_done _ _ _ _ _ [OSet (b :: n)] H Nc N2); [apply kernel_cut|]. cbn. congruence.
Qed.
(** A thread that does nothing stays as it is, whatever the others do. *)
Theorem C160_others : forall s s' k t t', steps tstep s s' -> nth_error s k = Some t -> nth_error s' k = Some t' -> tProg t' = tProg t -> t' = t.
Proof. intros s s' k t t' H N N' P. apply (local_done s s' k t t' [] H N N'). cbn. congruence. Qed.

(** In a process that does not fork, gettid gives the thread's own id, and no two threads have the same. *)
Definition tidOk (k : nat) (t : th) : Prop := tId t = k /\ (tCached t = None \/ tCached t = Some k) /\ forallb noFork (tProg t) = true.
Lemma tid_inv s s' : (forall k t, nth_error s k = Some t -> tidOk k t) -> tstep s s' -> forall k t, nth_error s' k = Some t -> tidOk k t.
Proof.
  intros I St. inversion St as [s0 i t o r t' c N P E]; subst. pose proof (nth_some_lt _ _ _ N) as L. intros k u Nu.
  destruct (I _ _ N) as [Ti [Tc Tf]]. rewrite P in Tf. cbn in Tf. apply andb_true_iff in Tf. destruct Tf as [Fo Fr].
  destruct (Nat.lt_ge_cases k (length s)) as [Lk|Lk].
  - rewrite nth_error_app1, nth_supd in Nu by (rewrite ?supd_length; lia). destruct (Nat.eqb_spec k i) as [->|D]; [|apply I, Nu].
    injection Nu as <-. apply (f_equal fst) in E. rewrite exec_one in E. cbn in E. subst t'.
    split; [rewrite one_id; exact Ti|]. split; [|rewrite one_prog, P; exact Fr].
    destruct o; cbn; try exact Tc.
    + destruct (aget Nat.eqb i0 (tObjs t)); exact Tc.
    + right. destruct Tc as [->| ->]; congruence.
  - rewrite nth_error_app2 in Nu by (rewrite supd_length; lia). rewrite supd_length in Nu.
    destruct c as [w|]; [|destruct (k - length s)%nat; discriminate].
    assert (k = length s) as -> by (apply nth_some_lt in Nu; cbn in Nu; lia). rewrite Nat.sub_diag in Nu. injection Nu as <-.
    destruct o; cbn in E; try discriminate. injection E as _ <-. split; [reflexivity|]. split; [left; reflexivity|].
    cbn in Fo. cbn [tProg]. unfold hook. destruct n; exact Fo.
Qed.
Theorem C160_tid : forall nm p s s' k t t', forallb noFork p = true -> reach nm p s -> steps tstep s s' ->
  nth_error s k = Some t -> nth_error s' k = Some t' -> tProg t = OTid :: tProg t' ->
  tLog t' = tLog t ++ [ETid (tId t)] /\ forall j u, nth_error s j = Some u -> tId u = tId t -> j = k.
Proof.
  intros nm p s s' k t t' F R H N N' P.
  assert (I : forall k t, nth_error s k = Some t -> tidOk k t).
  { eapply inv_reachable with (inv := fun s => forall k t, nth_error s k = Some t -> tidOk k t); [|exact R|].
    - intros a b Ia St. eapply tid_inv; eassumption.
    - intros [|[|j]] u Nu; cbn in Nu; try discriminate. injection Nu as <-. split; [reflexivity|split; [left; reflexivity|exact F]]. }
  split.
  - rewrite (local_done s s' k t t' [OTid] H N N' P). cbn. destruct (I _ _ N) as [Ti [[->| ->] _]]; congruence.
  - intros j u Nu E. destruct (I _ _ Nu) as [Tj _], (I _ _ N) as [Ti _]. congruence.
Qed.

(** * What is false *)
Lemma do_step s i t o r t' c s' : nth_error s i = Some t -> tProg t = o :: r -> exec t o (length s) = (t', c) ->
  s' = supd i t' s ++ match c with Some u => [u] | None => [] end -> tstep s s'.
Proof. intros A B C ->. eapply tstep_one; eassumption. Qed.
Ltac go j := eapply steps_cons; [eapply do_step with (i := j); [reflexivity|reflexivity|reflexivity|reflexivity]|]; cbn.
(** Nominators that are destroyed in the order in which they were made leave the name of the first behind. *)
Theorem C160_order_refuted : exists nm s t, validName nm /\ reach nm [OOpen 0 (B "a"); OOpen 1 (B "b"); OClose 0; OClose 1] s /\
  nth_error s 0 = Some t /\ tProg t = [] /\ tObjs t = [] /\ tName t <> nm.
Proof.
  exists (B "main"), [mkTh 0 (B "a") [] None [] []], (mkTh 0 (B "a") [] None [] []). split.
  { split; [vm_compute; lia|]. vm_compute. intuition discriminate. }
  split; [|split; [reflexivity|split; [reflexivity|split; [reflexivity|intros H; vm_compute in H; discriminate H]]]].
  unfold reach, first. go 0%nat. go 0%nat. go 0%nat. go 0%nat. apply steps_refl.
Qed.
(** After a fork, gettid in the child may give the id of the parent. *)
Theorem C160_fork_refuted : exists nm p s t u, validName nm /\ reach nm p s /\ nth_error s 0 = Some t /\ nth_error s 1 = Some u /\
  tId u <> tId t /\ tLog u = [ETid (tId t)].
Proof.
  exists (B "main"), [OTid; OFork [OTid]], [mkTh 0 (B "main") [] (Some 0%nat) [] [ETid 0]; mkTh 1 (B "main") [] (Some 0%nat) [] [ETid 0]],
    (mkTh 0 (B "main") [] (Some 0%nat) [] [ETid 0]), (mkTh 1 (B "main") [] (Some 0%nat) [] [ETid 0]).
  split. { split; [vm_compute; lia|]. vm_compute. intuition discriminate. }
  split; [|split; [reflexivity|split; [reflexivity|split; [cbn; lia|reflexivity]]]].
  unfold reach, first. go 0%nat. go 0%nat. go 1%nat. apply steps_refl.
Qed.

(** * A concrete case *)
(** a scope with a name that is too long, a renaming inside, and a thread that is started inside *)
Definition sampleProg : list op := [OOpen 7 (B "a name that is too long"); OGet; OSpawn [] [OGet]; OSet (B "x"); OClose 7; OGet].
Example sample_runs : exists s t u, reach (B "main") sampleProg s /\ nth_error s 0 = Some t /\ nth_error s 1 = Some u /\
  tProg t = [] /\ tProg u = [] /\ tLog t = [ERead (B "a name that is "); ERead (B "main")] /\ tLog u = [ERead (B "a name that is ")].
Proof.
  eexists _, _, _. split; [unfold reach, first, sampleProg; go 0%nat; go 0%nat; go 0%nat; go 0%nat; go 1%nat; go 0%nat; go 0%nat; apply steps_refl|].
  repeat (split; [reflexivity|]). reflexivity.
Qed.
Example sample_scope : exists t, nth_error (first (B "main") sampleProg) 0 = Some t /\ validName (tName t) /\
  tProg t = OOpen 7 (B "a name that is too long") :: [OGet; OSpawn [] [OGet]; OSet (B "x")] ++ OClose 7 :: [OGet] /\
  Forall (fun o => ~ touches 7 o) [OGet; OSpawn [] [OGet]; OSet (B "x")].
Proof.
  eexists. split; [reflexivity|]. split; [split; [vm_compute; lia|vm_compute; intuition discriminate]|]. split; [reflexivity|].
  repeat constructor; cbn; tauto.
Qed.

Print Assumptions C160_read. Print Assumptions C160_scope. Print Assumptions C160_thread. Print Assumptions C160_others.
Print Assumptions C160_tid. Print Assumptions C160_order_refuted. Print Assumptions C160_fork_refuted.
