(** Property C171: the cache of the meta client answers when it is ready, and says so when it is not. *)
From Coq Require Import String List.
From Verif Require Import Prelude Trans ValueBase AssocModel LeaderModel DiffModel SchemaModel MetaCacheModel MetaCacheProofs MetaCacheProps MetaSyncProps.
Import ListNotations.
Open Scope Z_scope.

(** Every lookup that looks at ready_ is refused: no space, role, account, host, index or listener is found. *)
Definition refuses (c : client) : Prop :=
  (forall n, spaceIdByName c n = None) /\ (forall s, spaceNameById c s = None) /\ (forall u, rolesOf c u = []) /\ (forall u p, authCheck c u p = false) /\
  (forall u, shadowAccount c u = false) /\ storageHosts c = None /\ (forall s i, tagIndexById c s i = None) /\ (forall s i, edgeIndexById c s i = None) /\
  (forall s n, tagIndexByName c s n = None) /\ (forall s n, edgeIndexByName c s n = None) /\ (forall f s, indexesOf c f s = None) /\
  (forall s h, listenersOn c s h = None) /\ (forall s p t, listenerHost c s p t = None).
Theorem C171_refuses : forall c, clReady c = false -> refuses c.
Proof.
  intros c R. unfold refuses, spaceIdByName, spaceNameById, rolesOf, authCheck, shadowAccount, storageHosts, tagIndexById, edgeIndexById, indexById, tagIndexByName, edgeIndexByName, indexesOf, listenersOn, listenerHost.
  rewrite R. splits; reflexivity.
Qed.
(** An attempt of the start-up: a failed heartbeat takes the readiness away; otherwise it is kept, and gained only if every request is answered. *)
Theorem C171_attempt : forall local c h cfg a c', isMetadReady local c h cfg a = Ret c' ->
  (h = HbFailed -> clReady c' = false) /\ (h <> HbFailed -> clReady c = true -> clReady c' = true) /\ (clReady c' = true -> h <> HbFailed /\ (clReady c = true \/ answered a)).
Proof.
  intros local c h cfg a c' H. unfold isMetadReady in H.
  assert (K : forall c1, clReady c1 = clReady c -> reload local c1 cfg a = Ret c' -> (clReady c = true -> clReady c' = true) /\ (clReady c' = true -> clReady c = true \/ answered a)).
  { intros c1 E R. unfold reload in R. destruct (loadData local c1 a) as [r| | |] eqn:L; try discriminate R. cbn [obind] in R.
    assert (Q : clReady c' = clReady (ldClient r)) by (destruct (ldOk r && cfg); apply Ret_inj in R; subst c'; reflexivity). rewrite Q. destruct (ldOk r) eqn:O.
    - pose proof (C89_success_needs_answers local c1 a r L O) as An. destruct (load_inv local c1 a r L O) as (us & rs & ps & fc & fi & sp & st & items & _ & _ & _ & _ & _ & _ & _ & X & _).
      split; auto. intros _. rewrite X. reflexivity.
    - destruct (C90_failed_load_keeps local c1 a r L O) as (_ & _ & _ & _ & _ & _ & _ & _ & _ & _ & _ & X & _). rewrite X, E. split; auto. }
  destruct h as [t| |]; cbn [heartbeat] in H.
  - destruct (K (withTimes c (clLocalTime c) t) eq_refl H) as [K1 K2]. splits; auto; [discriminate|]. intros R. split; [discriminate|auto].
  - destruct (K c eq_refl H) as [K1 K2]. splits; auto; [discriminate|]. intros R. split; [discriminate|auto].
  - apply Ret_inj in H. subst c'. splits; [reflexivity|congruence|discriminate].
Qed.
(** A round of the background thread never takes the readiness away, and gives it only if every request is answered. *)
Theorem C171_round : forall local c h cfg a c', heartBeatRound local c h cfg a = Ret c' ->
  (clReady c = true -> clReady c' = true) /\ (clReady c' = true -> clReady c = true \/ (exists t, h = HbTime t) /\ answered a).
Proof.
  intros local c h cfg a c' H. unfold heartBeatRound in H.
  destruct h as [t| |]; cbn [heartbeat] in H; [|apply Ret_inj in H; subst c'; auto..]. cbn [withTimes clLocalTime clMetaTime] in H.
  destruct (clLocalTime c <? t); [|apply Ret_inj in H; subst c'; auto].
  destruct (C171_attempt local c (HbTime t) cfg a c' H) as (_ & K1 & K2). split; [apply K1; discriminate|]. intros R. destruct (K2 R) as (_ & [Q|Q]); [auto|right; split; [eexists; reflexivity|exact Q]].
Qed.
(** As long as no load was answered completely, nothing is answered: in any sequence of attempts and rounds of a new client. *)
Theorem C171_nothing_before : forall local rds c, (forall rd, In rd rds -> ~ answered (rdAns rd)) -> doRounds local freshClient rds = Ret c -> clReady c = false /\ refuses c.
Proof.
  intros local rds c H D. assert (R : clReady c = false); [|split; [exact R|apply C171_refuses; exact R]].
  assert (K : forall l c0, (forall rd, In rd l -> ~ answered (rdAns rd)) -> clReady c0 = false -> doRounds local c0 l = Ret c -> clReady c = false).
  { induction l as [|rd l IH]; intros c0 Hl R0 Hd; cbn [doRounds] in Hd; [apply Ret_inj in Hd; subst; exact R0|].
    destruct (doRound local c0 rd) as [c1| | |] eqn:E; try discriminate Hd. cbn [obind] in Hd. apply (IH c1); [intros; apply Hl; right; assumption| |exact Hd].
    pose proof (Hl rd (or_introl eq_refl)) as N. destruct (clReady c1) eqn:R1; [|reflexivity]. unfold doRound in E. destruct (rdStart rd).
    - rewrite R0 in E. destruct (C171_attempt _ _ _ _ _ _ E) as (_ & _ & Q). destruct (Q R1) as (_ & [Q'|Q']); [congruence|contradiction].
    - destruct (C171_round _ _ _ _ _ _ E) as (_ & Q). destruct (Q R1) as [Q'|[_ Q']]; [congruence|contradiction]. }
  exact (K rds freshClient H eq_refl D).
Qed.
(** Once ready, always ready, as waitForMetadReady calls isMetadReady only before. *)
Theorem C171_stays : forall local rds c c', clReady c = true -> doRounds local c rds = Ret c' -> clReady c' = true.
Proof.
  induction rds as [|rd l IH]; intros c c' R H; cbn [doRounds] in H; [apply Ret_inj in H; subst; exact R|].
  destruct (doRound local c rd) as [c1| | |] eqn:E; try discriminate H. cbn [obind] in H. apply (IH c1 c'); [|exact H]. unfold doRound in E. rewrite R in E.
  destruct (rdStart rd); [apply Ret_inj in E; subst; exact R|]. apply (C171_round _ _ _ _ _ _ E). exact R.
Qed.
(** That no function answers from a cache that is not ready is false: terms and whether a schema has an index are answered. *)
Theorem C171_all_refuse_refuted : exists rds c c', doRounds None freshClient rds = Ret c /\ isMetadReady None c HbFailed true ex2 = Ret c' /\
  clReady c' = false /\ termOf c' 2 1 = 7 /\ indexed c' enTagIdx 1 6 = true.
Proof.
  exists [mkRound true (HbTime 5) true ex2]. eexists. eexists. split; [vm_compute; reflexivity|]. split; [vm_compute; reflexivity|]. splits; vm_compute; reflexivity.
Qed.
(** A client that loaded the accounts, but no spaces, lets nobody in; after the next load it does. *)
Example C171_example : let a1 := exA [(B "u", B "p")] None [] (Some []) (Some []) in ~ answered a1 /\
  exists c c', doRounds None freshClient [mkRound true (HbTime 5) true a1] = Ret c /\ clPwds c = [(B "u", B "p")] /\ authCheck c (B "u") (B "p") = false /\
    doRounds None c [mkRound true (HbTime 5) true ex2] = Ret c' /\ authCheck c' (B "u") (B "p") = true.
Proof.
  cbn zeta. split; [intros (_ & _ & _ & _ & (sp & H & _)); discriminate H|]. eexists. eexists. splits; vm_compute; reflexivity.
Qed.
Print Assumptions C171_refuses.
Print Assumptions C171_attempt.
Print Assumptions C171_round.
Print Assumptions C171_nothing_before.
Print Assumptions C171_stays.
Print Assumptions C171_all_refuse_refuted.
