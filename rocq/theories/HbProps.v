(** C131: a storage host keeps the cluster id it has adopted. *)
From Verif Require Import Prelude ClusterModel ClusterProps HbModel.

(** * Specification *)
(** a host that has not been started, with a file *)
Definition installed (storage : bool) (f : file) : hostSt := mkHost storage f 0 false.
(** the ids in the answers *)
Definition answered (evs : list hostEv) : list Z := flat_map (fun ev => match ev with Beat (Some (id, _, _)) => [id] | _ => [] end) evs.
(** answers are 64-bit ids, and a crash inside persistInFile leaves one of the states C55 gives for the file as it is then *)
Fixpoint sensible (h : hostSt) (evs : list hostEv) : Prop :=
  match evs with
  | [] => True
  | ev :: r => match ev with
               | Beat (Some (id, e, crash)) => isId id /\ match crash with Some f => In f (crashStates e id (hsFile h)) | None => True end
               | _ => True
               end /\ sensible (snd (hostStep h ev)) r
  end.

(** * Proofs *)
Lemma run_app evs : forall h ev, hostRun h (evs ++ [ev]) = let (s, h1) := hostRun h evs in let (s', h2) := hostStep h1 ev in (s ++ s', h2).
Proof.
  induction evs as [|x evs IH]; intros h ev; cbn [app hostRun].
  - destruct (hostStep h ev) as [s h1]. rewrite app_nil_r. reflexivity.
  - destruct (hostStep h x) as [s1 h1]. rewrite IH. destruct (hostRun h1 evs) as [s2 h2]. destruct (hostStep h2 ev) as [s3 h3]. rewrite app_assoc. reflexivity.
Qed.
Lemma sensible_app evs : forall h ev, sensible h (evs ++ [ev]) <-> sensible h evs /\ sensible (snd (hostRun h evs)) [ev].
Proof.
  induction evs as [|x evs IH]; intros h ev; cbn [app]; [cbn [hostRun snd sensible]; tauto|].
  cbn [sensible hostRun]. rewrite IH. destruct (hostStep h x) as [s1 h1]. cbn [snd]. destruct (hostRun h1 evs) as [s2 h2]. cbn [snd sensible]. tauto.
Qed.
Lemma answered_app evs ev : answered (evs ++ [ev]) = answered evs ++ answered [ev].
Proof. unfold answered. rewrite flat_map_app. reflexivity. Qed.

(** What holds between events: the id in the file, if there is one, is the only one that was ever sent, and an id in memory is in the file *)
Record inv (f0 : file) (evs : list hostEv) (sent : list (option Z)) (h : hostSt) : Prop := {
  iStorage : hsStorage h = true;
  iMem : hsMem h <> 0 -> getClusterIdFromFile (hsFile h) = hsMem h;
  iSent : forall i, In (Some i) sent -> i <> 0 -> getClusterIdFromFile (hsFile h) = i;
  iFirst : getClusterIdFromFile f0 <> 0 -> getClusterIdFromFile (hsFile h) = getClusterIdFromFile f0;
  iFrom : getClusterIdFromFile (hsFile h) <> 0 -> getClusterIdFromFile (hsFile h) = getClusterIdFromFile f0 \/ In (getClusterIdFromFile (hsFile h)) (answered evs);
  iSet : forall s, In s sent -> s <> None
}.
Lemma failed_persist e id f : isId id -> snd (persistInFile e id f) = false ->
  In (fst (persistInFile e id f)) (crashStates e id f).
Proof.
  intros _ F. unfold crashStates. apply in_or_app. left. unfold persistInFile in *. unfold persistSteps in *.
  destruct (dirOk e); cbn [negb] in *; [|left; reflexivity]. destruct (openOk e); cbn [negb] in *; cbn; tauto.
Qed.
Lemma inv_holds f0 evs : forall s h, hostRun (installed true f0) evs = (s, h) -> sensible (installed true f0) evs -> inv f0 evs s h.
Proof.
  induction evs as [|ev evs IH] using rev_ind; intros s h H S.
  - injection H as <- <-. split; cbn; try tauto; try reflexivity; congruence.
  - rewrite run_app in H. apply sensible_app in S. destruct S as [S Se].
    destruct (hostRun (installed true f0) evs) as [s1 h1] eqn:E. cbn [snd] in Se. destruct (IH s1 h1 eq_refl S) as [I1 I2 I3 I4 I5 I6].
    rewrite answered_app || idtac.
    assert (Fr : forall l, getClusterIdFromFile (hsFile h1) <> 0 -> getClusterIdFromFile (hsFile h1) = getClusterIdFromFile f0 \/ In (getClusterIdFromFile (hsFile h1)) (answered evs ++ l))
      by (intros l N; destruct (I5 N) as [X|X]; [left; exact X|right; apply in_or_app; left; exact X]).
    destruct ev as [| |a]; cbn [hostStep] in H.
    + destruct (hsUp h1); injection H as <- <-; rewrite app_nil_r; split; rewrite ?answered_app; cbn [hsFile hsMem hsStorage]; try assumption; try congruence; apply Fr.
    + injection H as <- <-. rewrite app_nil_r. split; rewrite ?answered_app; cbn [hsFile hsMem hsStorage]; try assumption; try congruence; apply Fr.
    + destruct (hsUp h1).
      2: { injection H as <- <-. rewrite app_nil_r. split; rewrite ?answered_app; try assumption. apply Fr. }
      unfold beat in H. rewrite I1 in H. set (mem := if hsMem h1 =? 0 then getClusterIdFromFile (hsFile h1) else hsMem h1) in *.
      assert (M : mem = getClusterIdFromFile (hsFile h1)) by (unfold mem; destruct (Z.eqb_spec (hsMem h1) 0); [reflexivity|symmetry; apply I2; assumption]).
      assert (Keep : inv f0 (evs ++ [Beat a]) (s1 ++ [Some mem]) (mkHost true (hsFile h1) mem true)).
      { split; rewrite ?answered_app; cbn [hsFile hsMem hsStorage]; try assumption; try congruence; [|apply Fr|].
        - intros i Hi Ni. apply in_app_or in Hi. destruct Hi as [Hi|[Hi|[]]]; [apply I3; assumption|congruence].
        - intros x Hx. apply in_app_or in Hx. destruct Hx as [Hx|[<-|[]]]; [apply I6; assumption|discriminate]. }
      destruct a as [[[id e] crash]|]; [|injection H as <- <-; exact Keep].
      destruct (Z.eqb_spec mem 0) as [Z0|NZ]; [|injection H as <- <-; exact Keep].
      destruct Se as [[Hid Hc] _].
      assert (None0 : forall i, In (Some i) (s1 ++ [Some mem]) -> i <> 0 -> False).
      { intros i Hi Ni. apply in_app_or in Hi. destruct Hi as [Hi|[Hi|[]]]; [|congruence]. apply Ni. rewrite <- (I3 i Hi Ni). congruence. }
      assert (Sets : forall x, In x (s1 ++ [Some mem]) -> x <> None).
      { intros x Hx. apply in_app_or in Hx. destruct Hx as [Hx|[<-|[]]]; [apply I6; assumption|discriminate]. }
      assert (F0 : getClusterIdFromFile f0 <> 0 -> False) by (intros N; specialize (I4 N); congruence).
      assert (Crash : forall f, In f (crashStates e id (hsFile h1)) -> inv f0 (evs ++ [Beat (Some (id, e, crash))]) (s1 ++ [Some mem]) (mkHost true f 0 false)).
      { intros f Hf. destruct (C55_crash_reads_old_new_or_none e id (hsFile h1) f Hid Hf) as [R|[R|R]];
          (split; rewrite ?answered_app; cbn [hsFile hsMem hsStorage]; try assumption; try congruence; try (intros; exfalso; eauto; fail)).
        - intros N. right. apply in_or_app. right. left. congruence. }
      destruct crash as [f|]; [injection H as <- <-; apply Crash, Hc|].
      destruct (persistInFile e id (hsFile h1)) as [f ok] eqn:P. destruct ok; injection H as <- <-.
      * pose proof (C55_persist_then_read e id (hsFile h1) f Hid P) as R.
        split; rewrite ?answered_app; cbn [hsFile hsMem hsStorage]; try assumption; try congruence; try (intros; exfalso; eauto; fail).
        intros _. right. apply in_or_app. right. left. congruence.
      * replace mem with 0 at 2 by congruence. apply Crash.
        change f with (fst (f, false)). rewrite <- P. apply failed_persist; [exact Hid|rewrite P; reflexivity].
Qed.

(** * C131 *)
(** In every execution, with restarts, failing writes and crashes at any point of writing the file: all ids sent that are not 0 are the same one. *)
Theorem C131_one_id : forall f0 evs s h i j, hostRun (installed true f0) evs = (s, h) -> sensible (installed true f0) evs ->
  In (Some i) s -> In (Some j) s -> i <> 0 -> j <> 0 -> i = j.
Proof.
  intros f0 evs s h i j H S Hi Hj Ni Nj. destruct (inv_holds f0 evs s h H S) as [_ _ I3 _ _ _]. rewrite <- (I3 i Hi Ni). apply I3; assumption.
Qed.
(** It is the one in the file at the beginning, if there was one, and otherwise one the meta server answered before; *)
Theorem C131_where_from : forall f0 evs s h i, hostRun (installed true f0) evs = (s, h) -> sensible (installed true f0) evs -> In (Some i) s -> i <> 0 ->
  (getClusterIdFromFile f0 <> 0 -> i = getClusterIdFromFile f0) /\ (getClusterIdFromFile f0 = 0 -> In i (answered evs)).
Proof.
  intros f0 evs s h i H S Hi Ni. destruct (inv_holds f0 evs s h H S) as [_ _ I3 I4 I5 _]. pose proof (I3 i Hi Ni) as R. split.
  - intros N. rewrite <- (I4 N). congruence.
  - intros Z0. destruct I5 as [X|X]; congruence.
Qed.
(** it was on disk before it was sent and stays there; *)
Theorem C131_durable : forall f0 evs s h i, hostRun (installed true f0) evs = (s, h) -> sensible (installed true f0) evs -> In (Some i) s -> i <> 0 ->
  getClusterIdFromFile (hsFile h) = i.
Proof. intros f0 evs s h i H S Hi Ni. destruct (inv_holds f0 evs s h H S) as [_ _ I3 _ _ _]. apply I3; assumption. Qed.
(** and from then on every heartbeat carries it, also after a restart. *)
Theorem C131_from_then_on : forall f0 evs s h i a, hostRun (installed true f0) evs = (s, h) -> sensible (installed true f0) evs -> i <> 0 ->
  (In (Some i) s \/ hsMem h = i \/ getClusterIdFromFile (hsFile h) = i) -> hsUp h = true -> fst (hostStep h (Beat a)) = [Some i].
Proof.
  intros f0 evs s h i a H S Ni C U. destruct (inv_holds f0 evs s h H S) as [I1 I2 I3 _ _ _].
  assert (R : getClusterIdFromFile (hsFile h) = i) by (destruct C as [C|[C|C]]; [apply I3; assumption| |exact C]; rewrite <- C; apply I2; congruence).
  cbn [hostStep]. rewrite U. unfold beat. rewrite I1. cbn [fst]. destruct (Z.eqb_spec (hsMem h) 0) as [_|N]; [rewrite R; reflexivity|]. rewrite <- (I2 N), R. reflexivity.
Qed.
(** A host without an id takes the answered one, if it can be written; else it ends. It never runs on with an id that is not on disk. *)
Theorem C131_adopts : forall f0 evs s h id e, hostRun (installed true f0) evs = (s, h) -> sensible (installed true f0) evs -> isId id -> hsUp h = true ->
  getClusterIdFromFile (hsFile h) = 0 ->
  let h' := snd (hostStep h (Beat (Some (id, e, None)))) in
  (hsUp h' = true <-> dirOk e = true /\ openOk e = true /\ wrote e = 8) /\
  (hsUp h' = true -> hsMem h' = id /\ getClusterIdFromFile (hsFile h') = id).
Proof.
  intros f0 evs s h id e H S Hid U R. destruct (inv_holds f0 evs s h H S) as [I1 I2 _ _ _ _]. cbn [hostStep]. rewrite U. unfold beat. rewrite I1.
  assert (M : hsMem h = 0) by (destruct (Z.eq_dec (hsMem h) 0) as [E|N]; [exact E|]; rewrite <- (I2 N); exact R).
  rewrite M, R. cbn [Z.eqb snd]. pose proof (C55_persist_succeeds e id (hsFile h)) as P. destruct (persistInFile e id (hsFile h)) as [f ok] eqn:E. cbn [snd] in P. cbn zeta.
  destruct ok; cbn [snd hsUp hsMem hsFile].
  - split; [exact P|]. intros _. split; [reflexivity|]. exact (C55_persist_then_read e id (hsFile h) f Hid E).
  - split; [exact P|discriminate].
Qed.
(** Processes of other roles never send an id and never touch the file. *)
Theorem C131_other_roles : forall f0 evs s h, hostRun (installed false f0) evs = (s, h) -> hsFile h = f0 /\ forall x, In x s -> x = None.
Proof.
  intros f0 evs. enough (G : forall s h, hostRun (installed false f0) evs = (s, h) -> hsStorage h = false /\ hsFile h = f0 /\ forall x, In x s -> x = None) by (intros s h H; apply (G s h H)).
  induction evs as [|ev evs IH] using rev_ind; intros s h H; [injection H as <- <-; splits; [reflexivity|reflexivity|intros ? []]|].
  rewrite run_app in H. destruct (hostRun (installed false f0) evs) as [s1 h1]. destruct (IH s1 h1 eq_refl) as (A & B & C).
  destruct ev as [| |a]; cbn [hostStep] in H.
  - destruct (hsUp h1); injection H as <- <-; rewrite app_nil_r; splits; assumption.
  - injection H as <- <-; rewrite app_nil_r; splits; assumption.
  - destruct (hsUp h1); [|injection H as <- <-; rewrite app_nil_r; splits; assumption]. unfold beat in H. rewrite A in H. injection H as <- <-. splits; try assumption.
    intros x Hx. apply in_app_or in Hx. destruct Hx as [Hx|[<-|[]]]; [exact (C x Hx)|reflexivity].
Qed.

(** A crash inside the first write, a restart, an answer with another id, a restart, answers that are ignored *)
Definition good := mkSys true true true 8.
Definition exRun := [Start; Beat (Some (7, good, Some (Some [7; 0]))); Start; Beat None; Beat (Some (8, good, None)); Beat (Some (9, good, None)); Stop; Start; Beat None].
Example C131_ex : fst (hostRun (installed true None) exRun) = [Some 0; Some 0; Some 0; Some 8; Some 8] /\ sensible (installed true None) exRun /\
  getClusterIdFromFile (hsFile (snd (hostRun (installed true None) exRun))) = 8.
Proof. splits; [vm_compute; reflexivity| |vm_compute; reflexivity]. cbn [exRun sensible]. repeat split; try (unfold isId, int64_min, int64_max; lia). cbn. tauto. Qed.

Print Assumptions C131_one_id.
Print Assumptions C131_where_from.
Print Assumptions C131_durable.
Print Assumptions C131_from_then_on.
Print Assumptions C131_adopts.
Print Assumptions C131_other_roles.
