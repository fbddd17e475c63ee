(** Property C94: the metadata cache catches up with the meta server. *)
From Coq Require Import String List.
From Verif Require Import Prelude Trans ValueBase ValueProofs AssocModel LeaderModel DiffModel DiffProps SchemaModel SchemaProps SchemaLoadProps
  MetaCacheModel MetaCacheProofs MetaCacheProps.
Import ListNotations.
Open Scope Z_scope.

(** * Specification *)
(** The states the meta server goes through: what it would answer in version [k], and the update time it reports. *)
Section Server.
Context (world : nat -> answers) (stamp : nat -> Z).
(** An answer that is an error or comes from a version in [P] *)
Definition drawn {A} (get : answers -> option A) (P : nat -> Prop) (a : answers) : Prop := get a = None \/ exists k, P k /\ get a = get (world k).
Definition drawnFrom (P : nat -> Prop) (a : answers) : Prop :=
  drawn anUsers P a /\ (forall u, drawn (fun a => anRoles a u) P a) /\ drawn anFtClients P a /\ drawn anFtIndexes P a /\ drawn anSpaces P a /\
  (forall s, drawn (fun a => anParts a s) P a) /\ (forall s, drawn (fun a => anTags a s) P a) /\ (forall s, drawn (fun a => anEdges a s) P a) /\
  (forall s, drawn (fun a => anTagIdx a s) P a) /\ (forall s, drawn (fun a => anEdgeIdx a s) P a) /\ (forall s, drawn (fun a => anListeners a s) P a) /\
  (forall n, drawn (fun a => anSpace a n) P a) /\ drawn anHosts P a.
(** One round: in waitForMetadReady's loop ([start]) or of the heartbeat thread *)
Record round := mkRound { rdStart : bool; rdHb : hbAnswer; rdCfg : bool; rdAns : answers }.
(** Rounds played while the server goes from version [v] on: a heartbeat answered at version [h], then requests
    answered, each on its own, at versions from [h] to [w], before the next round. Any of them may fail. *)
Inductive plays : nat -> list round -> nat -> Prop :=
| pl_nil v : plays v [] v
| pl_cons v h w x rd rest : (v <= h)%nat -> (h <= w)%nat -> (forall t, rdHb rd = HbTime t -> t = stamp h) ->
    drawnFrom (fun k => (h <= k <= w)%nat) (rdAns rd) -> plays w rest x -> plays v (rd :: rest) x.
(** What the client does in a round. waitForMetadReady calls isMetadReady only until it answers true (89). *)
Definition doRound (local : option host) (c : client) (rd : round) : outcome client :=
  if rdStart rd then (if clReady c then Ret c else isMetadReady local c (rdHb rd) (rdCfg rd) (rdAns rd))
  else heartBeatRound local c (rdHb rd) (rdCfg rd) (rdAns rd).
Fixpoint doRounds (local : option host) (c : client) (l : list round) : outcome client :=
  match l with [] => Ret c | rd :: l' => let* c1 := doRound local c rd in doRounds local c1 l' end.
(** The client holds what a first load from [a] gives; C89 says what that is. *)
Definition holds (c : client) (a : answers) : Prop :=
  exists r, loadData None freshClient a = Ret r /\ ldOk r = true /\ clReady c = true /\ let c0 := ldClient r in
    clRoles c = clRoles c0 /\ clPwds c = clPwds c0 /\ clFtClients c = clFtClients c0 /\ clFtIndexes c = clFtIndexes c0 /\
    clCache c = clCache c0 /\ clNames c = clNames c0 /\ clSchemas c = clSchemas c0 /\ clHosts c = clHosts c0.

(** * Where the contents of the cache come from *)
Definition mainFrom (P : nat -> Prop) (c : client) : Prop :=
  exists a tn en st sp items, drawnFrom P a /\ anSpaces a = Some sp /\ loadLoop a (mkLS [] [] emptySchemaCache tn en) sp = Ret (st, true) /\
    anHosts a = Some items /\ clCache c = lsCache st /\ clNames c = lsNames st /\ clSchemas c = lsSchemas st /\ clHosts c = map fst items.
Definition usersFrom (P : nat -> Prop) (c : client) : Prop :=
  exists a us, drawnFrom P a /\ anUsers a = Some us /\ loadUsers (anRoles a) us [] [] = Some (clRoles c, clPwds c).
Definition ftcFrom (P : nat -> Prop) (c : client) : Prop := exists a, drawnFrom P a /\ anFtClients a = Some (clFtClients c).
Definition ftiFrom (P : nat -> Prop) (c : client) : Prop := exists a, drawnFrom P a /\ anFtIndexes a = Some (clFtIndexes c).
Definition allFrom (P : nat -> Prop) (c : client) : Prop := mainFrom P c /\ usersFrom P c /\ ftcFrom P c /\ ftiFrom P c.

Lemma drawn_mono {A} (get : answers -> option A) (P Q : nat -> Prop) a : (forall k, P k -> Q k) -> drawn get P a -> drawn get Q a.
Proof. intros H [X | (k & Hk & X)]; [left; exact X|right; exists k; auto]. Qed.
Lemma drawnFrom_mono (P Q : nat -> Prop) a : (forall k, P k -> Q k) -> drawnFrom P a -> drawnFrom Q a.
Proof. intros H (D1 & D2 & D3 & D4 & D5 & D6 & D7 & D8 & D9 & D10 & D11 & D12 & D13). unfold drawnFrom. splits; intros; eapply drawn_mono; eauto. Qed.
Lemma allFrom_mono (P Q : nat -> Prop) c : (forall k, P k -> Q k) -> allFrom P c -> allFrom Q c.
Proof.
  intros H ((a & tn & en & st & sp & items & D & R) & (a2 & us & D2 & R2) & (a3 & D3 & R3) & (a4 & D4 & R4)). unfold allFrom. splits.
  - exists a, tn, en, st, sp, items. split; [eapply drawnFrom_mono; eassumption|exact R].
  - exists a2, us. split; [eapply drawnFrom_mono; eassumption|exact R2].
  - exists a3. split; [eapply drawnFrom_mono; eassumption|exact R3].
  - exists a4. split; [eapply drawnFrom_mono; eassumption|exact R4].
Qed.

Lemma load_from (P : nat -> Prop) local c a r : drawnFrom P a -> loadData local c a = Ret r ->
  clLocalTime (ldClient r) = clLocalTime c /\ clMetaTime (ldClient r) = clMetaTime c /\ (clReady c = true -> clReady (ldClient r) = true) /\
  (ldOk r = true -> allFrom P (ldClient r) /\ clReady (ldClient r) = true) /\ (allFrom P c -> allFrom P (ldClient r)).
Proof.
  intros D H. destruct (ldOk r) eqn:O.
  - destruct (load_inv local c a r H O) as (us & rs & ps & fc & fi & sp & st & items & H1 & H2 & H3 & H4 & H5 & H6 & L & E & _). rewrite E. cbn.
    assert (A : allFrom P (ldClient r)).
    { unfold allFrom. rewrite E. splits.
      - exists a, (clTagIdxNames c), (clEdgeIdxNames c), st, sp, items. splits; auto.
      - exists a, us. auto.
      - exists a. auto.
      - exists a. auto. }
    rewrite E in A. splits; auto.
  - revert H. unfold loadData. intros H.
    destruct (anUsers a) as [us|] eqn:Eu; [|apply Ret_inj in H; subst; cbn in *; splits; auto; discriminate].
    destruct (loadUsers (anRoles a) us [] []) as [[rs ps]|] eqn:E1; [|apply Ret_inj in H; subst; cbn in *; splits; auto; discriminate].
    assert (U : forall c, clRoles c = rs -> clPwds c = ps -> usersFrom P c) by (intros c0 <- <-; exists a, us; auto).
    destruct (anFtClients a) as [fc|] eqn:Ec.
    2:{ apply Ret_inj in H; subst; cbn in *; splits; auto; [discriminate|]. intros (M & _ & X & Y). unfold allFrom. splits; auto. }
    assert (C : forall c, clFtClients c = fc -> ftcFrom P c) by (intros c0 <-; exists a; auto).
    destruct (anFtIndexes a) as [fi|] eqn:Ei.
    2:{ apply Ret_inj in H; subst; cbn in *; splits; auto; [discriminate|]. intros (M & _ & X & Y). unfold allFrom. splits; auto. }
    assert (I : forall c, clFtIndexes c = fi -> ftiFrom P c) by (intros c0 <-; exists a; auto).
    destruct (anSpaces a) as [sp|].
    2:{ apply Ret_inj in H; subst; cbn in *; splits; auto; [discriminate|]. intros (M & _ & X & Y). unfold allFrom. splits; auto. }
    match type of H with context [loadLoop ?x ?y ?z] => destruct (loadLoop x y z) as [[st ok]| | |] end; try discriminate. cbn [obind] in H.
    destruct ok.
    + unfold loadEnd in H. destruct (anHosts a) as [items|]; [|discriminate].
      match type of H with obind ?x _ = _ => destruct x as [td| | |] end; try discriminate. cbn [obind] in H. apply Ret_inj in H. subst r. discriminate.
    + apply Ret_inj in H; subst; cbn in *; splits; auto; [discriminate|]. intros (M & _ & X & Y). unfold allFrom. splits; auto.
Qed.

(** * The invariant *)
Definition inv (c : client) (v : nat) : Prop :=
  (clMetaTime c = 0 \/ exists k, (k <= v)%nat /\ clMetaTime c = stamp k) /\
  (clLocalTime c = 0 \/ exists k, (k <= v)%nat /\ clLocalTime c = stamp k /\ allFrom (fun j => (k <= j <= v)%nat) c /\ clReady c = true).
Lemma inv_mono c v w : (v <= w)%nat -> inv c v -> inv c w.
Proof.
  intros H [M L]. split.
  - destruct M as [M | (k & Hk & M)]; auto. right. exists k. split; [lia|exact M].
  - destruct L as [L | (k & Hk & L & A & R)]; auto. right. exists k. splits; auto; [lia|]. eapply allFrom_mono; [|exact A]. cbn. intros j. lia.
Qed.
Lemma withTimes_from P c l m : allFrom P (withTimes c l m) <-> allFrom P c.
Proof. unfold allFrom, mainFrom, usersFrom, ftcFrom, ftiFrom. cbn. tauto. Qed.
(** A load with answers of versions from [h] to [w], on a client that satisfies the invariant at [h] *)
Lemma reload_inv local c cfg a c' h w : (h <= w)%nat -> drawnFrom (fun k => (h <= k <= w)%nat) a -> reload local c cfg a = Ret c' -> inv c h -> inv c' w.
Proof.
  intros Hw D H [M L]. unfold reload in H. destruct (loadData local c a) as [r| | |] eqn:E; try discriminate. cbn [obind] in H. apply Ret_inj in H.
  destruct (load_from _ local c a r D E) as (T1 & T2 & T3 & T4 & _).
  assert (K : inv (ldClient r) w).
  { split; [rewrite T2|rewrite T1].
    - destruct M as [M | (k & Hk & M)]; auto. right. exists k. split; [lia|exact M].
    - destruct L as [L | (k & Hk & L & A & R)]; auto. right. exists k. splits; auto; [lia|].
      assert (D' : drawnFrom (fun j => (k <= j <= w)%nat) a) by (eapply drawnFrom_mono; [|exact D]; cbn; intros j; lia).
      destruct (load_from _ local c a r D' E) as (_ & _ & _ & _ & X). apply X. eapply allFrom_mono; [|exact A]. cbn. intros j. lia. }
  destruct (ldOk r && cfg) eqn:O; [|subst c'; exact K]. apply andb_true_iff in O. destruct O as [O _]. subst c'. destruct K as [K1 _]. destruct (T4 O) as [A R]. split; [exact K1|].
  cbn [withTimes clLocalTime clMetaTime clReady]. rewrite T2 in *. destruct M as [M | (k & Hk & M)]; auto. right. exists k. splits; auto; [lia|].
  apply withTimes_from. eapply allFrom_mono; [|exact A]. cbn. intros j. lia.
Qed.
Lemma heartbeat_inv c hb v h : (v <= h)%nat -> (forall t, hb = HbTime t -> t = stamp h) -> inv c v -> inv (heartbeat c hb) h.
Proof.
  intros Hh Ht I. apply (inv_mono c v h Hh) in I. destruct hb as [t| |]; cbn [heartbeat]; auto. destruct I as [M L]. split; cbn [withTimes clMetaTime clLocalTime clReady].
  - right. exists h. split; [lia|]. apply Ht. reflexivity.
  - destruct L as [L | (k & Hk & L & A & R)]; auto. right. exists k. splits; auto; try lia.
Qed.
Lemma round_inv local c rd c' v h w : (v <= h)%nat -> (h <= w)%nat -> (forall t, rdHb rd = HbTime t -> t = stamp h) ->
  drawnFrom (fun k => (h <= k <= w)%nat) (rdAns rd) -> doRound local c rd = Ret c' -> inv c v -> (clReady c = false -> clLocalTime c = 0) ->
  inv c' w /\ (clReady c' = false -> clLocalTime c' = 0).
Proof.
  intros Hh Hw Ht D H I Z0. pose proof (heartbeat_inv c (rdHb rd) v h Hh Ht I) as Ih. unfold doRound in H.
  assert (Q : forall c, inv c w -> (clReady c = false -> clLocalTime c = 0)).
  { intros c0 [_ L] R. destruct L as [L | (k & _ & _ & _ & R')]; [exact L|congruence]. }
  assert (J : inv c' w); [|split; [exact J|apply Q; exact J]].
  destruct (rdStart rd).
  - destruct (clReady c) eqn:R; [apply Ret_inj in H; subst c'; eapply inv_mono; [|exact I]; lia|]. unfold isMetadReady in H.
    destruct (rdHb rd) as [t| |]; try (eapply reload_inv; eassumption). apply Ret_inj in H. subst c'. cbn [heartbeat] in *. specialize (Z0 eq_refl).
    apply (inv_mono _ _ w Hw) in Ih. destruct Ih as [M _]. split; [exact M|left; exact Z0].
  - unfold heartBeatRound in H. destruct (rdHb rd) as [t| |]; try (apply Ret_inj in H; subst c'; eapply inv_mono; [|exact Ih]; lia).
    destruct (clLocalTime (heartbeat c (HbTime t)) <? clMetaTime (heartbeat c (HbTime t))); [eapply reload_inv; eassumption|]. apply Ret_inj in H. subst c'. eapply inv_mono; [|exact Ih]. lia.
Qed.
Lemma rounds_inv local v rds x : plays v rds x -> forall c c', doRounds local c rds = Ret c' -> inv c v -> (clReady c = false -> clLocalTime c = 0) -> inv c' x.
Proof.
  induction 1 as [v | v h w x rd rest H1 H2 H3 H4 _ IH]; intros c c' H I Z0; cbn [doRounds] in H; [apply Ret_inj in H; subst; exact I|].
  destruct (doRound local c rd) as [c1| | |] eqn:E; try discriminate. cbn [obind] in H. destruct (round_inv local c rd c1 v h w H1 H2 H3 H4 E I Z0) as [I1 Z1]. eapply IH; eassumption.
Qed.
Lemma plays_le v rds x : plays v rds x -> (v <= x)%nat.
Proof. induction 1; lia. Qed.

(** * From one version only *)
Lemma drawn_eq {A} (get : answers -> option A) n a y : drawn get (eq n) a -> get a = Some y -> get (world n) = Some y.
Proof. intros [X | (k & <- & X)] H; congruence. Qed.
Lemma loop_indep a sp : forall st st' tn en, loadLoop a st sp = Ret (st', true) ->
  exists st'', loadLoop a (mkLS (lsCache st) (lsNames st) (lsSchemas st) tn en) sp = Ret (st'', true) /\
    lsCache st'' = lsCache st' /\ lsNames st'' = lsNames st' /\ lsSchemas st'' = lsSchemas st'.
Proof.
  induction sp as [|[s n] rest IH]; intros st st' tn en H.
  - apply loop_inv in H. subst. eexists. split; [reflexivity|]. cbn. auto.
  - apply loop_inv in H. destruct H as (st1 & H1 & H2). cbn [loadLoop]. revert H1. unfold loadSpace. cbn [fst snd lsCache lsNames lsSchemas lsTagIdxNames lsEdgeIdxNames].
    destruct (anParts a s) as [[alloc terms]|]; [|intros X; apply Ret_inj in X; discriminate].
    destruct (anTags a s) as [ts|]; [|intros X; apply Ret_inj in X; discriminate]. destruct (anEdges a s) as [es|]; [|intros X; apply Ret_inj in X; discriminate].
    destruct (loadSchemas (lsSchemas st) s ts es) as [sc| | |]; try discriminate. cbn [obind].
    destruct (anTagIdx a s) as [ti|]; [|intros X; apply Ret_inj in X; discriminate]. destruct (anEdgeIdx a s) as [ei|]; [|intros X; apply Ret_inj in X; discriminate].
    destruct (anListeners a s) as [ls|]; [|intros X; apply Ret_inj in X; discriminate]. destruct (anSpace a n) as [d|]; [|intros X; apply Ret_inj in X; discriminate].
    intros X. apply Ret_inj in X. injection X as <-. cbn [obind]. destruct (IH _ _ (fold_left (addIdxName s) ti tn) (fold_left (addIdxName s) ei en) H2) as (st'' & E & R).
    exists st''. split; [exact E|exact R].
Qed.
Lemma loop_at n a sp : drawnFrom (eq n) a -> forall st st', loadLoop a st sp = Ret (st', true) -> loadLoop (world n) st sp = Ret (st', true).
Proof.
  intros (D1 & D2 & D3 & D4 & D5 & D6 & D7 & D8 & D9 & D10 & D11 & D12 & D13). induction sp as [|[s m] rest IH]; intros st st' H; apply loop_inv in H; [subst; reflexivity|].
  destruct H as (st1 & H1 & H2). cbn [loadLoop]. assert (E : loadSpace (world n) st (s, m) = Ret (st1, true)); [|rewrite E; cbn [obind]; apply IH; exact H2].
  revert H1. unfold loadSpace. cbn [fst snd].
  destruct (anParts a s) as [[alloc terms]|] eqn:E1; [|intros X; apply Ret_inj in X; discriminate]. rewrite (drawn_eq _ _ _ _ (D6 s) E1).
  destruct (anTags a s) as [ts|] eqn:E2; [|intros X; apply Ret_inj in X; discriminate]. rewrite (drawn_eq _ _ _ _ (D7 s) E2).
  destruct (anEdges a s) as [es|] eqn:E3; [|intros X; apply Ret_inj in X; discriminate]. rewrite (drawn_eq _ _ _ _ (D8 s) E3).
  destruct (loadSchemas (lsSchemas st) s ts es) as [sc| | |]; try discriminate. cbn [obind].
  destruct (anTagIdx a s) as [ti|] eqn:E4; [|intros X; apply Ret_inj in X; discriminate]. rewrite (drawn_eq _ _ _ _ (D9 s) E4).
  destruct (anEdgeIdx a s) as [ei|] eqn:E5; [|intros X; apply Ret_inj in X; discriminate]. rewrite (drawn_eq _ _ _ _ (D10 s) E5).
  destruct (anListeners a s) as [ls|] eqn:E6; [|intros X; apply Ret_inj in X; discriminate]. rewrite (drawn_eq _ _ _ _ (D11 s) E6).
  destruct (anSpace a m) as [d|] eqn:E7; [|intros X; apply Ret_inj in X; discriminate]. rewrite (drawn_eq _ _ _ _ (D12 m) E7).
  intros X; exact X.
Qed.
Lemma users_at n a us : (forall u, drawn (fun a => anRoles a u) (eq n) a) -> forall rs ps x, loadUsers (anRoles a) us rs ps = Some x -> loadUsers (anRoles (world n)) us rs ps = Some x.
Proof.
  intros D. induction us as [|[u p] us IH]; intros rs ps x H; cbn [loadUsers] in *; [exact H|]. destruct (anRoles a u) as [r|] eqn:E; [|discriminate].
  rewrite (drawn_eq _ _ _ _ (D u) E). apply IH. exact H.
Qed.
Lemma allFrom_holds n c : allFrom (eq n) c -> clReady c = true -> holds c (world n).
Proof.
  intros ((a & tn & en & st & sp & items & D & Hsp & L & Hi & C1 & C2 & C3 & C4) & (a2 & us & D2 & Hus & LU) & (a3 & D3 & Hfc) & (a4 & D4 & Hfi)) R.
  pose proof (loop_at n a sp D _ _ L) as L'. destruct (loop_indep _ _ _ _ [] [] L') as (st' & L'' & Q1 & Q2 & Q3). cbn [lsCache lsNames lsSchemas] in L''.
  assert (E1 : anUsers (world n) = Some us) by (eapply drawn_eq; [apply D2|exact Hus]).
  assert (E2 : loadUsers (anRoles (world n)) us [] [] = Some (clRoles c, clPwds c)) by (eapply users_at; [apply D2|exact LU]).
  assert (E3 : anFtClients (world n) = Some (clFtClients c)) by (eapply (drawn_eq anFtClients); [apply D3|exact Hfc]).
  assert (E4 : anFtIndexes (world n) = Some (clFtIndexes c)) by (eapply (drawn_eq anFtIndexes); [apply D4|exact Hfi]).
  assert (E5 : anSpaces (world n) = Some sp) by (eapply (drawn_eq anSpaces); [apply D|exact Hsp]).
  assert (E6 : anHosts (world n) = Some items) by (eapply (drawn_eq anHosts); [apply D|exact Hi]).
  unfold holds, loadData. rewrite E1, E2, E3, E4, E5. cbn [withFtIndexes withFtClients withUsers freshClient clTagIdxNames clEdgeIdxNames]. rewrite L''. cbn [obind]. unfold loadEnd. rewrite E6. cbn [obind].
  eexists. split; [reflexivity|]. cbn. splits; congruence.
Qed.
Lemma answered_ok local c a r : answered a -> loadData local c a = Ret r -> ldOk r = true.
Proof.
  intros ((us & Hus & Hr) & Hfc & Hfi & Hh & (sp & Hsp & Hs)). unfold loadData. rewrite Hus. destruct (loadUsers_total (anRoles a) us Hr [] []) as ([rs ps] & ->).
  destruct (anFtClients a) as [fc|]; [|congruence]. destruct (anFtIndexes a) as [fi|]; [|congruence]. rewrite Hsp.
  match goal with |- context [loadLoop ?x ?y ?z] => destruct (loadLoop x y z) as [[st ok]| | |] eqn:E end; try discriminate. cbn [obind]. intros H. destruct ok.
  - unfold loadEnd in H. destruct (anHosts a) as [items|]; [|congruence]. match type of H with obind ?x _ = _ => destruct x as [td| | |] end; try discriminate. cbn [obind] in H.
    apply Ret_inj in H. subst r. reflexivity.
  - exfalso. clear H. revert E. match goal with |- loadLoop _ ?y _ = _ -> _ => generalize y end. clear -Hs. induction sp as [|[s n] rest IH]; intros st0 E; cbn [loadLoop] in E; [apply Ret_inj in E; discriminate|].
    destruct (Hs s n) as (H1 & H2 & H3 & H4 & H5 & H6 & H7); [cbn; auto|]. revert E. unfold loadSpace at 1. cbn [fst snd].
    destruct (anParts a s) as [[alloc terms]|]; [|congruence]. destruct (anTags a s) as [ts|]; [|congruence]. destruct (anEdges a s) as [es|]; [|congruence].
    destruct (loadSchemas (lsSchemas st0) s ts es) as [sc| | |]; try discriminate. cbn [obind].
    destruct (anTagIdx a s); [|congruence]. destruct (anEdgeIdx a s); [|congruence]. destruct (anListeners a s); [|congruence]. destruct (anSpace a n); [|congruence].
    cbn [obind]. apply IH. intros s' n' Hi. apply Hs. cbn. auto.
Qed.

(** * C94 *)
(** Whatever happened before - failed heartbeats, failed loads, loads during which the server changed - the first
    heartbeat round all of whose requests are answered in version [n] leaves the client holding version [n],
    provided update times are positive and grow with every change. *)
Theorem C94_catches_up : forall local rds v n c a c', (forall k, 0 < stamp k) -> (forall i j, (i < j)%nat -> stamp i < stamp j) ->
  plays 0 rds v -> (v <= n)%nat -> doRounds local freshClient rds = Ret c ->
  drawnFrom (eq n) a -> answered a -> heartBeatRound local c (HbTime (stamp n)) true a = Ret c' -> holds c' (world n).
Proof.
  intros local rds v n c a c' Pos Mono Pl Hv Hc D An H.
  assert (I : inv c v). { eapply rounds_inv; [exact Pl|exact Hc| |reflexivity]. split; left; reflexivity. }
  unfold heartBeatRound in H. cbn [heartbeat withTimes clLocalTime clMetaTime] in H. destruct (Z.ltb_spec (clLocalTime c) (stamp n)) as [Hlt|Hge].
  - unfold reload in H. destruct (loadData local (withTimes c (clLocalTime c) (stamp n)) a) as [r| | |] eqn:E; try discriminate. cbn [obind] in H.
    pose proof (answered_ok _ _ _ _ An E) as O. rewrite O in H. cbn [andb] in H. apply Ret_inj in H. subst c'.
    destruct (load_from (eq n) local _ a r D E) as (_ & _ & _ & T & _). destruct (T O) as [A R]. apply allFrom_holds; [apply withTimes_from; exact A|exact R].
  - apply Ret_inj in H. subst c'. destruct I as [_ [L | (k & Hk & L & A & R)]]; [pose proof (Pos n); lia|].
    assert (k = n). { destruct (Nat.lt_trichotomy k n) as [X | [X | X]]; [|exact X|lia]. apply Mono in X. lia. } subst k. assert (v = n) by lia. subst v.
    apply allFrom_holds; [|exact R]. apply withTimes_from. eapply allFrom_mono; [|exact A]. cbn. intros j. lia.
Qed.
(** Holding it, the client asks for nothing more and keeps it as long as the server stays at [n]. *)
Theorem C94_rests : forall local c n cfg a c', clLocalTime c = stamp n -> heartBeatRound local c (HbTime (stamp n)) cfg a = Ret c' ->
  c' = withTimes c (stamp n) (stamp n) /\ (holds c (world n) -> holds c' (world n)).
Proof.
  intros local c n cfg a c' L H. unfold heartBeatRound in H. cbn [heartbeat withTimes clLocalTime clMetaTime] in H. rewrite L, Z.ltb_irrefl in H. apply Ret_inj in H. subst c'. split; [rewrite <- L; reflexivity|].
  intros (r & E). exists r. exact E.
Qed.
End Server.

(** In terms of the lookups: after such a round spaces, replicas and accounts are those of the answers [a] of version [n]. *)
Theorem C94_lookups_current : forall a c, tidy a -> holds c a ->
  (forall m s, spaceIdByName c m = Some s <-> hasSpace a s m) /\
  (forall s p hs, getPartHosts (allocs (clCache c)) (s, p) = Some hs <-> hasPart a s p hs) /\
  (forall u pw, authCheck c u pw = true <-> hasUser a u pw) /\
  (forall s id it, tagIndexById c s id = Some it <-> hasIndex anTagIdx a s it /\ ixId it = id).
Proof.
  intros a c T (r & H & O & R & E1 & E2 & E3 & E4 & E5 & E6 & E7 & E8).
  destruct (C89_spaces _ _ _ _ T H O) as [S _]. destruct (C89_parts _ _ _ _ T H O) as [P _]. destruct (C89_accounts _ _ _ _ T H O) as [A _]. destruct (C89_indexes_by_id _ _ _ _ T H O) as [I _].
  destruct (load_spaces _ _ _ _ T H O) as (_ & _ & _ & R'). unfold spaceIdByName, authCheck, tagIndexById, indexById in *. rewrite R' in *. rewrite R, E2, E5, E6. splits; auto.
Qed.

(** False as stated: two changes with the same update time, the second after the load, are told apart by nothing;
    the client never notices, however many heartbeats follow. *)
Definition syW (k : nat) : answers := match k with O => exA [] (Some []) [] (Some []) (Some []) | _ => exA [] (Some [(1, B "s")]) [] (Some []) (Some []) end.
Definition sameStamp (k : nat) : Z := 5.
Definition startRound : round := mkRound true (HbTime 5) true (syW 0).
Definition laterRound : round := mkRound false (HbTime 5) true (syW 1).
Lemma drawn_self world (P : nat -> Prop) k : P k -> drawnFrom world P (world k).
Proof. intros H. unfold drawnFrom, drawn. splits; intros; right; exists k; auto. Qed.
Theorem C94_same_time_refuted : forall m, exists c, plays syW sameStamp 0 (startRound :: repeat laterRound m) (match m with O => 0 | _ => 1 end)%nat /\
  doRounds None freshClient (startRound :: repeat laterRound m) = Ret c /\ clReady c = true /\
  spaceIdByName c (B "s") = None /\ hasSpace (syW 1) 1 (B "s").
Proof.
  intros m. assert (S0 : exists c0, doRound None freshClient startRound = Ret c0 /\ clReady c0 = true /\ clLocalTime c0 = 5 /\ clMetaTime c0 = 5 /\ spaceIdByName c0 (B "s") = None).
  { eexists. split; [vm_compute; reflexivity|]. splits; reflexivity. }
  destruct S0 as (c0 & S0 & R & L & M & N). exists c0. splits; auto.
  - apply (pl_cons syW sameStamp 0 0 0); [lia|lia|cbn; intros t X; injection X as <-; reflexivity|apply (drawn_self syW _ 0%nat); lia|].
    assert (K : forall m v, (v <= 1)%nat -> plays syW sameStamp v (repeat laterRound (S m)) 1).
    { induction m0 as [|m0 IH]; intros v Hv; cbn [repeat]; apply (pl_cons syW sameStamp v 1 1); try lia; try (cbn; intros t X; injection X as <-; reflexivity); try (apply (drawn_self syW _ 1%nat); lia).
      - constructor.
      - apply IH. lia. }
    destruct m as [|m]; [constructor|apply K; lia].
  - cbn [doRounds]. rewrite S0. cbn [obind]. clear S0. assert (K : doRound None c0 laterRound = Ret c0).
    { unfold doRound. cbn [laterRound rdStart rdHb]. unfold heartBeatRound. cbn [heartbeat withTimes clLocalTime clMetaTime]. rewrite L, Z.ltb_irrefl. f_equal. destruct c0. cbn in *. subst. reflexivity. }
    induction m as [|m IH]; cbn [repeat doRounds]; [reflexivity|]. rewrite K. exact IH.
  - exists [(1, B "s")]. cbn. auto.
Qed.

(** A run meeting the hypotheses: a start, a change met by a failing load, and a heartbeat that succeeds. *)
Definition exStamp (k : nat) : Z := 5 + Z.of_nat k.
Example C94_ex : exists c c', plays syW exStamp 0 [startRound; mkRound false (HbTime 6) true (exA [] None [] None None)] 1 /\
  doRounds None freshClient [startRound; mkRound false (HbTime 6) true (exA [] None [] None None)] = Ret c /\ spaceIdByName c (B "s") = None /\
  answered (syW 1) /\ heartBeatRound None c (HbTime 6) true (syW 1) = Ret c' /\ spaceIdByName c' (B "s") = Some 1.
Proof.
  do 2 eexists. splits.
  - apply (pl_cons syW exStamp 0 0 0); [lia|lia|cbn; intros t X; injection X as <-; reflexivity|apply (drawn_self syW _ 0%nat); lia|].
    apply (pl_cons syW exStamp 0 1 1); [lia|lia|cbn; intros t X; injection X as <-; reflexivity| |constructor].
    unfold drawnFrom, drawn, exA. cbn. splits; intros; auto; right; exists 1%nat; auto.
  - vm_compute. reflexivity.
  - reflexivity.
  - unfold answered, syW, exA. cbn. splits; try discriminate; [exists []; split; [reflexivity|intros ? ? []]|]. exists [(1, B "s")]. split; [reflexivity|]. intros. splits; discriminate.
  - vm_compute. reflexivity.
  - reflexivity.
Qed.

Print Assumptions C94_catches_up. Print Assumptions C94_rests. Print Assumptions C94_lookups_current. Print Assumptions C94_same_time_refuted.
