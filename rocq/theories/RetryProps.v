(** Property C59: retries of meta requests. *)
From Coq Require Import String.
From Verif Require Import Prelude ValueBase LeaderModel RetryModel.
Open Scope Z_scope.

Section S.
Context {P R : Type}.

(** * Specification *)
(** an outcome after which the request may be sent again *)
Definition retryable (o : outcome P) : Prop :=
  match o with OExc => True | OResp code _ _ => code = E_LEADER_CHANGED end.
Definition success (o : outcome P) : Prop := match o with OExc => False | OResp code _ _ => code = SUCCEEDED end.
(** what the caller is told about the last outcome *)
Definition tells (g : P -> R) (o : outcome P) (r : mresult R) : Prop :=
  match o with
  | OExc => r = MFail FRpc
  | OResp code _ p =>
      (code = SUCCEEDED -> r = MValue (g p)) /\ (code = E_LEADER_CHANGED -> r = MFail FLeaderChanged) /\
      (code <> SUCCEEDED -> code <> E_LEADER_CHANGED -> r = MFail (FError code))
  end.
Definition isSend (e : event R) : bool := match e with ESend _ => true | _ => false end.
Definition isFulfil (e : event R) : bool := match e with EFulfil _ => true | _ => false end.
Definition sends (evs : list (event R)) : nat := length (filter isSend evs).
Definition fulfils (evs : list (event R)) : nat := length (filter isFulfil evs).

Context (g : P -> R) (addrs : list host) (out : nat -> outcome P) (rnd : nat -> nat) (env : nat -> mclient -> mclient).
Notation get := (getResponse g addrs out rnd env).

Lemma get_spec fuel : forall toLeader retry limit k m, (Z.to_nat (limit - retry) < fuel)%nat ->
  exists j hs r m', get fuel toLeader retry limit k m = Some (map ESend hs ++ [EFulfil r], m') /\
    length hs = S j /\ Z.of_nat j <= Z.max 0 (limit - retry) /\
    (forall i, (i < j)%nat -> retryable (out (k + i)%nat)) /\
    (Z.of_nat j = Z.max 0 (limit - retry) \/ ~ retryable (out (k + j)%nat)) /\ tells g (out (k + j)%nat) r.
Proof.
  induction fuel as [|fuel IH]; intros toLeader retry limit k m Hf; [lia|]. cbn [getResponse]. cbv zeta.
  set (h := if toLeader then leader (env k m) else active (env k m)).
  assert (Again : retryable (out k) -> retry < limit -> forall m', exists j hs r m'',
    (match get fuel toLeader (retry + 1) limit (S k) m' with Some (evs, m'') => Some (ESend h :: evs, m'') | None => None end)
      = Some (map ESend hs ++ [EFulfil r], m'') /\
    length hs = S j /\ Z.of_nat j <= Z.max 0 (limit - retry) /\
    (forall i, (i < j)%nat -> retryable (out (k + i)%nat)) /\
    (Z.of_nat j = Z.max 0 (limit - retry) \/ ~ retryable (out (k + j)%nat)) /\ tells g (out (k + j)%nat) r).
  { intros Hr Hlt m'. destruct (IH toLeader (retry + 1) limit (S k) m') as (j & hs & r & m'' & E & Hl & Hj & Hall & Hend & Ht); [lia|].
    exists (S j), (h :: hs), r, m''. rewrite E. cbn [map app length].
    replace (k + S j)%nat with (S k + j)%nat by lia.
    split; [reflexivity|]. split; [lia|]. split; [lia|]. split; [|split; [|exact Ht]].
    - intros [|i] Hi; [rewrite Nat.add_0_r; exact Hr|]. replace (k + S i)%nat with (S k + i)%nat by lia. apply Hall. lia.
    - destruct Hend as [He | He]; [left; lia|right; exact He]. }
  assert (Stop : forall r (m' : mclient), (limit <= retry \/ ~ retryable (out k)) -> tells g (out k) r -> exists j hs r' m'',
    @Some (list (event R) * mclient) ([ESend h; EFulfil r], m') = Some (map ESend hs ++ [EFulfil r'], m'') /\
    length hs = S j /\ Z.of_nat j <= Z.max 0 (limit - retry) /\
    (forall i, (i < j)%nat -> retryable (out (k + i)%nat)) /\
    (Z.of_nat j = Z.max 0 (limit - retry) \/ ~ retryable (out (k + j)%nat)) /\ tells g (out (k + j)%nat) r').
  { intros r m' Hs Ht. exists 0%nat, [h], r, m'. rewrite Nat.add_0_r. split; [reflexivity|]. split; [reflexivity|]. split; [lia|].
    split; [intros i Hi; lia|]. split; [|exact Ht]. destruct Hs as [Hs | Hs]; [left; lia|right; exact Hs]. }
  destruct (out k) as [|code l p] eqn:Eo; cbn iota beta.
  - destruct (Z.ltb_spec retry limit).
    + apply Again; [exact I|assumption].
    + apply Stop; [left; assumption|]. reflexivity.
  - destruct (Z.eqb_spec code SUCCEEDED) as [-> |Hs].
    + apply Stop; [right; cbn; discriminate|]. cbn. splits; [reflexivity|discriminate|congruence].
    + destruct (Z.eqb_spec code E_LEADER_CHANGED) as [-> |Hl].
      * destruct (Z.ltb_spec retry limit).
        -- apply Again; [reflexivity|assumption].
        -- apply Stop; [left; assumption|]. cbn. splits; [discriminate|reflexivity|congruence].
      * apply Stop; [right; cbn; assumption|]. cbn. unfold handleResponse.
        destruct (Z.eqb_spec code SUCCEEDED); [congruence|]. destruct (Z.eqb_spec code E_LEADER_CHANGED); [congruence|].
        splits; [congruence|congruence|reflexivity].
Qed.

Lemma sends_shape hs r : sends (map ESend hs ++ [EFulfil r]) = length hs /\ fulfils (map ESend hs ++ [EFulfil r]) = 1%nat.
Proof. unfold sends, fulfils. induction hs as [|h hs [I1 I2]]; cbn; [auto|]. cbn in I1, I2. auto. Qed.

(** * C59 *)

(** A request ends, is sent at least once and at most [limit + 1] times, and its promise is fulfilled exactly once,
    after the last attempt. *)
Theorem C59_bounded_and_answered_once : forall toLeader limit m,
  exists evs m' before r, request g addrs out rnd env toLeader limit m = Some (evs, m') /\
    (1 <= sends evs)%nat /\ Z.of_nat (sends evs) <= Z.max 0 limit + 1 /\
    fulfils evs = 1%nat /\ evs = before ++ [EFulfil r].
Proof.
  intros toLeader limit m. destruct (get_spec (S (Z.to_nat limit)) toLeader 0 limit 0 m) as (j & hs & r & m' & E & Hl & Hj & _); [lia|].
  exists (map ESend hs ++ [EFulfil r]), m', (map ESend hs), r. destruct (sends_shape hs r) as [S1 S2]. rewrite S1, S2, Hl.
  splits; auto; lia.
Qed.

(** The answer is that of the last attempt; all attempts before it were an exception or a changed leader, and it is
    the last permitted one unless it is final itself. *)
Theorem C59_answer : forall toLeader limit m evs m', request g addrs out rnd env toLeader limit m = Some (evs, m') ->
  exists last r, sends evs = S last /\ In (EFulfil r) evs /\
    (forall i, (i < last)%nat -> retryable (out i)) /\
    (Z.of_nat last = Z.max 0 limit \/ ~ retryable (out last)) /\ tells g (out last) r.
Proof.
  intros toLeader limit m evs m' H.
  destruct (get_spec (S (Z.to_nat limit)) toLeader 0 limit 0 m) as (j & hs & r & m2 & E & Hl & Hj & Hall & Hend & Ht); [lia|].
  unfold request in H. rewrite E in H. injection H as <- <-. exists j, r. destruct (sends_shape hs r) as [S1 _]. rewrite S1.
  rewrite Z.sub_0_r in *. splits; auto. apply in_app_iff. right. left. reflexivity.
Qed.

(** The first success is delivered, if only exceptions and changed leaders came before it, within the limit. *)
Theorem C59_first_success : forall toLeader limit m evs m' j code l p,
  request g addrs out rnd env toLeader limit m = Some (evs, m') ->
  out j = OResp code l p -> code = SUCCEEDED -> Z.of_nat j <= Z.max 0 limit ->
  (forall i, (i < j)%nat -> retryable (out i)) ->
  In (EFulfil (MValue (g p))) evs /\ sends evs = S j.
Proof.
  intros toLeader limit m evs m' j code l p H Ej Hc Hj Hall.
  destruct (C59_answer _ _ _ _ _ H) as (last & r & Hs & Hin & Hbefore & Hend & Ht).
  assert (last = j).
  { destruct (Nat.lt_total last j) as [L | [L | L]]; [|assumption|].
    - exfalso. destruct Hend as [He | He]; [lia|]. apply He, Hall, L.
    - exfalso. pose proof (Hbefore j L) as Hr. rewrite Ej in Hr. cbn in Hr. rewrite Hc in Hr. discriminate Hr. }
  subst last. split; [|assumption]. rewrite Ej in Ht. cbn in Ht. destruct Ht as (Ht & _). rewrite (Ht Hc) in Hin. exact Hin.
Qed.

(** Without a success within the limit the caller gets an error. *)
Theorem C59_error_otherwise : forall toLeader limit m evs m',
  request g addrs out rnd env toLeader limit m = Some (evs, m') ->
  (forall i, Z.of_nat i <= Z.max 0 limit -> ~ success (out i)) ->
  exists e, In (EFulfil (MFail e)) evs.
Proof.
  intros toLeader limit m evs m' H Hno.
  destruct (C59_answer _ _ _ _ _ H) as (last & r & Hs & Hin & _ & _ & Ht).
  destruct (C59_bounded_and_answered_once toLeader limit m) as (evs2 & m2 & b & r2 & E & _ & Hle & _). rewrite H in E. injection E as -> ->.
  assert (Hns : ~ success (out last)) by (apply Hno; lia).
  unfold tells, success in *. destruct (out last) as [|code l p].
  - subst r. eauto.
  - destruct Ht as (_ & H2 & H3). destruct (Z.eq_dec code E_LEADER_CHANGED) as [E | E]; [rewrite (H2 E) in Hin|rewrite (H3 Hns E) in Hin]; eauto.
Qed.

Lemma get_first fuel toLeader retry limit k m evs m' : get fuel toLeader retry limit k m = Some (evs, m') ->
  exists rest, evs = ESend (if toLeader then leader (env k m) else active (env k m)) :: rest.
Proof.
  destruct fuel as [|fuel]; [discriminate|]. cbn [getResponse]. cbv zeta. intros H.
  repeat match type of H with
  | context [match out ?k with _ => _ end] => destruct (out k)
  | (if ?b then _ else _) = _ => destruct b
  | match ?x with Some _ => _ | None => _ end = _ => destruct x as [[]|]
  end; try discriminate H; injection H as <- _; eexists; reflexivity.
Qed.

(** After a changed leader that names the new one, the next attempt goes there (if nothing else changes leader_). *)
Theorem C59_follows_the_leader : forall limit m evs m' l p, (forall k m, env k m = m) ->
  request g addrs out rnd env true limit m = Some (evs, m') -> 0 < limit ->
  out 0%nat = OResp E_LEADER_CHANGED l p -> l <> noHost ->
  exists rest, evs = ESend (leader m) :: ESend l :: rest.
Proof.
  intros limit m evs m' l p He H Hl E0 Hn. unfold request in H. cbn [getResponse] in H. cbv zeta in H. rewrite E0, !He in H.
  change (E_LEADER_CHANGED =? SUCCEEDED) with false in H. change (E_LEADER_CHANGED =? E_LEADER_CHANGED) with true in H. cbn iota in H.
  destruct (Z.ltb_spec 0 limit); [|lia].
  assert (hostEqb l noHost = false) as Hne by (destruct (hostEqb l noHost) eqn:Q; [apply hostEqb_ok in Q; congruence|reflexivity]).
  unfold updateLeaderTo in H. rewrite Hne in H.
  destruct (get (Z.to_nat limit) true (0 + 1) limit 1 (mkMC l (active m))) as [[evs' m2]|] eqn:G; [|discriminate H].
  injection H as <- _. apply get_first in G. rewrite He in G. destruct G as (rest & ->). eexists. reflexivity.
Qed.
(** The address a random index stands for *)
Definition drawnAddr (i : nat) : host := nth (rnd i mod length addrs)%nat addrs noHost.
(** Where the attempt after one that went to [h] and ended with [o] goes to *)
Definition moves (toLeader : bool) (o : outcome P) (i : nat) (h h' : host) : Prop :=
  match o with
  | OExc => h' = drawnAddr i
  | OResp _ l _ => if toLeader then (l <> noHost -> h' = l) /\ (l = noHost -> h' = drawnAddr i) else h' = h
  end.
Definition hostsOf (evs : list (event R)) : list host := flat_map (fun e => match e with ESend h => [h] | EFulfil _ => [] end) evs.
Lemma get_hosts fuel : (forall k m, env k m = m) -> forall toLeader retry limit k m evs m', get fuel toLeader retry limit k m = Some (evs, m') ->
  nth_error (hostsOf evs) 0 = Some (if toLeader then leader m else active m) /\
  forall i h h', nth_error (hostsOf evs) i = Some h -> nth_error (hostsOf evs) (S i) = Some h' -> moves toLeader (out (k + i)%nat) (k + i)%nat h h'.
Proof.
  intros He. induction fuel as [|fuel IH]; intros toLeader retry limit k m evs m' H; [discriminate|]. cbn [getResponse] in H. cbv zeta in H. rewrite He in H.
  set (h0 := if toLeader then leader m else active m) in *.
  assert (Stop : forall r m0, Some ([ESend h0; EFulfil r], m0) = Some (evs, m') -> nth_error (hostsOf evs) 0 = Some h0 /\
    forall i h h', nth_error (hostsOf evs) i = Some h -> nth_error (hostsOf evs) (S i) = Some h' -> moves toLeader (out (k + i)%nat) (k + i)%nat h h').
  { intros r m0 E. injection E as <- _. split; [reflexivity|]. intros [|[|i]] h h' X Y; discriminate Y. }
  assert (Again : forall m0, moves toLeader (out k) k h0 (if toLeader then leader m0 else active m0) ->
    match get fuel toLeader (retry + 1) limit (S k) m0 with Some (evs, m'') => Some (ESend h0 :: evs, m'') | None => None end = Some (evs, m') -> nth_error (hostsOf evs) 0 = Some h0 /\
    forall i h h', nth_error (hostsOf evs) i = Some h -> nth_error (hostsOf evs) (S i) = Some h' -> moves toLeader (out (k + i)%nat) (k + i)%nat h h').
  { intros m0 Hm E. destruct (get fuel toLeader (retry + 1) limit (S k) m0) as [[evs' m2]|] eqn:G; [|discriminate]. injection E as <- _. destruct (IH _ _ _ _ _ _ _ G) as [I0 IS].
    split; [reflexivity|]. change (hostsOf (ESend h0 :: evs')) with (h0 :: hostsOf evs'). intros [|i] h h' X Y.
    - cbn [nth_error] in X. injection X as <-. change (nth_error (hostsOf evs') 0 = Some h') in Y. rewrite I0 in Y. injection Y as <-. rewrite Nat.add_0_r. exact Hm.
    - replace (k + S i)%nat with (S k + i)%nat by lia. apply IS; assumption. }
  destruct (out k) as [|code l p] eqn:Eo.
  - destruct (retry <? limit); [|apply Stop in H; exact H]. apply Again in H; [exact H|]. cbn [moves]. destruct toLeader; reflexivity.
  - destruct (code =? SUCCEEDED); [apply Stop in H; exact H|]. destruct (code =? E_LEADER_CHANGED); [|apply Stop in H; exact H].
    destruct (retry <? limit); [|apply Stop in H; exact H]. apply Again in H; [exact H|]. cbn [moves]. destruct toLeader; [|reflexivity].
    cbn [updateLeaderTo leader]. destruct (hostEqb l noHost) eqn:Q; [apply hostEqb_ok in Q; split; [congruence|reflexivity]|]. split; [reflexivity|]. intros ->. exfalso. assert (hostEqb noHost noHost = true) by (apply hostEqb_ok; reflexivity). congruence.
Qed.
(** The first attempt goes to the leader (or the active host); after an exception the next one goes to the address
    drawn, after a changed leader to the one named, or to the address drawn if none is. *)
Theorem C59_hosts_tried : forall toLeader limit m evs m', (forall k m, env k m = m) -> request g addrs out rnd env toLeader limit m = Some (evs, m') ->
  nth_error (hostsOf evs) 0 = Some (if toLeader then leader m else active m) /\
  forall i h h', nth_error (hostsOf evs) i = Some h -> nth_error (hostsOf evs) (S i) = Some h' -> moves toLeader (out i) i h h'.
Proof. intros toLeader limit m evs m' He H. apply (get_hosts _ He _ _ _ _ _ _ _ H). Qed.
End S.

(** Three attempts are allowed: an exception, a changed leader, then a success. *)
Definition exOut (k : nat) : outcome Z := match k with O => OExc | 1%nat => OResp E_LEADER_CHANGED (B "b", 2) 0 | _ => OResp SUCCEEDED noHost 42 end.
Definition exAddrs : list host := [(B "a", 1); (B "b", 2); (B "c", 3)].
Definition noEnv (k : nat) (m : mclient) : mclient := m.
Example C59_ex : request (R := Z) (fun p => p) exAddrs exOut (fun _ => 2%nat) noEnv true 3 (mkMC (B "a", 1) (B "a", 1))
  = Some ([ESend (B "a", 1); ESend (B "c", 3); ESend (B "b", 2); EFulfil (MValue 42)], mkMC (B "b", 2) (B "a", 1)).
Proof. reflexivity. Qed.
Example C59_ex_limit : request (R := Z) (fun p => p) exAddrs exOut (fun _ => 2%nat) noEnv true 1 (mkMC (B "a", 1) (B "a", 1))
  = Some ([ESend (B "a", 1); ESend (B "c", 3); EFulfil (MFail FLeaderChanged)], mkMC (B "b", 2) (B "a", 1)).
Proof. reflexivity. Qed.

(** False as stated: any other error code ends the request at once, so a success that a further permitted attempt
    would have brought is not delivered (E_STORE_FAILURE and the like are not retried). *)
Theorem C59_first_success_refuted : exists (out : nat -> outcome Z) evs m',
  request (R := Z) (fun p => p) exAddrs out (fun _ => 0%nat) noEnv true 3 (mkMC (B "a", 1) (B "a", 1)) = Some (evs, m') /\
  success (out 1%nat) /\ forall v, ~ In (EFulfil (MValue v)) evs.
Proof.
  exists (fun k => match k with O => OResp (-2001) noHost 0 | _ => OResp SUCCEEDED noHost 42 end).
  eexists. eexists. split; [reflexivity|]. split; [reflexivity|]. intros v [H | [H | []]]; discriminate H.
Qed.
(** A failed RPC re-draws the leader from all addresses, the failed one included: the retry can go to the same host
    until the limit is used up while another host would answer. *)
Theorem C59_same_host_again_refuted : exists rnd evs m',
  request (P := Z) (R := Z) (fun p => p) exAddrs (fun _ => OExc) rnd noEnv true 2 (mkMC (B "a", 1) (B "a", 1)) = Some (evs, m') /\
  forall h, In (ESend h) evs -> h = (B "a", 1).
Proof.
  exists (fun _ => 0%nat). eexists. eexists. split; [reflexivity|].
  intros h [H | [H | [H | [H | []]]]]; try discriminate H; injection H as <-; reflexivity.
Qed.

Print Assumptions C59_bounded_and_answered_once.
Print Assumptions C59_answer.
Print Assumptions C59_hosts_tried.
Print Assumptions C59_first_success.
Print Assumptions C59_error_otherwise.
Print Assumptions C59_follows_the_leader.
Print Assumptions C59_first_success_refuted.
