(** The clients that a thread gets from its ThriftClientManager, over all sequences of calls. *)
From Coq Require Import String List.
From Verif Require Import Prelude ValueBase ValueProofs NetModel AssocModel ClientManModel.
Import ListNotations.
Local Open Scope Z_scope.
Local Open Scope list_scope.

Lemma keyEqb_ok a b : clientKeyEqb a b = true <-> a = b.
Proof.
  destruct a as [[h p] e], b as [[h' p'] e']. unfold clientKeyEqb. cbn. rewrite !andb_true_iff, !Z.eqb_eq, strEqb_eq. split.
  - intros [[-> ->] ->]. reflexivity.
  - intros E. injection E as -> -> ->. auto.
Qed.
Local Notation get := (aget clientKeyEqb).
Lemma get_aadd k c (m : list (clientKey * conn)) k' : get k' (aadd clientKeyEqb k c m) = match get k' m with Some x => Some x | None => if clientKeyEqb k' k then Some c else None end.
Proof.
  unfold aadd. destruct (get k m) as [x |] eqn:E.
  - destruct (get k' m) eqn:E'; [reflexivity |]. destruct (clientKeyEqb k' k) eqn:K; [| reflexivity].
    apply keyEqb_ok in K. subst. congruence.
  - induction m as [| [k0 c0] m IH]; cbn in *; [reflexivity |].
    destruct (clientKeyEqb k k0) eqn:K0; [discriminate |]. destruct (clientKeyEqb k' k0); [reflexivity | exact (IH E)].
Qed.
Lemma aadd_keys k c (m : list (clientKey * conn)) : NoDup (akeys m) -> NoDup (akeys (aadd clientKeyEqb k c m)).
Proof.
  intros N. unfold aadd. destruct (get k m) eqn:E; [exact N |]. apply (proj1 (aget_None _ keyEqb_ok _ _)) in E.
  unfold akeys in *. rewrite map_app. cbn. apply NoDup_app_disj; [exact N | constructor; [intros [] | constructor] |].
  intros x X [<- | []]. exact (E X).
Qed.

(** ** The states that calls lead to *)
(** An entry belongs to its key, is older than what comes, and there is one for every key *)
Definition fits (k : clientKey) (c : conn) : Prop := cnHost c = haHost (fst k) /\ cnPort c = u16 (haPort (fst k)) /\ cnEvb c = snd k.
Definition inv (s : clientMan) : Prop :=
  NoDup (akeys (cmMap s)) /\ forall k c, get k (cmMap s) = Some c -> fits k c /\ cnId c < cmNext s.

Section P.
Context (isIp : str -> bool) (ownEvb : Z).
Local Notation client := (client isIp ownEvb).
Local Notation clients := (clients isIp ownEvb).
Local Notation evbOf := (evbOf ownEvb).

(** What one call does *)
Inductive did (q : clientCall) (s : clientMan) (c : conn) (s' : clientMan) : Prop :=
| Reused : get (ccHost q, evbOf q) (cmMap s) = Some c -> ccGood q c = true -> s' = s -> did q s c s'
| Created (m : list (clientKey * conn)) :
    (forall k, get k m = if clientKeyEqb k (ccHost q, evbOf q) then None else get k (cmMap s)) ->
    (forall x, get (ccHost q, evbOf q) (cmMap s) = Some x -> ccGood q x = false) ->
    NoDup (akeys m) ->
    (c, s') = connect isIp ownEvb q m (cmNext s) -> did q s c s'.
Lemma client_did q s : inv s -> did q s (fst (client q s)) (snd (client q s)).
Proof.
  intros [N _]. unfold ClientManModel.client. destruct (get _ (cmMap s)) as [c |] eqn:E.
  - destruct (ccGood q c) eqn:G.
    + apply Reused; auto.
    + apply (Created q s _ _ (adel clientKeyEqb (ccHost q, evbOf q) (cmMap s))); auto.
      * intros k. apply (aget_adel _ keyEqb_ok). exact N.
      * intros x X. congruence.
      * apply (adel_keys _ keyEqb_ok). exact N.
  - apply (Created q s _ _ (cmMap s)); auto.
    + intros k. destruct (clientKeyEqb k (ccHost q, evbOf q)) eqn:K; [| reflexivity]. apply keyEqb_ok in K. subst. exact E.
    + intros x X. congruence.
Qed.
Lemma client_inv q s : inv s -> inv (snd (client q s)).
Proof.
  intros V. destruct (client_did q s V) as [_ _ -> | m M _ N E]; [exact V |]. unfold connect in E; cbv zeta in E. injection E as _ ->.
  destruct V as [_ V]. split; cbn [cmMap cmNext].
  - apply aadd_keys. exact N.
  - intros k c. rewrite get_aadd, M. destruct (clientKeyEqb k (ccHost q, evbOf q)) eqn:K1.
    + destruct (clientKeyEqb k (resolved isIp q, evbOf q)) eqn:K; [| discriminate]. intros X. injection X as <-. apply keyEqb_ok in K. subst k. unfold fits. cbn. splits; auto; lia.
    + destruct (get k (cmMap s)) as [x |] eqn:Ex.
      * intros X. injection X as <-. destruct (V _ _ Ex) as [F L]. split; [exact F | lia].
      * destruct (clientKeyEqb k (resolved isIp q, evbOf q)) eqn:K; [| discriminate]. intros X. injection X as <-. apply keyEqb_ok in K. subst k. unfold fits. cbn. splits; auto; lia.
Qed.
Lemma clients_inv qs : forall s, inv s -> inv (snd (clients qs s)).
Proof.
  induction qs as [| q r IH]; intros s V; cbn; [exact V |]. destruct (client q s) as [c s1] eqn:E.
  pose proof (client_inv q s V) as V1. rewrite E in V1. cbn in V1. pose proof (IH s1 V1) as W. destruct (clients r s1). exact W.
Qed.
Lemma inv_new : inv newMan.
Proof. split; cbn; [constructor | discriminate]. Qed.
Lemma clients_app a b s : clients (a ++ b) s = (fst (clients a s) ++ fst (clients b (snd (clients a s))), snd (clients b (snd (clients a s)))).
Proof.
  revert s. induction a as [| q a IH]; intros s; cbn; [destruct (clients b s); reflexivity |].
  destruct (client q s) as [c s1]. rewrite IH. destruct (clients a s1) as [cs s2]. cbn. destruct (clients b s2). reflexivity.
Qed.

(** the state after calls, and the client that a further call returns *)
Definition after (qs : list clientCall) : clientMan := snd (clients qs newMan).
Definition earlier (qs : list clientCall) : list conn := fst (clients qs newMan).
Definition returned (qs : list clientCall) (q : clientCall) : conn := fst (client q (after qs)).
Lemma after_inv qs : inv (after qs).
Proof. apply clients_inv. exact inv_new. Qed.
Lemma after_snoc qs q : after (qs ++ [q]) = snd (client q (after qs)).
Proof. unfold after. rewrite clients_app. cbn. destruct (client q _). reflexivity. Qed.
Lemma earlier_snoc qs q : earlier (qs ++ [q]) = earlier qs ++ [returned qs q].
Proof. unfold earlier, returned, after. rewrite clients_app. cbn. destruct (client q _). reflexivity. Qed.

(** ** Where a client leads *)
(** The address for a host: an address is itself, a name what it resolves to at the time of the call, or itself if that fails *)
Definition leadsTo (q : clientCall) (a : str) : Prop :=
  (isIp (haHost (ccHost q)) = true /\ a = haHost (ccHost q)) \/
  (isIp (haHost (ccHost q)) = false /\
   ((exists ip, ccResolve q (haHost (ccHost q)) = Some ip /\ a = ip) \/ (ccResolve q (haHost (ccHost q)) = None /\ a = haHost (ccHost q)))).
Lemma leadsTo_resolved q : leadsTo q (haHost (resolved isIp q)) /\ haPort (resolved isIp q) = haPort (ccHost q).
Proof.
  unfold leadsTo, resolved. destruct (isIp _) eqn:I; [tauto |]. destruct (ccResolve q _) as [ip |] eqn:R; cbn; [| tauto].
  split; [| reflexivity]. right. split; [reflexivity |]. left. exists ip. tauto.
Qed.
(** Every client leads to the host asked for, on the event base asked for. Hypothesis: a socket for a text that is no address is not good (folly fails
    it at once) *)
Theorem C118_leads_there : forall qs q, (forall c, ccGood q c = true -> isIp (cnHost c) = true) ->
  leadsTo q (cnHost (returned qs q)) /\ cnPort (returned qs q) = haPort (ccHost q) mod 65536 /\
  cnEvb (returned qs q) = match ccEvb q with Some e => e | None => ownEvb end.
Proof.
  intros qs q G. unfold returned. pose proof (after_inv qs) as V. destruct (client_did q _ V) as [E Gc _ | m M X N E].
  - destruct V as [_ V]. destruct (V _ _ E) as [(H & P & Ev) _]. cbn in H, P, Ev. splits.
    + left. pose proof (G _ Gc) as I. rewrite H in I. auto.
    + rewrite P. reflexivity.
    + rewrite Ev. reflexivity.
  - unfold connect in E; cbv zeta in E. injection E as -> _. cbn. destruct (leadsTo_resolved q) as [L ->]. splits; auto.
Qed.

(** ** Alive *)
Lemma held_earlier qs : forall k c, get k (cmMap (after qs)) = Some c -> In c (earlier qs).
Proof.
  induction qs as [| q qs IH] using rev_ind; intros k c; [discriminate |].
  rewrite after_snoc, earlier_snoc, in_app_iff. unfold returned.
  destruct (client_did q _ (after_inv qs)) as [E _ -> | m M X N E].
  - intros H. left. eapply IH. exact H.
  - unfold connect in E; cbv zeta in E. injection E as -> ->. cbn [cmMap]. rewrite get_aadd, M.
    destruct (clientKeyEqb k (ccHost q, evbOf q)) eqn:K1.
    + destruct (clientKeyEqb k (resolved isIp q, evbOf q)); [| discriminate]. intros H. injection H as <-. right. cbn. auto.
    + destruct (get k (cmMap (after qs))) as [x |] eqn:Ex.
      * intros H. injection H as <-. left. eapply IH. exact Ex.
      * destruct (clientKeyEqb k (resolved isIp q, evbOf q)); [| discriminate]. intros H. injection H as <-. right. cbn. auto.
Qed.
Lemma earlier_ids qs : forall c, In c (earlier qs) -> cnId c < cmNext (after qs).
Proof.
  induction qs as [| q qs IH] using rev_ind; intros c; [intros [] |].
  rewrite after_snoc, earlier_snoc, in_app_iff. unfold returned. intros H.
  destruct (client_did q _ (after_inv qs)) as [E _ -> | m M X N E].
  - destruct H as [H | [<- | []]]; [apply IH; exact H |]. apply IH. eapply held_earlier. exact E.
  - unfold connect in E; cbv zeta in E. injection E as E1 ->. rewrite E1 in H. cbn [cmNext]. destruct H as [H | [<- | []]]; [specialize (IH _ H); lia | cbn; lia].
Qed.
(** A call returns a client of before only while it is good; otherwise the client is a new one *)
Theorem C118_alive : forall qs q,
  (In (returned qs q) (earlier qs) /\ ccGood q (returned qs q) = true) \/ (forall c, In c (earlier qs) -> cnId c <> cnId (returned qs q)).
Proof.
  intros qs q. unfold returned at 1 2 3. destruct (client_did q _ (after_inv qs)) as [E G _ | m M X N E].
  - left. split; [eapply held_earlier; exact E | exact G].
  - right. intros c C. pose proof (earlier_ids qs c C). unfold returned. unfold connect in E; cbv zeta in E. injection E as -> _. cbn. lia.
Qed.

(** ** Reuse *)
Lemma kept k c qs mid : (forall x, In x mid -> (ccHost x, evbOf x) = k -> ccGood x c = true) ->
  get k (cmMap (after qs)) = Some c -> get k (cmMap (after (qs ++ mid))) = Some c.
Proof.
  induction mid as [| x mid IH] using rev_ind; intros G H; [rewrite app_nil_r; exact H |].
  assert (H1 : get k (cmMap (after (qs ++ mid))) = Some c) by (apply IH; [intros y Y; apply G; apply in_or_app; auto | exact H]).
  rewrite app_assoc, after_snoc. destruct (client_did x _ (after_inv (qs ++ mid))) as [E _ -> | m M X N E]; [exact H1 |].
  unfold connect in E; cbv zeta in E. injection E as _ ->. cbn [cmMap]. rewrite get_aadd, M. destruct (clientKeyEqb k (ccHost x, evbOf x)) eqn:K.
  - apply keyEqb_ok in K. rewrite K in H1. pose proof (X _ H1) as B. rewrite (G x) in B; [discriminate | apply in_or_app; right; left; reflexivity | symmetry; exact K].
  - rewrite H1. reflexivity.
Qed.
Lemma ip_held qs q : isIp (haHost (ccHost q)) = true -> get (ccHost q, evbOf q) (cmMap (after (qs ++ [q]))) = Some (returned qs q).
Proof.
  intros I. rewrite after_snoc. unfold returned. destruct (client_did q _ (after_inv qs)) as [E _ -> | m M X N E]; [exact E |].
  unfold connect in E; cbv zeta in E. injection E as -> ->. cbn [cmMap]. rewrite get_aadd, M.
  replace (resolved isIp q) with (ccHost q) by (unfold resolved; rewrite I; reflexivity).
  rewrite (eqb_self _ keyEqb_ok). reflexivity.
Qed.
(** For an address, the client of one call is that of a later call with the same address and event base, whatever was called between, if it was good
    whenever this address and event base were asked for *)
Theorem C118_reused : forall qs q mid q', isIp (haHost (ccHost q)) = true -> ccHost q' = ccHost q -> evbOf q' = evbOf q ->
  (forall x, In x (mid ++ [q']) -> ccHost x = ccHost q -> evbOf x = evbOf q -> ccGood x (returned qs q) = true) ->
  returned (qs ++ q :: mid) q' = returned qs q.
Proof.
  intros qs q mid q' I H E G.
  assert (K : get (ccHost q, evbOf q) (cmMap (after (qs ++ q :: mid))) = Some (returned qs q)).
  { change (q :: mid) with ([q] ++ mid). rewrite app_assoc. apply kept; [| apply ip_held; exact I].
    intros x X Y. injection Y as Y1 Y2. apply G; auto. apply in_or_app. auto. }
  set (c := returned qs q) in *. unfold returned, ClientManModel.client. rewrite H, E, K.
  rewrite G; auto. apply in_or_app. right. left. reflexivity.
Qed.

(** ** Options *)
(** If all calls ask for the same timeout and protocol, every client has them *)
Theorem C118_options : forall compat timeout qs, 0 <= timeout -> (forall x, In x qs -> ccCompat x = compat /\ ccTimeout x = timeout) ->
  forall c, In c (earlier qs) -> cnBinary c = compat /\ cnTimeout c = if timeout =? 0 then None else Some timeout.
Proof.
  intros compat timeout qs T. induction qs as [| q qs IH] using rev_ind; intros A c; [intros [] |].
  assert (A' : forall x, In x qs -> ccCompat x = compat /\ ccTimeout x = timeout) by (intros x X; apply A; apply in_or_app; auto).
  rewrite earlier_snoc, in_app_iff. intros [H | [<- | []]]; [apply IH; auto |].
  unfold returned. destruct (client_did q _ (after_inv qs)) as [E _ _ | m M X N E].
  - apply IH; auto. eapply held_earlier. exact E.
  - destruct (A q) as [A1 A2]; [apply in_or_app; right; left; reflexivity |]. unfold connect in E; cbv zeta in E. injection E as -> _. cbn. rewrite A1, A2. split; [reflexivity |].
    destruct (Z.eqb_spec timeout 0), (Z.ltb_spec 0 timeout); try reflexivity; lia.
Qed.

(** ** What the map holds *)
(** After any calls there is at most one client for an address and event base, and it leads there *)
Theorem C119_one_each : forall qs, NoDup (map fst (cmMap (after qs))) /\
  forall h e c, In ((h, e), c) (cmMap (after qs)) -> In c (earlier qs) /\ cnHost c = haHost h /\ cnPort c = haPort h mod 65536 /\ cnEvb c = e.
Proof.
  intros qs. destruct (after_inv qs) as [N V]. split; [exact N |]. intros h e c C. apply (In_aget _ keyEqb_ok) in C; [| exact N].
  split; [eapply held_earlier; exact C |]. destruct (V _ _ C) as [F _]. exact F.
Qed.
(** For an address, the client returned is the one held from then on: a broken one has been replaced *)
Theorem C119_replaced : forall qs q c, isIp (haHost (ccHost q)) = true -> In ((ccHost q, evbOf q), c) (cmMap (after (qs ++ [q]))) <-> c = returned qs q.
Proof.
  intros qs q c I. pose proof (ip_held qs q I) as H. destruct (after_inv (qs ++ [q])) as [N _]. split.
  - intros C. apply (In_aget _ keyEqb_ok) in C; [| exact N]. congruence.
  - intros ->. apply (aget_In _ keyEqb_ok). exact H.
Qed.
(** For names that resolve, every call opens a connection: the clients of any number of calls have pairwise different numbers *)
Theorem C119_name_never_reused : forall qs,
  (forall x, In x qs -> isIp (haHost (ccHost x)) = false /\ exists ip, ccResolve x (haHost (ccHost x)) = Some ip /\ isIp ip = true) ->
  NoDup (map cnId (earlier qs)) /\ List.length (earlier qs) = List.length qs.
Proof.
  intros qs. induction qs as [| q qs IH] using rev_ind; intros A; [cbn; split; [constructor | reflexivity] |].
  assert (A' : forall x, In x qs -> isIp (haHost (ccHost x)) = false /\ exists ip, ccResolve x (haHost (ccHost x)) = Some ip /\ isIp ip = true)
    by (intros x X; apply A; apply in_or_app; auto).
  destruct (IH A') as [D L]. rewrite earlier_snoc, map_app, !app_length, L. split; [| reflexivity].
  apply NoDup_app_disj; [exact D | constructor; [intros [] | constructor] |]. intros i H [<- | []].
  assert (KS : forall k c, get k (cmMap (after qs)) = Some c -> isIp (haHost (fst k)) = true).
  { clear - A'. induction qs as [| q qs IH] using rev_ind; intros k c; [discriminate |].
    assert (A2 : forall x, In x qs -> isIp (haHost (ccHost x)) = false /\ exists ip, ccResolve x (haHost (ccHost x)) = Some ip /\ isIp ip = true)
      by (intros x X; apply A'; apply in_or_app; auto).
    rewrite after_snoc. destruct (client_did q _ (after_inv qs)) as [E _ -> | m M X N E]; [apply IH; exact A2 |].
    destruct (A' q) as (I & ip & R & Iip); [apply in_or_app; right; left; reflexivity |].
    unfold connect in E; cbv zeta in E. injection E as _ ->. cbn [cmMap]. rewrite get_aadd, M.
    assert (KI : clientKeyEqb k (resolved isIp q, evbOf q) = true -> isIp (haHost (fst k)) = true)
      by (intros K; apply keyEqb_ok in K; subst k; cbn; unfold resolved; rewrite I, R; exact Iip).
    destruct (clientKeyEqb k (ccHost q, evbOf q)) eqn:K1.
    - destruct (clientKeyEqb k (resolved isIp q, evbOf q)); [intros _; auto | discriminate].
    - destruct (get k (cmMap (after qs))) as [x |] eqn:Ex; [intros _; eapply IH; [exact A2 | exact Ex] |].
      destruct (clientKeyEqb k (resolved isIp q, evbOf q)); [intros _; auto | discriminate]. }
  destruct (A q) as (I & _); [apply in_or_app; right; left; reflexivity |].
  apply in_map_iff in H. destruct H as (c & Ei & C). pose proof (earlier_ids qs c C) as B.
  unfold returned in Ei. destruct (client_did q _ (after_inv qs)) as [E _ _ | m M X N E].
  - apply KS in E. cbn in E. congruence.
  - unfold connect in E; cbv zeta in E. injection E as E1 _. rewrite E1 in Ei. cbn in Ei. lia.
Qed.
End P.

(** ** Cases *)
Definition ip1 : hostAddr := mkHost (B "10.0.0.1") 9779.
Definition name1 : hostAddr := mkHost (B "storaged0") 9779.
Definition isIp0 (s : str) : bool := match s with c :: _ => (48 <=? c) && (c <=? 57) | [] => false end.
Definition dns (s : str) : option str := if strEqb s (B "storaged0") then Some (B "10.0.0.1") else None.
Definition alive (c : conn) : bool := isIp0 (cnHost c).
Definition ask (h : hostAddr) (compat : bool) (timeout : Z) (good : conn -> bool) : clientCall := mkCall h (Some 7) compat timeout dns good.

Example C118_example : let q := ask ip1 false 60000 alive in
  (forall c, ccGood q c = true -> isIp0 (cnHost c) = true) /\ isIp0 (haHost (ccHost q)) = true /\
  map cnId (earlier isIp0 1 [q; ask name1 false 60000 alive; q; ask ip1 false 60000 (fun _ => false); q]) = [0; 1; 0; 2; 2] /\
  returned isIp0 1 [] q = mkConn 0 (B "10.0.0.1") 9779 7 (Some 60000) false /\
  cnEvb (returned isIp0 1 [] (mkCall ip1 None false 0 dns alive)) = 1.
Proof. intros q. splits; try (vm_compute; reflexivity). intros c C. exact C. Qed.

(** Reuse fails for a host given by name: the second call opens a second connection although the first is good, and the map keeps the first, so that
    the second is never found again either *)
Theorem C118_name_refuted : exists isIp own qs q q', ccHost q' = ccHost q /\ ccEvb q' = ccEvb q /\ (forall c, ccGood q' c = isIp (cnHost c)) /\
  cnHost (returned isIp own (qs ++ [q]) q') = cnHost (returned isIp own qs q) /\ returned isIp own (qs ++ [q]) q' <> returned isIp own qs q /\
  map snd (cmMap (after isIp own (qs ++ [q; q']))) = [returned isIp own qs q].
Proof.
  exists isIp0, 1, [], (ask name1 false 60000 alive), (ask name1 false 60000 alive). splits; try (vm_compute; reflexivity). vm_compute. discriminate.
Qed.
(** Timeout and protocol are those of the call that opened the connection, not those asked for *)
Theorem C118_options_refuted : exists isIp own q q', isIp (haHost (ccHost q')) = true /\ ccTimeout q' = 60000 /\ ccCompat q' = false /\
  cnTimeout (returned isIp own [q] q') = Some 1000 /\ cnBinary (returned isIp own [q] q') = true.
Proof. exists isIp0, 1, (ask ip1 true 1000 alive), (ask ip1 false 60000 alive). splits; vm_compute; reflexivity. Qed.
(** A broken client is replaced only by calls with the address: after a call by name it is still held, and the new client is not *)
Theorem C119_replaced_refuted : exists isIp own qs q c, ccGood q c = false /\ cnHost (returned isIp own qs q) = cnHost c /\ returned isIp own qs q <> c /\
  map snd (cmMap (after isIp own (qs ++ [q]))) = [c].
Proof.
  exists isIp0, 1, [ask ip1 false 60000 alive], (ask name1 false 60000 (fun c => negb (cnId c =? 0))), (mkConn 0 (B "10.0.0.1") 9779 7 (Some 60000) false).
  splits; try (vm_compute; reflexivity). vm_compute. discriminate.
Qed.
Example C119_example :
  let qs := [ask name1 false 60000 alive; ask name1 false 60000 alive; ask name1 false 60000 alive] in
  (forall x, In x qs -> isIp0 (haHost (ccHost x)) = false /\ exists ip, ccResolve x (haHost (ccHost x)) = Some ip /\ isIp0 ip = true) /\
  map cnId (earlier isIp0 1 qs) = [0; 1; 2] /\ map fst (cmMap (after isIp0 1 qs)) = [(ip1, 7)].
Proof.
  intros qs. splits; try (vm_compute; reflexivity). intros x X. repeat (destruct X as [<- | X]; [split; [reflexivity | exists (B "10.0.0.1"); split; reflexivity] |]). destruct X.
Qed.

Print Assumptions C118_leads_there.
Print Assumptions C118_alive.
Print Assumptions C118_reused.
Print Assumptions C118_options.
Print Assumptions C119_one_each.
Print Assumptions C119_replaced.
Print Assumptions C119_name_never_reused.
Print Assumptions C118_name_refuted.
Print Assumptions C118_options_refuted.
Print Assumptions C119_replaced_refuted.
