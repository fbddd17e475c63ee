(** Properties C123 and C124: what the storage servers ask each other for. *)
From Coq Require Import String.
From Coq Require Import List.
From Verif Require Import Prelude Trans ValueBase ValueProofs HashModel HashSpec HashProofs HashProps AssocModel LeaderModel LeaderProps InternalModel.
Import ListNotations.
Open Scope Z_scope.

(** ** Specification *)
(** the code an answer comes down to *)
Inductive says : answer -> Z -> Prop :=
| says_thrown : says NotSent (-3)
| says_failed : says RpcFailed (-8000)
| says_none v : says (Answered [] v) 0
| says_first r rs v : says (Answered (r :: rs) v) (prCode r).
Definition changed {R} (x : host * R * answer) : Prop := says (snd x) (-4).
Definition valueOf (a : answer) : str := match a with Answered _ v => v | _ => [] end.
Definition below (h d : host) : Prop := d = (fst h, snd h - 2).
Definition goodHost (h : host) : Prop := fst h <> [] /\ snd h <> 0.

Lemma says_code a c : says a c <-> extractErrorCode (triedOf a) = c.
Proof.
  split; [intros H; inversion H; reflexivity |]. destruct a as [| | [| r rs] v]; cbn; intros <-; constructor.
Qed.
Lemma dest_ok h d : internalHost h = Ret d -> below h d.
Proof. unfold internalHost, below, portOffset. destruct (_ <? _); [discriminate |]. intros E. injection E as <-. f_equal; lia. Qed.

Section T.
Context {R : Type} (w : world R) (nl : str -> Z) (space part : Z) (r : R).
Notation run := (tries w nl space part r).

(** ** The attempts of a call *)
Lemma run_inv fuel : forall n li atts e li', run fuel n li = Ret (atts, e, li') ->
  (List.length atts <= fuel)%nat /\
  (forall i d q a, nth_error atts i = Some (d, q, a) -> q = r /\ a = wServe w (n + i) d r) /\
  match e with
  | Going => List.length atts = fuel /\ Forall changed atts
  | NoLeader c => (List.length atts < fuel)%nat /\ Forall changed atts /\ let m := (n + List.length atts)%nat in
      c = nl (leaderError (wCache w m) (wReady w m) space part) /\ (wReady w m = false \/ getPartHosts (wCache w m) (space, part) = None)
  | Done c v => exists pre d a, atts = pre ++ [(d, r, a)] /\ Forall changed pre /\ says a c /\ c <> -4 /\ v = valueOf a
  end.
Proof.
  induction fuel as [| f IH]; intros n li atts e li' E; cbn [tries] in E.
  - injection E as <- <- <-. splits; auto. intros [|]; discriminate.
  - destruct (getLeader (wCache w n) (wReady w n) (wOthers w n li) (space, part)) as [[l li1] | | |] eqn:El; try discriminate E. cbn [obind] in E.
    destruct l as [h |].
    + destruct (internalHost h) as [d | | |] eqn:Ed; try discriminate E. cbn [obind] in E. cbv zeta in E.
      set (a := wServe w n d r) in *. destruct (Z.eqb_spec (extractErrorCode (triedOf a)) cLeaderChanged) as [Ec | Ec].
      * destruct (run f (S n) (noteAnswer space part li1 a)) as [[[q1 q2] li3] | | |] eqn:Er; try discriminate E. cbn [obind fst snd] in E.
        injection E as <- <- <-. destruct (IH _ _ _ _ _ Er) as (H1 & H2 & H3). assert (Hc : changed (d, r, a)) by (apply says_code; exact Ec).
        splits.
        -- cbn. lia.
        -- intros [| i] d0 q0 a0 H; cbn in H; [injection H as <- <- <-; split; [reflexivity |]; unfold a; f_equal; lia |].
           destruct (H2 _ _ _ _ H) as [-> ->]. split; [reflexivity |]. f_equal. lia.
        -- destruct q2 as [c | c v |].
           ++ destruct H3 as (L & F & H3). cbn [List.length] in *. split; [lia |]. split; [constructor; auto |].
              replace (n + S (List.length q1))%nat with (S n + List.length q1)%nat by lia. exact H3.
           ++ destruct H3 as (pre & d1 & a1 & -> & F & X). exists ((d, r, a) :: pre), d1, a1. splits; try tauto; try reflexivity. constructor; tauto.
           ++ destruct H3 as [<- F]. split; [reflexivity | constructor; auto].
      * injection E as <- <- <-. splits; [cbn; lia | |].
        -- intros [| [| i]] d0 q0 a0 H; cbn in H; try discriminate H. injection H as <- <- <-. split; [reflexivity |]. unfold a. f_equal. lia.
        -- exists [], d, a. splits; auto. apply says_code. reflexivity.
    + injection E as <- <- <-. split; [cbn; lia |]. split; [intros [|]; discriminate |]. split; [cbn; lia |]. split; [constructor |].
      cbn [List.length]. rewrite Nat.add_0_r. split; [reflexivity |].
      unfold getLeader in El. destruct (wReady w n) eqn:Er; [| left; reflexivity]. right. cbn [negb] in El.
      destruct (kget _ _); [discriminate El |]. apply pick_inv in El. destruct El as [(X & _) | (hs & h & _ & _ & D & _)]; [exact X | discriminate D].
Qed.

(** ** Where the attempts go, when nobody else changes anything *)
Definition quiet (cache : allocCache) : Prop := (forall n, wReady w n = true) /\ (forall n, wCache w n = cache) /\ (forall n li, wOthers w n li = li).
Lemma note_other li q : prPart q <> part -> wf li -> kget (space, part) (leaderMap (noteFailed space li q)) = kget (space, part) (leaderMap li).
Proof.
  intros H W. unfold noteFailed. assert (K : pkeyEqb (space, part) (space, prPart q) = false) by (apply kno; congruence).
  repeat match goal with |- context [if ?x then _ else _] => destruct x | |- context [match ?x with _ => _ end] => destruct x end;
    unfold updateLeader, invalidLeader; cbn [leaderMap]; rewrite ?kset, ?kdel, ?K by exact W; reflexivity.
Qed.
Lemma note_wf li q : wf li -> wf (noteFailed space li q).
Proof.
  intros W. unfold noteFailed, wf. repeat match goal with |- context [if ?x then _ else _] => destruct x | |- context [match ?x with _ => _ end] => destruct x end;
    unfold updateLeader, invalidLeader; cbn [leaderMap]; auto; first [apply aset_keys | apply adel_keys]; auto; apply pkeyEqb_ok.
Qed.
Lemma notes_wf l li : wf li -> wf (fold_left (noteFailed space) l li).
Proof. revert li. induction l as [| q l IH]; intros li W; cbn; auto. apply IH, note_wf, W. Qed.
Lemma notes_other l li : Forall (fun q => prPart q <> part) l -> wf li -> kget (space, part) (leaderMap (fold_left (noteFailed space) l li)) = kget (space, part) (leaderMap li).
Proof.
  intros F. revert li. induction F as [| q l H F IH]; intros li W; cbn; [reflexivity |]. rewrite IH by (apply note_wf, W). apply note_other; auto.
Qed.
Lemma noteAnswer_wf a li : wf li -> wf (noteAnswer space part li a).
Proof.
  intros W. destruct a; cbn; [exact W | | apply notes_wf, W]. unfold wf, invalidLeader. cbn. apply adel_keys; [apply pkeyEqb_ok | exact W].
Qed.
Lemma get_wf cache li k x li' : wf li -> getLeader cache true li k = Ret (x, li') -> wf li'.
Proof.
  intros W G. apply get_inv in G. destruct G as [(_ & _ & ->) | (_ & G)]; [exact W |].
  apply pick_inv in G. destruct G as [(_ & _ & ->) | (hs & h & _ & _ & _ & G)]; [exact W |]. cbv zeta in G. destruct G as (_ & ->).
  unfold wf. cbn. apply aset_keys; [apply pkeyEqb_ok | exact W].
Qed.
Lemma run_cons f n li x atts e li' : run (S f) n li = Ret (x :: atts, e, li') ->
  exists h li1 d a, getLeader (wCache w n) (wReady w n) (wOthers w n li) (space, part) = Ret (Some h, li1) /\ x = (d, r, a) /\ below h d /\ a = wServe w n d r /\
    (says a (-4) /\ run f (S n) (noteAnswer space part li1 a) = Ret (atts, e, li') \/ atts = []).
Proof.
  intros E. cbn [tries] in E.
  destruct (getLeader (wCache w n) (wReady w n) (wOthers w n li) (space, part)) as [[l li1] | | |] eqn:El; try discriminate E. cbn [obind] in E.
  destruct l as [h |]; [| discriminate E].
  destruct (internalHost h) as [d | | |] eqn:Ed; try discriminate E. cbn [obind] in E. cbv zeta in E.
  destruct (Z.eqb_spec (extractErrorCode (triedOf (wServe w n d r))) cLeaderChanged) as [Ec | Ec].
  - destruct (run f (S n) (noteAnswer space part li1 (wServe w n d r))) as [[[q1 q2] li3] | | |] eqn:Er; try discriminate E. cbn [obind fst snd] in E.
    injection E as <- <- <- <-. exists h, li1, d, (wServe w n d r). splits; auto; [apply dest_ok; exact Ed |]. left. split; [apply says_code; exact Ec | exact Er].
  - injection E as <- <- <- <-. exists h, li1, d, (wServe w n d r). splits; auto. apply dest_ok. exact Ed.
Qed.
Lemma run_first cache f n li h x atts e li' : quiet cache -> kget (space, part) (leaderMap li) = Some h -> run f n li = Ret (x :: atts, e, li') -> below h (fst (fst x)).
Proof.
  intros (Q1 & Q2 & Q3) K E. destruct f as [| f]; [discriminate E |]. destruct (run_cons _ _ _ _ _ _ _ E) as (g & li1 & d & a & G & -> & Bd & _).
  rewrite Q1, Q2, Q3 in G. unfold getLeader in G. cbn [negb] in G. rewrite K in G. injection G as <- <-. exact Bd.
Qed.
Lemma run_named cache : quiet cache -> forall fuel n li atts e li' i d q pre g post v x, wf li -> run fuel n li = Ret (atts, e, li') ->
  nth_error atts i = Some (d, q, Answered (pre ++ mkPR (-4) part (Some g) :: post) v) -> goodHost g -> Forall (fun y => prPart y <> part) post ->
  nth_error atts (S i) = Some x -> below g (fst (fst x)).
Proof.
  intros Q. induction fuel as [| f IH]; intros n li atts e li' i d q pre g post v x W E Hi Hg Hp Hx; [injection E as <- <- <-; destruct i; discriminate Hi |].
  destruct atts as [| y atts]; [destruct i; discriminate Hi |].
  destruct (run_cons _ _ _ _ _ _ _ E) as (h & li1 & d1 & a1 & G & -> & Bd & Ha & [(Sa & Er) | ->]); [| destruct i; discriminate Hx].
  assert (W1 : wf li1) by (destruct Q as (Q1 & Q2 & Q3); rewrite Q1, Q3 in G; eapply get_wf; eauto).
  destruct i as [| i].
  - cbn in Hi, Hx. injection Hi as -> <- ->. destruct atts as [| x' atts]; [discriminate Hx |]. injection Hx as ->.
    eapply run_first; [exact Q | | exact Er]. cbn [noteAnswer]. rewrite fold_left_app. cbn [fold_left].
    rewrite notes_other by (auto; apply note_wf, notes_wf, W1). unfold noteFailed. cbn [prCode prPart prLeader]. change (-4 =? cLeaderChanged) with true. cbv iota.
    assert (V : validHost (Some g) = Some g).
    { destruct g as [gh gp], Hg as [G1 G2]. cbn in *. destruct gh; [congruence |]. cbn. destruct (Z.eqb_spec gp 0); [congruence | reflexivity]. }
    rewrite V. unfold updateLeader. cbn [leaderMap]. rewrite kset, kself. reflexivity.
  - eapply IH with (i := i); [apply noteAnswer_wf, W1 | exact Er | exact Hi | exact Hg | exact Hp | exact Hx].
Qed.

(** no leader named: the replicas in turn *)
Definition unnamed (a : answer) : Prop := exists l v, a = Answered [mkPR (-4) part l] v /\ forall g, l = Some g -> ~ goodHost g.
Lemma run_turns cache hs : quiet cache -> getPartHosts cache (space, part) = Some hs -> hs <> [] -> Z.of_nat (List.length hs) < 2 ^ 63 -> (forall h, In h hs -> 0 <= snd h <= 65535) ->
  (forall n h, unnamed (wServe w n h r)) ->
  forall fuel n li, wf li -> kget (space, part) (leaderMap li) = None -> 0 <= picked li (space, part) < 2 ^ 63 ->
  exists atts li', run fuel n li = Ret (atts, Going, li') /\ List.length atts = fuel /\
    forall i x, nth_error atts i = Some x ->
      exists h, nth_error hs (Z.to_nat ((picked li (space, part) + 1 + Z.of_nat i) mod Z.of_nat (List.length hs))) = Some h /\ below h (fst (fst x)).
Proof.
  intros Q Hh Hne Hmax Hport Hserve. set (k := (space, part)) in *. set (len := Z.of_nat (List.length hs)) in *.
  assert (Hlen : 0 < len) by (unfold len; destruct hs; [congruence | cbn; lia]).
  induction fuel as [| f IH]; intros n li W K P; [exists [], li; splits; auto; intros [|]; discriminate |].
  set (ix := (picked li k + 1) mod len). assert (Hix : 0 <= ix < len) by (apply Z.mod_pos_bound; exact Hlen).
  destruct (nth_error hs (Z.to_nat ix)) as [h |] eqn:Eh.
  2:{ apply nth_error_None in Eh. unfold len in *. lia. }
  assert (G : getLeader (wCache w n) (wReady w n) (wOthers w n li) k = Ret (Some h, mkLI (aset pkeyEqb k h (leaderMap li)) (aset pkeyEqb k ix (pickedIndex li)))).
  { destruct Q as (Q1 & Q2 & Q3). rewrite Q1, Q2, Q3. unfold getLeader. cbn [negb]. rewrite K. unfold pickLeader. rewrite Hh. fold (picked li k).
    destruct (Nat.eqb_spec (List.length hs) 0) as [Z0 | _]; [unfold len in Hlen; lia |]. cbv zeta.
    replace (u64 (picked li k + 1)) with (picked li k + 1) by (unfold u64; rewrite Z.mod_small; [reflexivity |]; change (2 ^ 64) with (2 * 2 ^ 63); lia).
    fold len. fold ix. rewrite Eh. reflexivity. }
  set (li1 := mkLI (aset pkeyEqb k h (leaderMap li)) (aset pkeyEqb k ix (pickedIndex li))) in *.
  assert (W1 : wf li1) by (unfold wf, li1; cbn; apply aset_keys; [apply pkeyEqb_ok | exact W]).
  assert (Ed : internalHost h = Ret (fst h, snd h - 2)).
  { unfold internalHost, portOffset, int32_min. pose proof (Hport h (nth_error_In _ _ Eh)). destruct (Z.ltb_spec (snd h + -2) (- 2147483648)); [lia |]. do 2 f_equal. }
  set (d := (fst h, snd h - 2)) in *. destruct (Hserve n d) as (l & v & Ea & Hl).
  set (li2 := noteAnswer space part li1 (wServe w n d r)).
  assert (E2 : li2 = invalidLeader li1 k).
  { unfold li2. rewrite Ea. cbn [noteAnswer fold_left]. unfold noteFailed. cbn [prCode prPart prLeader]. change (-4 =? cLeaderChanged) with true. cbv iota.
    destruct l as [[gh gp] |]; cbn; [| reflexivity]. destruct gh as [| c gh]; [reflexivity |]. destruct (Z.eqb_spec gp 0); [reflexivity |].
    exfalso. apply (Hl _ eq_refl). split; cbn; congruence. }
  assert (W2 : wf li2) by (apply noteAnswer_wf; exact W1).
  assert (P2 : picked li2 k = ix).
  { rewrite E2. unfold picked, invalidLeader, li1. cbn [pickedIndex]. rewrite kset, kself. reflexivity. }
  destruct (IH (S n) li2 W2) as (atts & li' & Er & Hlength & Hat).
  - rewrite E2. unfold invalidLeader. cbn [leaderMap]. rewrite kdel, kself by exact W1. reflexivity.
  - rewrite P2. lia.
  - exists ((d, r, wServe w n d r) :: atts), li'. cbn [tries]. fold k. rewrite G. cbn [obind]. rewrite Ed. cbn [obind]. cbv zeta. fold li2.
    replace (extractErrorCode (triedOf (wServe w n d r))) with cLeaderChanged by (rewrite Ea; reflexivity). rewrite Z.eqb_refl, Er. cbn [obind fst snd].
    splits; [reflexivity | cbn; congruence |]. intros [| i] x Hx; cbn in Hx.
    + injection Hx as <-. exists h. rewrite Z.add_0_r. split; [exact Eh | reflexivity].
    + destruct (Hat _ _ Hx) as (g & Hg & Bg). exists g. split; [| exact Bg]. rewrite <- Hg. do 2 f_equal. rewrite P2. unfold ix.
      replace ((picked li k + 1) mod len + 1 + Z.of_nat i) with ((picked li k + 1) mod len + (1 + Z.of_nat i)) by lia.
      rewrite Z.add_mod_idemp_l by lia. f_equal. lia.
Qed.
(** a part or space reported missing at the end of the last answer is forgotten *)
Definition gone (c : Z) : Prop := c = -5 \/ c = -16.
Lemma run_gone : (forall n li, wf li -> wf (wOthers w n li)) -> forall fuel n li atts c v li' before d q pre code l post x, wf li -> run fuel n li = Ret (atts, Done c v, li') ->
  atts = before ++ [(d, q, Answered (pre ++ mkPR code part l :: post) x)] -> gone code -> Forall (fun y => prPart y <> part) post ->
  kget (space, part) (leaderMap li') = None.
Proof.
  intros O. induction fuel as [| f IH]; intros n li atts c v li' before d q pre code l post x W E A C F; [discriminate E |].
  cbn [tries] in E. destruct (getLeader (wCache w n) (wReady w n) (wOthers w n li) (space, part)) as [[g li1] | | |] eqn:El; try discriminate E. cbn [obind] in E.
  destruct g as [h |]; [| discriminate E]. destruct (internalHost h) as [d1 | | |]; try discriminate E. cbn [obind] in E. cbv zeta in E.
  assert (W1 : wf li1).
  { destruct (wReady w n); [eapply get_wf; [apply O, W | exact El] |]. unfold getLeader in El. cbn [negb] in El. discriminate El. }
  destruct (extractErrorCode _ =? cLeaderChanged).
  - destruct (run f (S n) (noteAnswer space part li1 (wServe w n d1 r))) as [[[q1 q2] li3] | | |] eqn:Er; try discriminate E. cbn [obind fst snd] in E.
    injection E as Ea Ee El2. subst atts q2 li3.
    destruct before as [| b before].
    + injection A as _ _ _ A. subst q1. destruct (run_inv _ _ _ _ _ _ Er) as (_ & _ & pre' & d' & a' & Q & _). destruct pre'; discriminate Q.
    + injection A as _ A. eapply IH; [apply noteAnswer_wf, W1 | exact Er | exact A | exact C | exact F].
  - injection E as <- _ _ <-. destruct before as [| b before]; [| destruct before; discriminate A]. cbn [app] in A. injection A as -> _ A. rewrite A. cbn [noteAnswer].
    rewrite fold_left_app. cbn [fold_left]. rewrite notes_other by (auto; apply note_wf, notes_wf, W1). unfold noteFailed. cbn [prCode prPart prLeader].
    destruct C as [-> | ->]; cbn -[invalidLeader leaderMap]; unfold invalidLeader; cbn [leaderMap]; rewrite kdel, kself by apply notes_wf, W1; reflexivity.
Qed.
End T.

(** ** C123: forwarding a transaction *)
(** Every attempt carries the transaction as it was given; all but the last are told that the leader has changed, and the last one's code is the result *)
Theorem C123_attempts : forall w fuel li txn space part data atts e li', forwardTransaction w fuel li txn space part data = Ret (atts, e, li') ->
  (List.length atts <= fuel)%nat /\
  (forall i d q a, nth_error atts i = Some (d, q, a) -> q = mkTxn txn space part 1 [[]; [data]] /\ a = wServe w i d q) /\
  match e with
  | Going => List.length atts = fuel /\ Forall changed atts
  | NoLeader c => Forall changed atts /\ c = -5 /\ let m := List.length atts in wReady w m = false \/ getPartHosts (wCache w m) (space, part) = None
  | Done c _ => exists pre d q a, atts = pre ++ [(d, q, a)] /\ Forall changed pre /\ says a c /\ c <> -4
  end.
Proof.
  intros w fuel li txn space part data atts e li' E. destruct (run_inv _ _ _ _ _ _ _ _ _ _ _ E) as (H1 & H2 & H3). splits; [exact H1 | |].
  - intros i d q a H. destruct (H2 _ _ _ _ H) as [-> ->]. split; reflexivity.
  - destruct e; auto.
    + destruct H3 as (_ & F & -> & X). splits; auto.
    + destruct H3 as (pre & d & a & -> & F & X). exists pre, d, (mkTxn txn space part 1 [[]; [data]]), a. splits; tauto.
Qed.
(** While nobody else changes the leader cache: the first attempt goes to the host in it, two ports below; an answer that names a leader sends the next one there *)
Theorem C123_destination : forall w cache fuel li txn space part data atts e li', quiet w cache -> wf li ->
  forwardTransaction w fuel li txn space part data = Ret (atts, e, li') ->
  (forall h x, kget (space, part) (leaderMap li) = Some h -> nth_error atts 0 = Some x -> below h (fst (fst x))) /\
  (forall i d q pre g post v x, nth_error atts i = Some (d, q, Answered (pre ++ mkPR (-4) part (Some g) :: post) v) -> goodHost g ->
     Forall (fun y => prPart y <> part) post -> nth_error atts (S i) = Some x -> below g (fst (fst x))).
Proof.
  intros w cache fuel li txn space part data atts e li' Q W E. split.
  - intros h x K Hx. destruct atts as [| y atts]; [discriminate Hx |]. injection Hx as ->. eapply run_first; eauto.
  - intros. eapply (run_named w forwardNoLeader space part); eauto.
Qed.
(** If no answer names a leader, the replicas are asked in turn, and the call never ends *)
Theorem C123_turns : forall w cache hs fuel li txn space part data, quiet w cache -> wf li ->
  getPartHosts cache (space, part) = Some hs -> hs <> [] -> Z.of_nat (List.length hs) < 2 ^ 63 -> (forall h, In h hs -> 0 <= snd h <= 65535) ->
  (forall n h q, unnamed part (wServe w n h q)) -> kget (space, part) (leaderMap li) = None -> 0 <= picked li (space, part) < 2 ^ 63 ->
  exists atts li', forwardTransaction w fuel li txn space part data = Ret (atts, Going, li') /\ List.length atts = fuel /\
    forall i x, nth_error atts i = Some x ->
      exists h, nth_error hs (Z.to_nat ((picked li (space, part) + 1 + Z.of_nat i) mod Z.of_nat (List.length hs))) = Some h /\ below h (fst (fst x)).
Proof. intros w cache hs fuel li txn space part data Q W Hh Hne Hm Hp Hs K P. eapply run_turns; eauto. Qed.

(** A part or a space that the last answer reports as missing loses its leader in the cache: the next call asks the replicas anew *)
Theorem C123_forgets : forall w fuel li txn space part data c v li' before d q pre code l post x, (forall n li, wf li -> wf (wOthers w n li)) -> wf li ->
  forwardTransaction w fuel li txn space part data = Ret (before ++ [(d, q, Answered (pre ++ mkPR code part l :: post) x)], Done c v, li') -> gone code ->
  Forall (fun y => prPart y <> part) post -> kget (space, part) (leaderMap li') = None.
Proof. intros w fuel li txn space part data c v li' before d q pre code l post x O W E C F. eapply run_gone; eauto. Qed.

(** ** C124: reading a value *)
Lemma find_ge p s : forall n k, findText p s n = Some k -> (n <= k)%nat.
Proof.
  induction s as [| c s IH]; intros n k; cbn [findText]; destruct (startsWith p _); try discriminate; try (intros E; injection E as <-; lia).
  intros E. apply IH in E. lia.
Qed.
Lemma no_leader_code cache ready space part : getNoLeader (leaderError cache ready space part) = -16.
Proof.
  assert (K : forall c s, c <> 112 -> getNoLeader (c :: s) = -16).
  { intros c s H. unfold getNoLeader. replace (asCondition (findText (B "partid") (c :: s) 0)) with true; [reflexivity |].
    change (B "partid") with (112 :: B "artid"). cbn [findText startsWith]. destruct (Z.eqb_spec 112 c); [congruence |]. cbn [andb].
    destruct (findText (112 :: B "artid") s 1) as [[| k] |] eqn:E; try reflexivity. apply find_ge in E. lia. }
  unfold leaderError. destruct ready; cbn [negb]; [| apply K; vm_compute; discriminate].
  destruct (aget Z.eqb space cache); apply K; vm_compute; discriminate.
Qed.
(** The result: the value if the last answer has no failed part, its code otherwise, and a missing part if there is no leader *)
Theorem C124_result : forall w fuel li vIdLen space key atts e li', getValue w fuel li vIdLen space key = Some (Ret (atts, e, li')) ->
  exists part, getValuePart vIdLen space key = Some (Ret part) /\ (List.length atts <= fuel)%nat /\
  (forall i d q a, nth_error atts i = Some (d, q, a) -> q = mkGet space part key /\ a = wServe w i d q) /\
  match getValueResult e with
  | None => List.length atts = fuel /\ Forall changed atts
  | Some (inr v) => exists pre d q, atts = pre ++ [(d, q, Answered [] v)] \/ exists p rs, prCode p = 0 /\ atts = pre ++ [(d, q, Answered (p :: rs) v)]
  | Some (inl c) => Forall changed atts /\ c = -16 /\ (let m := List.length atts in wReady w m = false \/ getPartHosts (wCache w m) (space, part) = None) \/
      exists pre d q a, atts = pre ++ [(d, q, a)] /\ Forall changed pre /\ says a c /\ c <> -4 /\ c <> 0
  end.
Proof.
  intros w fuel li vIdLen space key atts e li' E. unfold getValue in E. destruct (getValuePart vIdLen space key) as [[part | | |] |] eqn:Ep; try discriminate E.
  cbn [obind] in E. injection E as E. exists part. destruct (run_inv _ _ _ _ _ _ _ _ _ _ _ E) as (H1 & H2 & H3). splits; auto.
  - intros i d q a H. destruct (H2 _ _ _ _ H) as [-> ->]. split; reflexivity.
  - destruct e as [c | c v |]; cbn [getValueResult]; auto.
    + destruct H3 as (_ & F & -> & X). left. splits; auto. apply no_leader_code.
    + destruct H3 as (pre & d & a & -> & F & S & Hc & ->). unfold cSucceeded. destruct (Z.eqb_spec c 0) as [-> | H0].
      * exists pre, d, (mkGet space part key). destruct a as [| | [| p rs] v]; inversion S as [| | | ? ? ? Hp]; subst; [left; reflexivity |].
        right. exists p, rs. split; [congruence | reflexivity].
      * right. exists pre, d, (mkGet space part key), a. splits; auto.
Qed.

(** The hosts asked: as for a forwarded transaction *)
Theorem C124_destination : forall w cache fuel li vIdLen space part key atts e li', quiet w cache -> wf li -> getValuePart vIdLen space key = Some (Ret part) ->
  getValue w fuel li vIdLen space key = Some (Ret (atts, e, li')) ->
  (forall h x, kget (space, part) (leaderMap li) = Some h -> nth_error atts 0 = Some x -> below h (fst (fst x))) /\
  (forall i d q pre g post v x, nth_error atts i = Some (d, q, Answered (pre ++ mkPR (-4) part (Some g) :: post) v) -> goodHost g ->
     Forall (fun y => prPart y <> part) post -> nth_error atts (S i) = Some x -> below g (fst (fst x))).
Proof.
  intros w cache fuel li vIdLen space part key atts e li' Q W Hp E. unfold getValue in E. rewrite Hp in E. cbn [obind] in E. injection E as E. split.
  - intros h x K Hx. destruct atts as [| y atts]; [discriminate Hx |]. injection Hx as ->. eapply run_first; eauto.
  - intros. eapply (run_named w getNoLeader space part); eauto.
Qed.
(** The part asked for: the id of the space is taken for its number of parts *)
Theorem C124_part : forall vIdLen space key, 0 < space <= int32_max -> 0 <= vIdLen -> bytes_ok key ->
  ((List.length key < 4)%nat <-> getValuePart vIdLen space key = None) /\
  (forall head vid rest, key = head ++ vid ++ rest -> List.length head = 4%nat -> Z.of_nat (List.length vid) = vIdLen ->
     exists p, getValuePart vIdLen space key = Some (Ret p) /\ 1 <= p <= space /\ partId space vid = Ret p /\ (vIdLen = 8 -> p = le_num vid mod space + 1)).
Proof.
  intros vIdLen space key Hs Hv Hb. unfold getValuePart, subpiece. split.
  - destruct (Z.ltb_spec (Z.of_nat (List.length key)) 4); split; try reflexivity; try discriminate; lia.
  - intros head vid rest -> Hh Hl. destruct (Z.ltb_spec (Z.of_nat (List.length (head ++ vid ++ rest))) 4) as [L | L]; [rewrite app_length in L; lia |].
    replace (Z.to_nat 4) with (List.length head) by lia. rewrite skipn_app, skipn_all, Nat.sub_diag, app_nil_l. cbn [skipn].
    replace (Z.to_nat vIdLen) with (List.length vid) by lia. rewrite firstn_app, firstn_all, Nat.sub_diag. cbn [firstn]. rewrite app_nil_r.
    destruct (C22_part_id_in_range space vid) as (p & Ep & Hp & H8 & _); [| unfold int32_max in Hs; lia |].
    + unfold bytes_ok in *. apply Forall_app in Hb. destruct Hb as [_ Hb]. apply Forall_app in Hb. tauto.
    + exists p. rewrite Ep. splits; auto; try lia.
Qed.

(** ** Cases and refutations *)
Definition hosts0 : list host := [(B "a", 9779); (B "b", 9779); (B "c", 9779)].
Definition cache0 : allocCache := [(1, [(1, hosts0); (2, hosts0)])].
Definition li0 : leaderInfo := mkLI [((1, 1), (B "a", 9779))] [].
Definition world0 {R} (serve : nat -> host -> R -> answer) : world R := mkWorld R (fun _ => true) (fun _ => cache0) (fun _ li => li) serve.
Lemma quiet0 {R} (serve : nat -> host -> R -> answer) : quiet (world0 serve) cache0.
Proof. unfold quiet. splits; reflexivity. Qed.
Definition serve0 {R} (n : nat) (h : host) (_ : R) : answer :=
  match n with 0%nat => Answered [mkPR (-4) 1 (Some (B "c", 9779))] [] | 1%nat => Answered [mkPR (-4) 1 None] [] | _ => Answered [] (B "value") end.
Example C123_example : exists li',
  forwardTransaction (world0 serve0) 10 li0 77 1 1 (B "data") =
    (let t := mkTxn 77 1 1 1 [[]; [B "data"]] in
    Ret ([((B "a", 9777), t, Answered [mkPR (-4) 1 (Some (B "c", 9779))] []); ((B "c", 9777), t, Answered [mkPR (-4) 1 None] []); ((B "b", 9777), t, Answered [] (B "value"))],
         Done 0 (B "value"), li')) /\ wf li0 /\ goodHost (B "c", 9779) /\ quiet (world0 (R := txnRequest) serve0) cache0.
Proof.
  eexists. splits; try (vm_compute; reflexivity).
  - unfold wf. repeat constructor. intros [].
  - split; discriminate.
  - apply quiet0.
Qed.
Definition silent {R} (_ : nat) (_ : host) (_ : R) : answer := Answered [mkPR (-4) 2 (Some ([], 0))] [].
Example C123_turns_example : (forall n h (q : txnRequest), unnamed 2 (silent n h q)) /\ getPartHosts cache0 (1, 2) = Some hosts0 /\ kget (1, 2) (leaderMap li0) = None /\
  picked li0 (1, 2) = 0 /\ exists li' atts, forwardTransaction (world0 silent) 4 li0 77 1 2 (B "data") = Ret (atts, Going, li') /\
  map (fun x => fst (fst x)) atts = [(B "b", 9777); (B "c", 9777); (B "a", 9777); (B "b", 9777)].
Proof.
  splits; try (vm_compute; reflexivity).
  - intros n h q. exists (Some ([], 0)), []. split; [reflexivity |]. intros g E. injection E as <-. intros [X _]. apply X. reflexivity.
  - do 2 eexists. split; vm_compute; reflexivity.
Qed.
Example C123_forgets_example : exists li', forwardTransaction (world0 (fun _ _ _ => Answered [mkPR (-16) 1 None] [])) 3 li0 77 1 1 (B "data") =
    Ret ([((B "a", 9777), mkTxn 77 1 1 1 [[]; [B "data"]], Answered [mkPR (-16) 1 None] [])], Done (-16) [], li') /\ gone (-16) /\
  kget (1, 1) (leaderMap li0) = Some (B "a", 9779) /\ kget (1, 1) (leaderMap li') = None.
Proof. eexists. splits; try (vm_compute; reflexivity). right. reflexivity. Qed.
(** A part that is missing from a known space is reported as a missing space *)
Theorem C123_missing_part_refuted : exists w fuel li txn space part data atts li',
  forwardTransaction w fuel li txn space part data = Ret (atts, NoLeader (-5), li') /\ wReady w 0%nat = true /\ aget Z.eqb space (wCache w 0%nat) <> None.
Proof.
  exists (world0 serve0), 5%nat, li0, 77, 1, 9, (B "data"). do 2 eexists. splits; [vm_compute; reflexivity | reflexivity | discriminate].
Qed.
(** A failed RPC is not reported as one *)
Theorem C123_rpc_failure_refuted : exists w fuel li txn space part data atts d q c v li',
  forwardTransaction w fuel li txn space part data = Ret (atts ++ [(d, q, RpcFailed)], Done c v, li') /\ c <> -3.
Proof.
  exists (world0 (fun _ _ _ => RpcFailed)), 5%nat, li0, 77, 1, 1, (B "data"), []. do 5 eexists. split; [vm_compute; reflexivity | discriminate].
Qed.
(** The value of a vertex's key is asked for in a part in which the vertex is not *)
Theorem C124_right_part_refuted : exists cache li key vid p q,
  partsNum cache 1 = Some 2 /\ key = [1; 2; 0; 0] ++ vid ++ [9; 9] /\ List.length vid = 8%nat /\ partId 2 vid = Ret p /\ q <> p /\
  forall serve, exists d a atts e li', getValue (mkWorld _ (fun _ => true) (fun _ => cache) (fun _ l => l) serve) 1 li 8 1 key = Some (Ret ((d, mkGet 1 q key, a) :: atts, e, li')).
Proof.
  exists cache0, li0, ([1; 2; 0; 0] ++ [3; 0; 0; 0; 0; 0; 0; 0] ++ [9; 9]), [3; 0; 0; 0; 0; 0; 0; 0], 2, 1. splits; try (vm_compute; reflexivity); try discriminate.
  intros serve. unfold getValue. replace (getValuePart 8 1 _) with (Some (Ret 1)) by (vm_compute; reflexivity). cbn [obind].
  exists (B "a", 9777), (serve 0%nat (B "a", 9777) (mkGet 1 1 ([1; 2; 0; 0] ++ [3; 0; 0; 0; 0; 0; 0; 0] ++ [9; 9]))).
  cbn [tries wCache wReady wOthers wServe]. replace (getLeader cache0 true li0 (1, 1)) with (Ret (Some (B "a", 9779), li0)) by (vm_compute; reflexivity). cbn [obind].
  change (internalHost (B "a", 9779)) with (Ret (B "a", 9777)). cbn [obind]. cbv zeta. destruct (_ =? cLeaderChanged); cbn [obind fst snd]; do 3 eexists; reflexivity.
Qed.
(** A space that is not known is reported as a missing part *)
Theorem C124_missing_space_refuted : exists w fuel li vIdLen space key atts e li',
  getValue w fuel li vIdLen space key = Some (Ret (atts, e, li')) /\ wReady w 0%nat = true /\ aget Z.eqb space (wCache w 0%nat) = None /\ getValueResult e = Some (inl (-16)).
Proof.
  exists (world0 serve0), 5%nat, li0, 8, 2, ([1; 2; 0; 0] ++ [3; 0; 0; 0; 0; 0; 0; 0]). do 3 eexists. splits; vm_compute; reflexivity.
Qed.
Example C124_example : (exists atts li', getValue (world0 serve0) 10 li0 8 1 [1; 1; 0; 0; 2; 0; 0; 0; 0; 0; 0; 0; 7] = Some (Ret (atts, Done 0 (B "value"), li')) /\ List.length atts = 3%nat) /\
  getValueResult (Done 0 (B "value")) = Some (inr (B "value")) /\ getValue (world0 serve0) 10 li0 8 1 [1; 1] = None /\
  getValuePart 8 5 ([1; 1; 0; 0] ++ [12; 0; 0; 0; 0; 0; 0; 0] ++ [7]) = Some (Ret 3).
Proof. splits; try (vm_compute; reflexivity). do 2 eexists. split; vm_compute; reflexivity. Qed.

Print Assumptions C123_attempts.
Print Assumptions C123_destination.
Print Assumptions C123_turns.
Print Assumptions C123_forgets.
Print Assumptions C123_missing_part_refuted.
Print Assumptions C123_rpc_failure_refuted.
Print Assumptions C124_result.
Print Assumptions C124_destination.
Print Assumptions C124_part.
Print Assumptions C124_right_part_refuted.
Print Assumptions C124_missing_space_refuted.
