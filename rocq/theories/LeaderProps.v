(** Properties C49 and C51: clustering ids by leader, and the leader cache. *)
From Coq Require Import String List Permutation.
From Verif Require Import Prelude Trans ValueBase ValueProofs HashModel HashSpec HashProofs HashProps AssocModel LeaderModel.
Import ListNotations.
Open Scope Z_scope.

Notation kget := (aget pkeyEqb).
(** The replica index recorded for a part. *)
Definition picked (li : leaderInfo) (k : pkey) : Z := match kget k (pickedIndex li) with Some p => p | None => 0 end.
Definition wf (li : leaderInfo) : Prop := NoDup (akeys (leaderMap li)).

Lemma kset {V} k v (l : list (pkey * V)) k' : kget k' (aset pkeyEqb k v l) = if pkeyEqb k' k then Some v else kget k' l.
Proof. apply aget_aset, pkeyEqb_ok. Qed.
Lemma kdel {V} k (l : list (pkey * V)) k' : NoDup (akeys l) -> kget k' (adel pkeyEqb k l) = if pkeyEqb k' k then None else kget k' l.
Proof. apply aget_adel, pkeyEqb_ok. Qed.
Lemma kself k : pkeyEqb k k = true.
Proof. apply pkeyEqb_ok. reflexivity. Qed.
Lemma kno k k' : k' <> k -> pkeyEqb k' k = false.
Proof. intros H. destruct (pkeyEqb k' k) eqn:E; [|reflexivity]. apply pkeyEqb_ok in E. congruence. Qed.

Lemma NoDup_map_in {A C} (f : A -> C) l : (forall x y, In x l -> In y l -> f x = f y -> x = y) -> NoDup l -> NoDup (map f l).
Proof.
  induction l as [|a l IH]; cbn; intros Hf N; [constructor|]. inversion N as [|? ? N1 N2]; subst. constructor; [|apply IH; auto].
  intros H. apply in_map_iff in H. destruct H as (x & E & Hx). apply N1. rewrite <- (Hf x a); auto.
Qed.

Section S.
Context (cache : allocCache).

(** * C51 *)
Definition opKey (o : leaderOp) : pkey := match o with OGet k => k | OUpd k _ => k | OInv k => k end.

Lemma get_inv li k r li' : getLeader cache true li k = Ret (r, li') ->
  (kget k (leaderMap li) = r /\ r <> None /\ li' = li) \/
  (kget k (leaderMap li) = None /\ pickLeader cache li k = Ret (r, li')).
Proof.
  unfold getLeader. cbn [negb]. destruct (kget k (leaderMap li)) as [h|] eqn:E; intros H; [|auto].
  apply Ret_inj in H. injection H as <- <-. left. splits; congruence.
Qed.
Lemma pick_inv li k r li' : pickLeader cache li k = Ret (r, li') ->
  (getPartHosts cache k = None /\ r = None /\ li' = li) \/
  exists hs h, getPartHosts cache k = Some hs /\ hs <> [] /\ r = Some h /\
    let i := u64 (picked li k + 1) mod Z.of_nat (length hs) in
    nth_error hs (Z.to_nat i) = Some h /\
    li' = mkLI (aset pkeyEqb k h (leaderMap li)) (aset pkeyEqb k i (pickedIndex li)).
Proof.
  unfold pickLeader. destruct (getPartHosts cache k) as [hs|]; [|intros H; apply Ret_inj in H; injection H as <- <-; auto].
  fold (picked li k). intros H. cbv zeta in H. destruct (Nat.eqb_spec (length hs) 0); [discriminate H|].
  destruct (nth_error hs _) as [h|] eqn:En; [|discriminate H]. apply Ret_inj in H. injection H as <- <-.
  right. exists hs, h. cbv zeta. splits; auto. intros ->. apply n. reflexivity.
Qed.

Lemma step_other li o li' r k : wf li -> leaderStep cache li o = Ret (li', r) -> opKey o <> k ->
  kget k (leaderMap li') = kget k (leaderMap li) /\ picked li' k = picked li k /\ wf li'.
Proof.
  intros W E Hk. destruct o as [q|q h|q]; cbn [leaderStep opKey] in *.
  - destruct (getLeader cache true li q) as [[r0 l0]| | |] eqn:G; try discriminate E. cbn [obind] in E. injection E as <- <-.
    apply get_inv in G. destruct G as [(_ & _ & ->) | (_ & G)]; [auto|].
    apply pick_inv in G. destruct G as [(_ & _ & ->) | (hs & h & _ & _ & _ & G)]; [auto|]. cbv zeta in G. destruct G as (_ & ->).
    unfold picked, wf. cbn [leaderMap pickedIndex]. rewrite !kset, !kno by congruence. splits; auto. apply aset_keys; auto. apply pkeyEqb_ok.
  - injection E as <- <-. unfold updateLeader, picked, wf. cbn [leaderMap pickedIndex]. rewrite !kset, !kno by congruence.
    splits; auto. apply aset_keys; auto. apply pkeyEqb_ok.
  - injection E as <- <-. unfold invalidLeader, picked, wf. cbn [leaderMap pickedIndex]. rewrite kdel, !kno by (auto; congruence).
    splits; auto. apply adel_keys; auto. apply pkeyEqb_ok.
Qed.

(** An updated leader is returned until it is invalidated or updated again. *)
Definition keeps (k : pkey) (o : leaderOp) : Prop := opKey o <> k \/ o = OGet k.
Theorem C51_update_is_kept : forall li k h ops li' rs, wf li -> (forall o, In o ops -> keeps k o) ->
  leaderRun cache (updateLeader li k h) ops = Ret (li', rs) -> getLeader cache true li' k = Ret (Some h, li').
Proof.
  intros li k h ops li' rs W Hops E.
  assert (G : forall ops li rs, wf li -> kget k (leaderMap li) = Some h -> (forall o, In o ops -> keeps k o) ->
            leaderRun cache li ops = Ret (li', rs) -> kget k (leaderMap li') = Some h).
  { clear. induction ops as [|o ops IH]; intros li rs W Hk Hops E; cbn [leaderRun] in E.
    - injection E as <- <-. assumption.
    - destruct (leaderStep cache li o) as [[l1 r]| | |] eqn:E1; try discriminate E. cbn [obind] in E.
      destruct (leaderRun cache l1 ops) as [[l2 rs2]| | |] eqn:E2; try discriminate E. injection E as <- <-.
      assert (H1 : kget k (leaderMap l1) = Some h /\ wf l1).
      { destruct (Hops o) as [Ho | ->]; [left; reflexivity| |].
        - destruct (step_other li o l1 r k W E1 Ho) as (-> & _ & W1). auto.
        - cbn [leaderStep] in E1. unfold getLeader in E1. rewrite Hk in E1. cbn in E1. injection E1 as <- <-. auto. }
      destruct H1 as [H1 W1]. eapply IH; eauto. intros; apply Hops; right; assumption. }
  unfold getLeader. rewrite (G ops (updateLeader li k h) rs); auto.
  - unfold wf, updateLeader. cbn. apply aset_keys; auto. apply pkeyEqb_ok.
  - cbn. rewrite kset, kself. reflexivity.
Qed.

(** Rounds of invalidating part [k] and asking for its leader, with any calls for other parts, and leader
    updates for [k] itself, in between. *)
Fixpoint rounds (k : pkey) (li : leaderInfo) (others : list (list leaderOp)) : outcome (leaderInfo * list (option host)) :=
  match others with
  | [] => Ret (li, [])
  | ops :: others' =>
      let* (l1, _) := leaderRun cache li ops in
      let* (l2, _) := leaderStep cache l1 (OInv k) in
      let* (l3, r) := leaderStep cache l2 (OGet k) in
      let* (l4, rs) := rounds k l3 others' in
      Ret (l4, r :: rs)
  end.
Definition between (k : pkey) (o : leaderOp) : Prop := opKey o <> k \/ exists h, o = OUpd k h.

Lemma run_between k ops : forall li li' rs, wf li -> (forall o, In o ops -> between k o) -> leaderRun cache li ops = Ret (li', rs) ->
  picked li' k = picked li k /\ wf li'.
Proof.
  induction ops as [|o ops IH]; intros li li' rs W Hops E; cbn [leaderRun] in E.
  - injection E as <- <-. auto.
  - destruct (leaderStep cache li o) as [[l1 r]| | |] eqn:E1; try discriminate E. cbn [obind] in E.
    destruct (leaderRun cache l1 ops) as [[l2 rs2]| | |] eqn:E2; try discriminate E. injection E as <- <-.
    assert (H1 : picked l1 k = picked li k /\ wf l1).
    { destruct (Hops o) as [Ho | [h ->]]; [left; reflexivity| |].
      - destruct (step_other li o l1 r k W E1 Ho) as (_ & H & W1). auto.
      - cbn in E1. injection E1 as <- <-. split; [reflexivity|]. unfold wf, updateLeader. cbn. apply aset_keys; auto. apply pkeyEqb_ok. }
    destruct H1 as [<- W1]. eapply IH; eauto. intros; apply Hops; right; assumption.
Qed.

Theorem C51_round_robin : forall k hs others li li' rs, wf li -> getPartHosts cache k = Some hs ->
  0 <= picked li k < two64 - 1 -> Z.of_nat (length hs) < two64 ->
  (forall ops o, In ops others -> In o ops -> between k o) ->
  rounds k li others = Ret (li', rs) ->
  length rs = length others /\
  forall j, (j < length others)%nat ->
    nth_error rs j = Some (nth_error hs (Z.to_nat ((picked li k + 1 + Z.of_nat j) mod Z.of_nat (length hs)))).
Proof.
  intros k hs. induction others as [|ops others IH]; intros li li' rs W Hh Hp Hn Hops E; cbn [rounds] in E.
  - injection E as <- <-. split; [reflexivity|]. cbn. lia.
  - destruct (leaderRun cache li ops) as [[l1 r1]| | |] eqn:E1; try discriminate E. cbn [obind leaderStep] in E.
    destruct (run_between k ops li l1 r1 W) as [P1 W1]; auto. { intros o Ho. apply (Hops ops); auto. left. reflexivity. }
    unfold getLeader in E. cbn [negb] in E. unfold invalidLeader at 1 in E. cbn [leaderMap] in E.
    rewrite kdel, kself in E by assumption.
    destruct (pickLeader cache (invalidLeader l1 k) k) as [[r l3]| | |] eqn:E3; try discriminate E. cbn [obind] in E.
    destruct (rounds k l3 others) as [[l4 rs4]| | |] eqn:E4; try discriminate E. injection E as <- <-.
    apply pick_inv in E3. destruct E3 as [(Hno & _) | (hs' & h & Hh' & Hne & -> & Hi)]; [congruence|].
    rewrite Hh in Hh'. injection Hh' as <-. cbv zeta in Hi. destruct Hi as [Hi ->].
    change (picked (invalidLeader l1 k) k) with (picked l1 k) in *. rewrite P1 in *.
    assert (Hu : u64 (picked li k + 1) = picked li k + 1) by (unfold u64; unfold two64 in *; apply Z.mod_small; lia).
    rewrite Hu in *.
    assert (Hlen : 0 < Z.of_nat (length hs)) by (destruct hs; [congruence|cbn; lia]).
    set (i := (picked li k + 1) mod Z.of_nat (length hs)) in *.
    assert (Hir : 0 <= i < Z.of_nat (length hs)) by (apply Z.mod_pos_bound; lia).
    set (l3 := mkLI _ _) in *.
    assert (P3 : picked l3 k = i) by (unfold picked, l3; cbn; rewrite kset, kself; reflexivity).
    assert (W3 : wf l3) by (unfold wf, l3; cbn; apply aset_keys; [apply pkeyEqb_ok|apply adel_keys; [apply pkeyEqb_ok|exact W1]]).
    destruct (IH l3 l4 rs4 W3 Hh) as [L H]; auto; [rewrite P3; lia| |].
    { intros ops' o H1 H2. apply (Hops ops'); auto. right. assumption. }
    split; [cbn; lia|]. intros j Hj. destruct j as [|j].
    + cbn [nth_error]. rewrite <- Hi. do 2 f_equal. unfold i. f_equal. f_equal. lia.
    + cbn [nth_error]. rewrite H by (cbn in Hj; lia). do 3 f_equal. rewrite P3. unfold i.
      rewrite <- Z.add_assoc, Zplus_mod_idemp_l. f_equal. lia.
Qed.

(** As many rounds as there are replicas return every replica (as often as it is listed). *)
Theorem C51_visits_all : forall k hs others li li' rs, wf li -> getPartHosts cache k = Some hs -> hs <> [] ->
  0 <= picked li k < two64 - 1 -> Z.of_nat (length hs) < two64 ->
  (forall ops o, In ops others -> In o ops -> between k o) -> length others = length hs ->
  rounds k li others = Ret (li', rs) -> Permutation rs (map Some hs).
Proof.
  intros k hs others li li' rs W Hh Hne Hp Hn Hops Hl E.
  destruct (C51_round_robin k hs others li li' rs) as [L H]; auto. set (n := length hs) in *. set (a := picked li k + 1) in *.
  assert (Hn0 : (0 < n)%nat) by (unfold n; destruct hs; [congruence|cbn; lia]).
  assert (E1 : rs = map (fun j => nth_error hs (Z.to_nat ((a + Z.of_nat j) mod Z.of_nat n))) (seq 0 n)).
  { apply nth_ext with (d := None) (d' := None); [rewrite map_length, seq_length; lia|].
    intros j Hj. rewrite L, Hl in Hj.
    specialize (H j ltac:(lia)). apply nth_error_nth with (d := None) in H. rewrite H.
    rewrite nth_indep with (d' := nth_error hs (Z.to_nat ((a + Z.of_nat 0) mod Z.of_nat n))) by (rewrite map_length, seq_length; lia).
    rewrite map_nth with (f := fun j => nth_error hs (Z.to_nat ((a + Z.of_nat j) mod Z.of_nat n))).
    rewrite seq_nth by lia. reflexivity. }
  assert (E2 : map Some hs = map (fun i => nth_error hs i) (seq 0 n)).
  { apply nth_ext with (d := None) (d' := None); [rewrite !map_length, seq_length; reflexivity|].
    intros j Hj. rewrite map_length in Hj.
    rewrite (nth_indep (map (fun i => nth_error hs i) (seq 0 n)) None (nth_error hs 0)) by (rewrite map_length, seq_length; exact Hj).
    rewrite map_nth with (f := fun i => nth_error hs i), seq_nth by exact Hj. cbn [plus].
    destruct (nth_error hs j) as [h|] eqn:En; [|apply nth_error_None in En; lia].
    apply nth_error_nth. apply map_nth_error. assumption. }
  rewrite E1, E2. rewrite <- (map_map (fun j => Z.to_nat ((a + Z.of_nat j) mod Z.of_nat n)) (fun i => nth_error hs i)).
  apply Permutation_map. apply NoDup_Permutation_bis.
  - apply NoDup_map_in; [|apply seq_NoDup]. intros x y Hx Hy Exy. apply in_seq in Hx, Hy.
    assert (M : (a + Z.of_nat x) mod Z.of_nat n = (a + Z.of_nat y) mod Z.of_nat n).
    { apply Z2Nat.inj; auto; apply Z.mod_pos_bound; lia. }
    pose proof (Z.div_mod (a + Z.of_nat x) (Z.of_nat n) ltac:(lia)). pose proof (Z.div_mod (a + Z.of_nat y) (Z.of_nat n) ltac:(lia)).
    assert (Z.of_nat x - Z.of_nat y = Z.of_nat n * ((a + Z.of_nat x) / Z.of_nat n - (a + Z.of_nat y) / Z.of_nat n)) by lia.
    destruct (Z.eq_dec ((a + Z.of_nat x) / Z.of_nat n) ((a + Z.of_nat y) / Z.of_nat n)) as [Eq|Ne]; [rewrite Eq in *; lia|nia].
  - rewrite map_length. lia.
  - intros i Hi. apply in_map_iff in Hi. destruct Hi as (j & <- & Hj). apply in_seq.
    pose proof (Z.mod_pos_bound (a + Z.of_nat j) (Z.of_nat n) ltac:(lia)). lia.
Qed.

(** "another replica": true when the current leader is the replica recorded as picked, which a lookup
    establishes, and so does loadLeader for a leader among the replicas. *)
Definition tracked (k : pkey) (hs : list host) (li : leaderInfo) : Prop :=
  exists h, kget k (leaderMap li) = Some h /\ nth_error hs (Z.to_nat (picked li k)) = Some h /\ 0 <= picked li k < Z.of_nat (length hs).
Theorem C51_next_differs : forall k hs li h h' li', wf li -> getPartHosts cache k = Some hs -> NoDup hs -> (2 <= length hs)%nat ->
  Z.of_nat (length hs) < two64 ->
  tracked k hs li -> kget k (leaderMap li) = Some h -> getLeader cache true (invalidLeader li k) k = Ret (Some h', li') ->
  h' <> h /\ tracked k hs li'.
Proof.
  intros k hs li h h' li' W Hh Hnd Hlen Hmax (h0 & K0 & P0 & R0) Hk E. rewrite Hk in K0. injection K0 as <-.
  unfold getLeader, invalidLeader in E. cbn [negb leaderMap] in E. rewrite kdel, kself in E by assumption. fold (invalidLeader li k) in E.
  apply pick_inv in E. destruct E as [(Hno & _) | (hs' & h2 & Hh' & _ & Eh & Hi)]; [congruence|]. injection Eh as <-.
  rewrite Hh in Hh'. injection Hh' as <-. cbv zeta in Hi. destruct Hi as [Hi ->].
  change (picked (invalidLeader li k) k) with (picked li k) in *.
  assert (Hu : u64 (picked li k + 1) = picked li k + 1) by (unfold u64; unfold two64 in *; apply Z.mod_small; lia). rewrite Hu in *.
  set (i := (picked li k + 1) mod Z.of_nat (length hs)) in *.
  assert (Hir : 0 <= i < Z.of_nat (length hs)) by (apply Z.mod_pos_bound; lia).
  split.
  - intros ->. rewrite <- P0 in Hi. apply NoDup_nth_error in Hi; [|assumption|lia].
    assert (i = picked li k) by lia. unfold i in *.
    destruct (Z.eq_dec (picked li k + 1) (Z.of_nat (length hs))) as [Eq|Ne].
    + rewrite Eq, Z_mod_same_full in *. lia.
    + rewrite Z.mod_small in *; lia.
  - exists h'. unfold picked. cbn [leaderMap pickedIndex]. rewrite !kset, kself. auto.
Qed.
Theorem C51_lookup_tracks : forall k hs li h li', getPartHosts cache k = Some hs -> kget k (leaderMap li) = None ->
  getLeader cache true li k = Ret (Some h, li') -> tracked k hs li' /\ kget k (leaderMap li') = Some h.
Proof.
  intros k hs li h li' Hh Hk E. unfold getLeader in E. cbn [negb] in E. rewrite Hk in E.
  apply pick_inv in E. destruct E as [(Hno & _) | (hs' & h2 & Hh' & Hne & Eh & Hi)]; [congruence|]. injection Eh as <-.
  rewrite Hh in Hh'. injection Hh' as <-. cbv zeta in Hi. destruct Hi as [Hi ->].
  unfold tracked, picked. cbn [leaderMap pickedIndex]. rewrite !kset, kself. splits; auto. exists h. splits; auto; apply Z.mod_pos_bound;
    destruct hs; [congruence| |congruence|]; cbn; lia.
Qed.
Lemma indexOf_spec h l : forall i, In h l -> exists j, indexOf h l i = Some (i + Z.of_nat j) /\ nth_error l j = Some h.
Proof.
  induction l as [|x l IH]; intros i [].
  - subst x. cbn. exists O. rewrite (proj2 (hostEqb_ok h h) eq_refl). split; [f_equal; lia|reflexivity].
  - cbn. destruct (hostEqb x h) eqn:E.
    + apply hostEqb_ok in E. subst x. exists O. split; [f_equal; lia|reflexivity].
    + destruct (IH (i + 1) H) as (j & Ej & Hj). exists (S j). split; [rewrite Ej; f_equal; lia|assumption].
Qed.
Theorem C51_load_tracks : forall h space part hs li, getPartHosts cache (space, part) = Some hs -> In h hs ->
  tracked (space, part) hs (loadPart cache h space li part).
Proof.
  intros h space part hs li Hh Hin. unfold tracked, picked, loadPart. cbn [leaderMap pickedIndex]. rewrite !kset, kself, Hh.
  destruct (indexOf_spec h hs 0 Hin) as (j & -> & Hj). exists h. rewrite Z.add_0_l, Nat2Z.id. splits; auto; try lia.
  apply nth_some_lt in Hj. lia.
Qed.

(** * C49 *)
Section C.
Context {A : Type} (vid : A -> str).
Definition group (cl : list (host * list (Z * list A))) (h : host) (p : Z) : list A :=
  match aget hostEqb h cl with Some m => match aget Z.eqb p m with Some g => g | None => [] end | None => [] end.
(** the partition of an id *)
Definition inPart (n p : Z) (id : A) : bool := match partId n (vid id) with Ret q => q =? p | _ => false end.
Definition allIds (cl : list (host * list (Z * list A))) : list A := flat_map (fun hm => flat_map snd (snd hm)) cl.

Lemma get_keeps ready li k h li' k' h' : getLeader cache ready li k = Ret (h, li') -> kget k' (leaderMap li) = Some h' ->
  kget k' (leaderMap li') = Some h'.
Proof.
  unfold getLeader. destruct ready; cbn [negb]; [|intros E; injection E as <- <-; auto].
  destruct (kget k (leaderMap li)) eqn:Ek; [intros E; injection E as <- <-; auto|].
  intros E K. apply pick_inv in E. destruct E as [(_ & _ & ->) | (hs & h0 & _ & _ & _ & _ & ->)]; auto.
  cbn. rewrite kset. destruct (pkeyEqb k' k) eqn:E; auto. apply pkeyEqb_ok in E. congruence.
Qed.
Lemma get_sets ready li k h li' : getLeader cache ready li k = Ret (Some h, li') -> kget k (leaderMap li') = Some h.
Proof.
  unfold getLeader. destruct ready; cbn [negb]; [|discriminate].
  destruct (kget k (leaderMap li)) eqn:Ek; [intros E; injection E as <- <-; auto|].
  intros E. apply pick_inv in E. destruct E as [(_ & E & _) | (hs & h0 & _ & _ & E & _ & ->)]; [discriminate E|].
  injection E as <-. cbn. rewrite kset, kself. reflexivity.
Qed.

Lemma partLeaders_spec ready space : forall count part li acc ls li',
  partLeaders cache ready space part count li acc = Ret (Some ls, li') ->
  (forall k h, kget k (leaderMap li) = Some h -> kget k (leaderMap li') = Some h) /\
  (forall p, part <= p < part + Z.of_nat count -> exists h, aget Z.eqb p ls = Some h /\ kget (space, p) (leaderMap li') = Some h) /\
  (forall p, p < part -> aget Z.eqb p ls = aget Z.eqb p acc).
Proof.
  induction count as [|c IH]; intros part li acc ls li' E; cbn [partLeaders] in E.
  - injection E as <- <-. splits; auto. intros p Hp. lia.
  - destruct (getLeader cache ready li (space, part)) as [[h l1]| | |] eqn:G; try discriminate E. cbn [obind] in E.
    destruct h as [h|]; [|discriminate E]. destruct (IH _ _ _ _ _ E) as (H1 & H2 & H3). splits.
    + intros k h' K. apply H1. eapply get_keeps; eauto.
    + intros p Hp. destruct (Z.eq_dec p part) as [-> | Hne]; [|apply H2; lia].
      exists h. rewrite H3 by lia. rewrite (aget_aset Z.eqb Z.eqb_eq), Z.eqb_refl. split; [reflexivity|].
      apply H1. eapply get_sets; eauto.
    + intros p Hp. rewrite H3 by lia. rewrite (aget_aset Z.eqb Z.eqb_eq). destruct (Z.eqb_spec p part); [lia|reflexivity].
Qed.

Lemma group_add cl h p id h' p' : group (addTo h p id cl) h' p' = if hostEqb h' h && (p' =? p) then group cl h p ++ [id] else group cl h' p'.
Proof.
  unfold group, addTo. rewrite (aget_aset hostEqb hostEqb_ok). destruct (hostEqb h' h) eqn:Eh; cbn [andb].
  - apply hostEqb_ok in Eh. subst h'. rewrite (aget_aset Z.eqb Z.eqb_eq). destruct (p' =? p) eqn:Ep.
    + apply Z.eqb_eq in Ep. subst p'. destruct (aget hostEqb h cl); reflexivity.
    + destruct (aget hostEqb h cl); reflexivity.
  - reflexivity.
Qed.

Lemma perm_aset_ids (id : A) part (m : list (Z * list A)) :
  Permutation (flat_map snd (aset Z.eqb part (match aget Z.eqb part m with Some g => g | None => [] end ++ [id]) m)) (id :: flat_map snd m).
Proof.
  induction m as [|[q g] m IH]; cbn; [reflexivity|]. destruct (part =? q); cbn.
  - rewrite <- app_assoc. cbn. apply Permutation_sym, Permutation_middle.
  - eapply perm_trans; [apply Permutation_app_head, IH|]. apply Permutation_sym, Permutation_middle.
Qed.
Lemma perm_add cl h p id : Permutation (allIds (addTo h p id cl)) (id :: allIds cl).
Proof.
  unfold allIds, addTo. induction cl as [|[h0 m] cl IH]; cbn [aget aset flat_map].
  - cbn. reflexivity.
  - destruct (hostEqb h h0) eqn:E; cbn [flat_map snd].
    + eapply perm_trans; [apply Permutation_app_tail, perm_aset_ids|]. reflexivity.
    + eapply perm_trans; [apply Permutation_app_head, IH|]. apply Permutation_sym, Permutation_middle.
Qed.
Definition noEmpty (cl : list (host * list (Z * list A))) : Prop :=
  forall h m, In (h, m) cl -> m <> [] /\ forall p g, In (p, g) m -> g <> [].
Lemma in_aset {K V} eqb (k : K) (v : V) l x : In x (aset eqb k v l) -> x = (k, v) \/ In x l.
Proof. induction l as [|[k0 v0] l IH]; cbn; [intuition|]. destruct (eqb k k0); cbn; intuition. Qed.
Lemma noEmpty_add cl h p id : noEmpty cl -> noEmpty (addTo h p id cl).
Proof.
  intros N h' m' Hin. unfold addTo in Hin. apply in_aset in Hin. destruct Hin as [Hin | Hin]; [|apply (N _ _ Hin)].
  injection Hin as -> ->. split.
  - destruct (match aget hostEqb h cl with Some m => m | None => [] end) as [|[q g] m]; cbn; [discriminate|]. destruct (p =? q); discriminate.
  - intros q g Hg. apply in_aset in Hg. destruct Hg as [Hg | Hg].
    + injection Hg as -> ->. intros Heq. apply app_eq_nil in Heq. destruct Heq as [_ Heq]. discriminate Heq.
    + destruct (aget hostEqb h cl) as [m|] eqn:Em; [|destruct Hg].
      apply (aget_In hostEqb hostEqb_ok) in Em. apply (proj2 (N _ _ Em) _ _ Hg).
Qed.

Lemma loop_spec n leaders : forall ids cl cl', clusterLoop vid n leaders ids cl = Ret cl' ->
  (forall h p, group cl' h p = group cl h p ++
     filter (fun id => inPart n p id && hostEqb h (match aget Z.eqb p leaders with Some h => h | None => noHost end)) ids) /\
  Permutation (allIds cl') (allIds cl ++ ids) /\ (noEmpty cl -> noEmpty cl').
Proof.
  induction ids as [|id ids IH]; intros cl cl' E; cbn [clusterLoop] in E.
  - injection E as <-. cbn. splits; auto; intros; rewrite app_nil_r; auto.
  - destruct (partId n (vid id)) as [q| | |] eqn:Eq; try discriminate E. cbn [obind] in E. cbv zeta in E.
    destruct (IH _ _ E) as (H1 & H2 & H3). splits.
    + intros h p. rewrite H1, group_add. cbn [filter]. unfold inPart at 2. rewrite Eq.
      destruct (Z.eqb_spec q p) as [<- | Hne]; cbn [andb].
      * rewrite Z.eqb_refl, andb_true_r.
        set (ld := match aget Z.eqb q leaders with Some h => h | None => noHost end). destruct (hostEqb h ld) eqn:Eh.
        -- apply hostEqb_ok in Eh. subst h. rewrite <- app_assoc. reflexivity.
        -- reflexivity.
      * destruct (Z.eqb_spec p q); [congruence|]. rewrite andb_false_r. reflexivity.
    + eapply perm_trans; [exact H2|]. eapply perm_trans; [apply Permutation_app_tail, perm_add|]. apply (Permutation_middle _ _ id).
    + intros N. apply H3, noEmpty_add, N.
Qed.

(** Every id is in exactly one group: the one of its partition and of the leader the cache holds for it; each
    group lists its ids in input order, nothing is lost, invented or duplicated, and no group is empty. *)
Theorem C49_groups : forall li space n ids cl li', partsNum cache space = Some n -> 0 < n ->
  (forall id, In id ids -> bytes_ok (vid id)) ->
  clusterIdsToHosts cache vid true li space ids = Ret (Some cl, li') ->
  exists leaderOf, (forall p, 1 <= p <= n -> kget (space, p) (leaderMap li') = Some (leaderOf p)) /\
    (forall h p, group cl h p = if hostEqb h (leaderOf p) then filter (inPart n p) ids else []) /\
    Permutation (allIds cl) ids /\ noEmpty cl /\
    (forall id, In id ids -> exists p, 1 <= p <= n /\ partId n (vid id) = Ret p /\ In id (group cl (leaderOf p) p)).
Proof.
  intros li space n ids cl li' Hn Hpos Hb E. unfold clusterIdsToHosts in E. rewrite Hn in E.
  destruct (partLeaders cache true space 1 (Z.to_nat n) li []) as [[ls l1]| | |] eqn:El; try discriminate E. cbn [obind] in E.
  destruct ls as [ls|]; [|discriminate E]. destruct (clusterLoop vid n ls ids []) as [c| | |] eqn:Ec; try discriminate E.
  injection E as <- <-. destruct (partLeaders_spec _ _ _ _ _ _ _ _ El) as (_ & Hl & _).
  destruct (loop_spec n ls ids [] c Ec) as (G1 & G2 & G3).
  assert (Hmax : n <= 2147483647).
  { unfold partsNum in Hn. destruct (aget Z.eqb space cache); [|discriminate Hn]. injection Hn as <-. unfold wrap32.
    pose proof (Z.mod_pos_bound (Z.of_nat (List.length l) + 2147483648) 4294967296 ltac:(lia)). lia. }
  exists (fun p => match aget Z.eqb p ls with Some h => h | None => noHost end). splits.
  - intros p Hp. destruct (Hl p ltac:(lia)) as (h & -> & ->). reflexivity.
  - intros h p. rewrite G1. cbn [group aget app]. set (ld := match aget Z.eqb p ls with Some h => h | None => noHost end).
    destruct (hostEqb h ld) eqn:Eh; clear.
    + apply filter_ext. intros id. apply andb_true_r.
    + induction ids as [|id ids IH]; cbn; [reflexivity|]. rewrite andb_false_r. exact IH.
  - exact G2.
  - apply G3. intros h m [].
  - intros id Hid. destruct (C22_part_id_in_range n (vid id) (Hb id Hid) ltac:(lia)) as (p & Ep & Hp & _).
    exists p. splits; auto; try lia. rewrite G1. cbn [group aget app]. apply filter_In. split; [assumption|].
    unfold inPart. rewrite Ep, Z.eqb_refl. cbn [andb]. apply hostEqb_ok. reflexivity.
Qed.

(** It succeeds whenever every part of the space has replicas. *)
Theorem C49_succeeds : forall li space alloc ids, aget Z.eqb space cache = Some alloc ->
  0 < Z.of_nat (length alloc) <= int32_max ->
  (forall p, 1 <= p <= Z.of_nat (length alloc) -> exists hs, aget Z.eqb p alloc = Some hs /\ hs <> []) ->
  (forall id, In id ids -> bytes_ok (vid id)) ->
  exists cl li', clusterIdsToHosts cache vid true li space ids = Ret (Some cl, li').
Proof.
  intros li space alloc ids Ha Hlen Hrep Hb. set (n := Z.of_nat (length alloc)) in *.
  assert (Hn : partsNum cache space = Some n).
  { unfold partsNum. rewrite Ha. f_equal. unfold wrap32, int32_max in *. fold n. rewrite Z.mod_small; lia. }
  unfold clusterIdsToHosts. rewrite Hn.
  assert (Hget : forall li p, 1 <= p <= n -> exists h li', getLeader cache true li (space, p) = Ret (Some h, li')).
  { intros l p Hp. unfold getLeader. cbn [negb]. destruct (kget (space, p) (leaderMap l)) as [h|]; [eauto|].
    unfold pickLeader, getPartHosts. cbn [fst snd]. rewrite Ha. destruct (Hrep p Hp) as (hs & -> & Hne).
    destruct (Nat.eqb_spec (length hs) 0) as [Hz|Hz]; [destruct hs; [congruence|discriminate Hz]|]. cbv zeta.
    match goal with |- context [nth_error hs ?i] => destruct (nth_error hs i) as [h|] eqn:En end; [eauto|].
    apply nth_error_None in En. exfalso.
    match type of En with context [?x mod ?y] => pose proof (Z.mod_pos_bound x y ltac:(lia)) end. lia. }
  assert (Hpl : forall count part li acc, 1 <= part -> part + Z.of_nat count <= n + 1 ->
            exists ls li', partLeaders cache true space part count li acc = Ret (Some ls, li')).
  { induction count as [|c IH]; intros part l acc H1 H2; cbn [partLeaders]; [eauto|].
    destruct (Hget l part ltac:(lia)) as (h & l' & ->). cbn [obind]. apply IH; lia. }
  destruct (Hpl (Z.to_nat n) 1 li [] ltac:(lia) ltac:(lia)) as (ls & l' & ->). cbn [obind].
  assert (Hloop : forall ids cl, (forall id, In id ids -> bytes_ok (vid id)) -> exists c, clusterLoop vid n ls ids cl = Ret c).
  { clear - Hlen. induction ids as [|id ids IH]; intros cl Hb; cbn [clusterLoop]; [eauto|].
    destruct (C22_part_id_in_range n (vid id)) as (p & -> & _); [apply Hb; left; reflexivity|unfold int32_max in *; lia|].
    cbn [obind]. apply IH. intros; apply Hb; right; assumption. }
  destruct (Hloop ids [] Hb) as (c & ->). cbn [obind]. eauto.
Qed.
End C.
End S.

(** A leader that was not reported is one of the replicas listed for that part of that space, and is remembered; nothing is
    answered, and nothing remembered, before the cache is ready or for a part without an entry. *)
Theorem C51_is_replica : forall cache li k h li', getLeader cache true li k = Ret (Some h, li') -> kget k (leaderMap li) = None ->
  kget k (leaderMap li') = Some h /\ exists space part alloc hs, k = (space, part) /\ aget Z.eqb space cache = Some alloc /\ aget Z.eqb part alloc = Some hs /\ In h hs.
Proof.
  intros cache li [space part] h li' H N. unfold getLeader in H. cbn [negb] in H. rewrite N in H. unfold pickLeader, getPartHosts in H. cbn [fst snd] in H.
  destruct (aget Z.eqb space cache) as [alloc|] eqn:A; [|discriminate H]. destruct (aget Z.eqb part alloc) as [hs|] eqn:P; [|discriminate H].
  destruct (Nat.eqb (length hs) 0); [discriminate H|]. cbv zeta in H. destruct (nth_error hs _) as [h0|] eqn:Q; [|discriminate H].
  apply Ret_inj in H. injection H as <- <-. cbn [leaderMap]. split; [rewrite (aget_aset pkeyEqb pkeyEqb_ok), (proj2 (pkeyEqb_ok _ _) eq_refl); reflexivity|].
  exists space, part, alloc, hs. splits; auto. now apply nth_error_In in Q.
Qed.
Theorem C51_refuses : forall cache li space part,
  getLeader cache false li (space, part) = Ret (None, li) /\
  (kget (space, part) (leaderMap li) = None -> (forall alloc, aget Z.eqb space cache = Some alloc -> aget Z.eqb part alloc = None) -> getLeader cache true li (space, part) = Ret (None, li)).
Proof.
  intros cache li space part. split; [reflexivity|]. intros N H. unfold getLeader. cbn [negb]. rewrite N. unfold pickLeader, getPartHosts. cbn [fst snd].
  destruct (aget Z.eqb space cache) as [alloc|]; [|reflexivity]. now rewrite (H alloc eq_refl).
Qed.
Example C51_is_replica_ex : let cache := [(1, [(2, [([97], 80); ([98], 80)]); (1, [([99], 80)])])] in
  (exists li', getLeader cache true (mkLI [] []) (1, 2) = Ret (Some ([98], 80), li')) /\ (forall alloc, aget Z.eqb 2 cache = Some alloc -> aget Z.eqb 1 alloc = None) /\
  getLeader cache true (mkLI [] []) (2, 1) = Ret (None, mkLI [] []).
Proof. intros cache. splits; [eexists; reflexivity|discriminate|reflexivity]. Qed.

(** "returns another replica" is false after an update: the recorded index is not updated, so the replica
    just invalidated can be picked again although there is another one. *)
Theorem C51_update_then_invalidate_refuted : exists cache k a b li',
  getPartHosts cache k = Some [a; b] /\ a <> b /\
  getLeader cache true (invalidLeader (updateLeader (mkLI [] []) k b) k) k = Ret (Some b, li').
Proof.
  exists [(1, [(1, [(B "a", 1); (B "b", 1)])])], (1, 1), (B "a", 1), (B "b", 1). eexists. splits; [reflexivity|discriminate|].
  vm_compute. reflexivity.
Qed.

(** A part without replicas divides by zero. *)
Theorem C51_no_replicas_refuted : exists cache k, getPartHosts cache k = Some [] /\ getLeader cache true (mkLI [] []) k = UB.
Proof. exists [(1, [(1, [])])], (1, 1). split; reflexivity. Qed.

(** Two threads asking at once: both find no leader (the check and the pick are separate critical sections),
    each picks, and the first thread's answer is not the leader on record; a replica is skipped. *)
Theorem C51_concurrent_refuted : exists cache k h1 h2 li1 li2,
  kget k (leaderMap (mkLI [] [])) = None /\
  pickLeader cache (mkLI [] []) k = Ret (Some h1, li1) /\ pickLeader cache li1 k = Ret (Some h2, li2) /\
  h1 <> h2 /\ kget k (leaderMap li2) = Some h2.
Proof.
  exists [(1, [(1, [(B "a", 1); (B "b", 1); (B "c", 1)])])], (1, 1), (B "b", 1), (B "c", 1). eexists. eexists.
  splits; try reflexivity; try (vm_compute; reflexivity). discriminate.
Qed.

(** A space without parts: clustering any id divides by zero. *)
Theorem C49_no_parts_refuted : exists (cache : allocCache) space, forall id li, length id = 8%nat ->
  partsNum cache space = Some 0 /\ clusterIdsToHosts cache (fun x : str => x) true li space [id] = UB.
Proof.
  exists [(1, [])], 1. intros id li H. split; [reflexivity|]. unfold clusterIdsToHosts. cbn [partsNum aget Z.eqb fst].
  do 9 (destruct id as [|? id]; try discriminate H). reflexivity.
Qed.

Example C49_ex : exists li',
  clusterIdsToHosts [(1, [(1, [(B "a", 1); (B "b", 1)]); (2, [(B "b", 1)])])] (fun x : str => x) true
    (mkLI [((1, 1), (B "a", 1))] []) 1 [[2;0;0;0;0;0;0;0]; [3;0;0;0;0;0;0;0]; [4;0;0;0;0;0;0;0]]
  = Ret (Some [((B "a", 1), [(1, [[2;0;0;0;0;0;0;0]; [4;0;0;0;0;0;0;0]])]); ((B "b", 1), [(2, [[3;0;0;0;0;0;0;0]])])], li').
Proof. eexists. vm_compute. reflexivity. Qed.
Example C51_ex : exists li' rs,
  rounds [(1, [(1, [(B "a", 1); (B "b", 1); (B "c", 1)])])] (1, 1) (mkLI [] []) [[]; [OUpd (1, 1) (B "x", 9)]; [OInv (1, 2)]] = Ret (li', rs) /\
  rs = [Some (B "b", 1); Some (B "c", 1); Some (B "a", 1)].
Proof. eexists. eexists. split; vm_compute; reflexivity. Qed.

Print Assumptions C49_groups.
Print Assumptions C49_succeeds.
Print Assumptions C51_update_is_kept.
Print Assumptions C51_round_robin.
Print Assumptions C51_visits_all.
Print Assumptions C51_next_differs.
Print Assumptions C51_is_replica.
Print Assumptions C51_refuses.
