(** C158: the default values of a schema live as long as the cache that the schema came from, not as long as the schema. *)
From Coq Require Import String List.
From Verif Require Import Prelude ValueBase AssocModel CloneProofs DefaultsModel.
Import ListNotations.
Local Open Scope Z_scope.
Local Open Scope list_scope.

(** * Specification *)
Definition after (es : list event) : state := fold_left happen es initial.
(** events that put another cache in place, or none *)
Definition replaces (e : event) : Prop := match e with ELoad _ complete => complete = true | EEnd => True end.
(** the expressions that the caches in place own *)
Definition owned (s : state) : list Z := flat_map (fun e => scPool (snd e)) (stCache s).

(** * Proofs *)
Lemma skeyEqb_ok a b : skeyEqb a b = true <-> a = b.
Proof.
  destruct a as [[a1 a2] a3], b as [[b1 b2] b3]. unfold skeyEqb. cbn. rewrite !andb_true_iff, eqb_true_iff, !Z.eqb_eq.
  split; [intros [[-> ->] ->]; reflexivity|intros H; injection H as -> -> ->; auto].
Qed.
Lemma existsb_In a l : existsb (Z.eqb a) l = true <-> In a l.
Proof. rewrite existsb_exists. split; [intros (x & H & E); apply Z.eqb_eq in E; congruence|intros H; exists a; split; [auto|apply Z.eqb_refl]]. Qed.
(** what making expressions does: fresh ones, all in the pool *)
Definition grows (h h' : heap) (p p' : list Z) : Prop :=
  hNext h <= hNext h' /\ exists l, p' = p ++ l /\ NoDup l /\ (forall a, In a l <-> hNext h <= a < hNext h') /\ (forall a, In a (hLive h') <-> In a (hLive h) \/ In a l).
Lemma grows_refl h p : grows h h p p.
Proof. split; [lia|]. exists []. rewrite app_nil_r. splits; auto; [constructor|intros a; cbn; lia|cbn; tauto]. Qed.
Lemma grows_trans h1 h2 h3 p1 p2 p3 : grows h1 h2 p1 p2 -> grows h2 h3 p2 p3 -> grows h1 h3 p1 p3.
Proof.
  intros [L1 (l1 & -> & N1 & A1 & V1)] [L2 (l2 & -> & N2 & A2 & V2)]. split; [lia|]. exists (l1 ++ l2). splits.
  - rewrite app_assoc. reflexivity.
  - apply NoDup_app_disj; auto. intros x H H'. apply A1 in H. apply A2 in H'. lia.
  - intros a. rewrite in_app_iff, A1, A2. lia.
  - intros a. rewrite V2, V1, in_app_iff. tauto.
Qed.
Lemma make_grows n h p h' p' : make h p n = (h', p') -> grows h h' p p' /\ hNext h' = hNext h + Z.of_nat n.
Proof.
  revert h p. induction n as [|n IH]; intros h p H; cbn [make] in H.
  - injection H as <- <-. split; [apply grows_refl|lia].
  - apply IH in H. destruct H as [G E]. cbn in E. split; [|lia]. eapply grows_trans; [|exact G]. split; cbn; [lia|]. exists [hNext h]. splits.
    + reflexivity.
    + constructor; [intros []|constructor].
    + intros a. cbn. lia.
    + intros a. cbn. intuition.
Qed.
(** the default values of a schema are in the pool *)
Definition within (p : list Z) (s : schema) : Prop := forall c a, In (c, Some a) s -> In a p.
Lemma grows_in h h' p p' a : grows h h' p p' -> In a p -> In a p'.
Proof. intros [_ (l & -> & _)] H. apply in_or_app. auto. Qed.
Lemma addField_grows h p s c h' p' s' : within p s -> addField h p s c = (h', p', s') -> grows h h' p p' /\ within p' s'.
Proof.
  intros W. unfold addField. destruct (coDefault c) as [[n|n]|].
  - destruct (make h p (S n)) as [h1 p1] eqn:M. intros H. injection H as <- <- <-. pose proof (make_grows _ _ _ _ _ M) as [G E]. split; auto.
    intros c0 a H. apply in_app_or in H. destruct H as [H|[H|[]]]; [eapply grows_in; eauto|]. injection H as <- <-.
    destruct G as [_ (l & -> & _ & A & _)]. apply in_or_app. right. apply A. lia.
  - destruct (make h p n) as [h1 p1] eqn:M. intros H. injection H as <- <- <-. pose proof (make_grows _ _ _ _ _ M) as [G E]. split; auto.
    intros c0 a H. apply in_app_or in H. destruct H as [H|[H|[]]]; [eapply grows_in; eauto|]. discriminate.
  - intros H. injection H as <- <- <-. split; [apply grows_refl|]. intros c0 a H. apply in_app_or in H. destruct H as [H|[H|[]]]; [eauto|discriminate].
Qed.
Lemma addFields_grows cs : forall h p s h' p' s', within p s -> addFields h p s cs = (h', p', s') -> grows h h' p p' /\ within p' s'.
Proof.
  induction cs as [|c cs IH]; intros h p s h' p' s' W H; cbn in H.
  - injection H as <- <- <-. split; [apply grows_refl|auto].
  - destruct (addField h p s c) as [[h1 p1] s1] eqn:F. apply addField_grows in F; auto. destruct F as [G1 W1]. apply IH in H; auto. destruct H as [G2 W2].
    split; auto. eapply grows_trans; eauto.
Qed.
Definition allWithin (sc : spaceCache) : Prop := forall k s, In (k, s) (scSchemas sc) -> within (scPool sc) s.
Lemma aset_In k (v : schema) l x : In x (aset skeyEqb k v l) -> x = (k, v) \/ In x l.
Proof.
  induction l as [|[k0 v0] l IH]; cbn; [intuition|]. destruct (skeyEqb k k0) eqn:E; cbn; [intuition|]. intros [H|H]; auto. apply IH in H. tauto.
Qed.
Lemma loadSchemas_grows items : forall h sc h' sc', allWithin sc -> loadSchemas h sc items = (h', sc') ->
  grows h h' (scPool sc) (scPool sc') /\ allWithin sc'.
Proof.
  induction items as [|[k cs] items IH]; intros h sc h' sc' W H; cbn in H.
  - injection H as <- <-. split; [apply grows_refl|auto].
  - destruct (addFields h (scPool sc) [] cs) as [[h1 p1] s1] eqn:F. apply addFields_grows in F; [|intros ? ? []]. destruct F as [G1 W1].
    apply IH in H; [destruct H as [G2 W2]; split; auto; eapply grows_trans; eauto|].
    intros k0 s0 J. cbn in *. apply aset_In in J. destruct J as [J|J]; [injection J as -> ->; exact W1|]. intros c a X. eapply grows_in; [exact G1|]. eapply W; eauto.
Qed.
Lemma free_live p h a : In a (hLive (free p h)) <-> In a (hLive h) /\ ~ In a p.
Proof. cbn. rewrite filter_In, negb_true_iff, <- not_true_iff_false, existsb_In. tauto. Qed.
Lemma freeAll_live c : forall h a, In a (hLive (freeAll c h)) <-> In a (hLive h) /\ ~ In a (flat_map (fun e => scPool (snd e)) c).
Proof.
  induction c as [|e c IH]; intros h a; cbn [freeAll fold_left flat_map]; [cbn; tauto|].
  unfold freeAll in IH. rewrite IH, free_live, in_app_iff. tauto.
Qed.
Lemma freeAll_next c : forall h, hNext (freeAll c h) = hNext h.
Proof. induction c as [|e c IH]; intros h; cbn; auto. unfold freeAll in IH. rewrite IH. reflexivity. Qed.
Definition pools (c : cache) : list Z := flat_map (fun e => scPool (snd e)) c.
Record good (n0 : Z) (h : heap) (c : cache) : Prop := {
  gNoDup : NoDup (pools c);
  gRange : forall a, In a (pools c) -> n0 <= a < hNext h;
  gWithin : forall sp sc, In (sp, sc) c -> allWithin sc }.
(** the loop over the spaces: what lived before lives on, and of the new expressions those that the caches own *)
Lemma loadSpaces_good resp : forall h c h' c' n0, n0 <= hNext h -> good n0 h c -> loadSpaces h c resp = (h', c') ->
  hNext h <= hNext h' /\ good n0 h' c' /\
  (forall old, (forall a, In a old -> a < n0) -> (forall a, In a (hLive h) <-> In a old \/ In a (pools c)) ->
     (forall a, In a (hLive h') <-> In a old \/ In a (pools c'))).
Proof.
  induction resp as [|[sp items] resp IH]; intros h c h' c' n0 Ln G H; cbn [loadSpaces] in H.
  - injection H as <- <-. splits; auto. lia.
  - destruct (loadSchemas h (mkSpace [] []) items) as [h1 sc] eqn:L. apply loadSchemas_grows in L; [|intros ? ? []].
    destruct L as [[L1 (l & El & Nl & Al & Vl)] W]. cbn in El.
    destruct (aget Z.eqb sp c) eqn:E.
    + apply IH with (n0 := n0) in H.
      * destruct H as (H1 & H2 & H3). splits; auto; [cbn in H1; lia|]. intros old O V. apply H3; auto. intros a. rewrite free_live, El, Vl, V.
        specialize (Al a). split; [tauto|]. intros X. split; [tauto|]. intros X1. apply Al in X1. destruct X as [X|X]; [apply O in X; lia|].
        apply (gRange _ _ _ G) in X. lia.
      * cbn. lia.
      * destruct G as [G1 G2 G3]. split; auto. intros a X. apply G2 in X. cbn. lia.
    + assert (P : forall x, In x (pools (c ++ [(sp, sc)])) <-> In x (pools c) \/ In x l).
      { intros x. unfold pools. rewrite flat_map_app, in_app_iff. cbn. rewrite app_nil_r, El. tauto. }
      apply IH with (n0 := n0) in H.
      * destruct H as (H1 & H2 & H3). splits; auto; [lia|]. intros old O V. apply H3; auto. intros a. rewrite Vl, V, P. tauto.
      * lia.
      * destruct G as [G1 G2 G3]. split.
        -- unfold pools in *. rewrite flat_map_app. cbn. rewrite app_nil_r, El. apply NoDup_app_disj; auto. intros x X X'. apply G2 in X. apply Al in X'. lia.
        -- intros a X. apply P in X. destruct X as [X|X]; [apply G2 in X|apply Al in X]; lia.
        -- intros sp0 sc0 J. apply in_app_or in J. destruct J as [J|[J|[]]]; [eauto|]. injection J as <- <-. auto.
Qed.
Record inv (s : state) : Prop := {
  vGood : good 0 (stHeap s) (stCache s);
  vNext : 0 <= hNext (stHeap s);
  vLive : forall a, In a (hLive (stHeap s)) <-> In a (pools (stCache s)) }.
Lemma good_nil n h : good n h [].
Proof. split; cbn; [constructor|intros ? []|intros ? ? []]. Qed.
(** an event, in one lemma: the caches in place afterwards, and where their expressions come from *)
Lemma happen_inv s e : inv s -> inv (happen s e) /\ hNext (stHeap s) <= hNext (stHeap (happen s e)) /\
  (replaces e -> forall a, In a (pools (stCache (happen s e))) -> hNext (stHeap s) <= a) /\
  (~ replaces e -> stCache (happen s e) = stCache s).
Proof.
  intros [G N V]. destruct e as [resp complete|]; cbn [happen].
  - destruct (loadSpaces (stHeap s) [] resp) as [h c] eqn:L.
    apply loadSpaces_good with (n0 := hNext (stHeap s)) in L; [|lia|apply good_nil]. destruct L as (L1 & [L2 L2' L2''] & L3).
    specialize (L3 (pools (stCache s))).
    assert (X : forall a, In a (hLive h) <-> In a (pools (stCache s)) \/ In a (pools c)).
    { apply L3; [intros a X; apply (gRange _ _ _ G) in X; lia|]. intros a. rewrite V. cbn. tauto. }
    destruct complete; cbn [stHeap stCache replaces].
    + rewrite freeAll_next. splits; auto; [| |tauto].
      * split; cbn [stHeap stCache].
        -- split; auto. intros a Y. rewrite freeAll_next. apply L2' in Y. lia.
        -- rewrite freeAll_next. lia.
        -- intros a. rewrite freeAll_live, X. fold (pools (stCache s)). split; [tauto|]. intros Y. split; [tauto|]. intros Y'.
           apply L2' in Y. apply (gRange _ _ _ G) in Y'. lia.
      * intros _ a Y. apply L2' in Y. lia.
    + rewrite freeAll_next. splits; auto; [|discriminate].
      split; cbn [stHeap stCache].
      * destruct G as [G1 G2 G3]. split; auto. intros a Y. rewrite freeAll_next. apply G2 in Y. lia.
      * rewrite freeAll_next. lia.
      * intros a. rewrite freeAll_live, X. fold (pools c). split; [tauto|]. intros Y. split; [tauto|]. intros Y'.
        apply L2' in Y'. apply (gRange _ _ _ G) in Y. lia.
  - cbn. rewrite freeAll_next. splits; [|lia|intros _ a []|tauto]. split; cbn; [apply good_nil|rewrite freeAll_next; lia|].
    intros a. rewrite freeAll_live, V. fold (pools (stCache s)). tauto.
Qed.
Lemma initial_inv : inv initial.
Proof. split; cbn; [apply good_nil|lia|tauto]. Qed.
Lemma run_inv es : forall s, inv s -> inv (fold_left happen es s) /\ hNext (stHeap s) <= hNext (stHeap (fold_left happen es s)).
Proof.
  induction es as [|e es IH]; intros s I; cbn; [split; [auto|lia]|]. destruct (happen_inv s e I) as (I1 & L & _). destruct (IH _ I1). split; [auto|lia].
Qed.
Lemma schema_owned s space k sch c a : inv s -> getSchema s space k = Some sch -> aget strEqb c sch = Some (Some a) -> In a (pools (stCache s)).
Proof.
  intros I H A. unfold getSchema in H. destruct (aget Z.eqb space (stCache s)) as [sc|] eqn:E; [|discriminate].
  apply (aget_In _ Z.eqb_eq) in E. apply (aget_In _ skeyEqb_ok) in H. apply (aget_In _ strEqb_iff) in A.
  unfold pools. apply in_flat_map. exists (space, sc). split; auto. cbn. apply (gWithin _ _ _ (vGood _ I) _ _ E _ _ H _ _ A).
Qed.
Lemma unreplaced es : forall s, inv s -> (forall e, In e es -> ~ replaces e) -> stCache (fold_left happen es s) = stCache s.
Proof.
  induction es as [|e es IH]; intros s I H; cbn; auto. destruct (happen_inv s e I) as (I1 & _ & _ & C). rewrite IH; auto; [|intros e' J; apply H; cbn; auto].
  apply C. apply H. cbn. auto.
Qed.
Lemma replaced es : forall s n, inv s -> n <= hNext (stHeap s) -> ((exists e, In e es /\ replaces e) \/ forall a, In a (pools (stCache s)) -> n <= a) ->
  forall a, In a (pools (stCache (fold_left happen es s))) -> n <= a.
Proof.
  induction es as [|e es IH]; intros s n I Ln H; cbn [fold_left].
  - destruct H as [(e & [] & _)|H]; auto.
  - destruct (happen_inv s e I) as (I1 & L & R & C).
    assert (D : replaces e \/ ~ replaces e) by (destruct e as [? [|]|]; cbn; auto).
    apply IH; auto; [lia|]. destruct D as [D|D].
    + right. intros a X. apply R in X; auto. lia.
    + rewrite (C D). destruct H as [(e0 & [<-|J] & X)|H]; [contradiction|left; exists e0; auto|auto].
Qed.

(** * C158 *)
(** Whatever was loaded, and whether the loads were completed or not: the expressions that exist are those that the caches in place own, each
    once. Nothing is left behind, and nothing is deleted twice. *)
Theorem C158_owned : forall es, NoDup (owned (after es)) /\ forall a, In a (hLive (stHeap (after es))) <-> In a (owned (after es)).
Proof.
  intros es. destruct (run_inv es initial initial_inv) as [I _]. split; [apply (gNoDup _ _ _ (vGood _ I))|apply (vLive _ I)].
Qed.
(** Until another load is completed, the default values of a schema from the cache can be used. *)
Theorem C158_fresh : forall es es' space k sch col, getSchema (after es) space k = Some sch -> (forall e, In e es' -> ~ replaces e) ->
  exists d, readDefault (after (es ++ es')) sch col = Ret d /\ (d <> None <-> exists a, aget strEqb col sch = Some (Some a)).
Proof.
  intros es es' space k sch col H N. unfold after in *. rewrite fold_left_app. set (s := fold_left happen es initial) in *.
  assert (I : inv s) by apply run_inv, initial_inv. pose proof (unreplaced es' s I N) as C. pose proof (proj1 (run_inv es' s I)) as I'.
  unfold readDefault. destruct (aget strEqb col sch) as [[a|]|] eqn:A.
  - assert (X : existsb (Z.eqb a) (hLive (stHeap (fold_left happen es' s))) = true).
    { apply existsb_In. apply (vLive _ I'). rewrite C. eapply schema_owned; eauto. }
    rewrite X. eexists. split; [reflexivity|]. split; [eauto|discriminate].
  - eexists. split; [reflexivity|]. split; [congruence|]. intros (? & ?). discriminate.
  - eexists. split; [reflexivity|]. split; [congruence|]. intros (? & ?). discriminate.
Qed.
(** After the next completed load, whatever it brought, every default value of the schema is gone, although the schema itself is still held. *)
Theorem C158_stale : forall es es' space k sch col a, getSchema (after es) space k = Some sch -> aget strEqb col sch = Some (Some a) ->
  (exists e, In e es' /\ replaces e) -> readDefault (after (es ++ es')) sch col = UB.
Proof.
  intros es es' space k sch col a H A R. unfold after in *. rewrite fold_left_app. set (s := fold_left happen es initial) in *.
  assert (I : inv s) by apply run_inv, initial_inv. pose proof (proj1 (run_inv es' s I)) as I'.
  pose proof (schema_owned _ _ _ _ _ _ I H A) as O. apply (gRange _ _ _ (vGood _ I)) in O.
  unfold readDefault. rewrite A. destruct (existsb (Z.eqb a) (hLive (stHeap (fold_left happen es' s)))) eqn:X; auto. exfalso.
  apply existsb_In in X. apply (vLive _ I') in X. apply replaced with (n := hNext (stHeap s)) in X; auto; [lia|]. lia.
Qed.

(** * Concrete cases *)
Definition told : list (Z * list (skey * list column)) :=
  [(1, [((true, 2, 0), [mkColumn (B "name"%string) None; mkColumn (B "age"%string) (Some (Decodes 2)); mkColumn (B "bad"%string) (Some (Garbled 0))])])].
Definition person : schema := [(B "name"%string, None); (B "age"%string, Some 0); (B "bad"%string, None)].
Example C158_example : getSchema (after [ELoad told true]) 1 (true, 2, 0) = Some person /\
  readDefault (after ([ELoad told true] ++ [ELoad told false])) person (B "age"%string) = Ret (Some 0) /\
  owned (after [ELoad told true]) = [0; 1; 2].
Proof. vm_compute. auto. Qed.
(** a schema that is held cannot be used as long as it is held: a load that brings nothing new is enough *)
Theorem C158_held_refuted : exists es es' space k sch col, getSchema (after es) space k = Some sch /\
  getSchema (after (es ++ es')) space k <> None /\ readDefault (after es) sch col <> UB /\ readDefault (after (es ++ es')) sch col = UB.
Proof.
  exists [ELoad told true], [ELoad told true], 1, (true, 2, 0), person, (B "age"%string). splits.
  - vm_compute. reflexivity.
  - intros H. vm_compute in H. discriminate.
  - intros H. vm_compute in H. discriminate.
  - eapply C158_stale with (space := 1) (k := (true, 2, 0)) (a := 0); [vm_compute; reflexivity|reflexivity|]. exists (ELoad told true). split; [left; reflexivity|reflexivity].
Qed.

Print Assumptions C158_owned. Print Assumptions C158_fresh. Print Assumptions C158_stale. Print Assumptions C158_held_refuted.
