(** operator== : equivalence on the float-free values; equal values hash equally. *)
From Verif Require Import ValueBase DateModel TimeModel HashModel ValueModel FloatProofs ValueProofs.
Local Open Scope list_scope.
Local Open Scope Z_scope.

Section WithX.
Variable X : externals.

(** Well-formedness of one value: what the C++ types guarantee.
    Integers fit their types, keys of a hash map are distinct, the elements of a set were hashed without
    aborting and are pairwise different for the set's own lookup. *)
Definition hashable (v : value) : bool := match vhash X v with Ret _ => true | _ => false end.
Definition found (p q : value) : bool := sameHash X p q && veq X p q.
Fixpoint distinctFound (l : list value) : bool :=
  match l with [] => true | p :: l' => forallb (fun q => negb (found p q) && negb (found q p)) l' && distinctFound l' end.
Definition keysOk (m : list (str * value)) : bool := nodupStr (keysOf m).
Definition vertexOk (v : vertex) : bool := forallb (fun t => keysOk (tgprops t)) (vtags v).
Definition typeOk (t : Z) : bool := (int32_min <? t) && (t <=? int32_max).
Definition wfHere (v : value) : bool :=
  match v with
  | VInt z => in_int64 z
  | VVertex x => vertexOk x
  | VEdge e => keysOk (eprops e) && typeOk (etype e) && in_int64 (erank e)
  | VPath p => vertexOk (psrc p) &&
      forallb (fun s => vertexOk (sdst s) && keysOk (sprops s) && typeOk (stype s) && in_int64 (srank s)) (psteps p)
  | VMap m => keysOk m
  | VSet l => forallb hashable l && distinctFound l
  | _ => true
  end.
Definition wf : value -> bool := vall wfHere.
Definition notFloat (v : value) : bool := match v with VFloat _ => false | _ => true end.
Definition floatFree : value -> bool := vall notFloat.

Lemma keysOk_NoDup : forall m, keysOk m = true -> NoDup (keysOf m).
Proof. intros. now apply nodupStr_NoDup. Qed.

Lemma sameHash_refl : forall a, hashable a = true -> sameHash X a a = true.
Proof. intros a H. unfold hashable in H. unfold sameHash. destruct (vhash X a); try easy. apply Z.eqb_refl. Qed.
Lemma sameHash_sym : forall a b, sameHash X a b = true -> sameHash X b a = true.
Proof. intros a b. unfold sameHash. destruct (vhash X a), (vhash X b); try easy. now rewrite Z.eqb_sym. Qed.
Lemma sameHash_trans : forall a b c, sameHash X a b = true -> sameHash X b c = true -> sameHash X a c = true.
Proof.
  intros a b c. unfold sameHash. destruct (vhash X a), (vhash X b), (vhash X c); try easy.
  intros H1 H2. apply Z.eqb_eq in H1, H2. apply Z.eqb_eq. congruence.
Qed.

(** Containers *)
Lemma tagEq_refl : forall t, keysOk (tgprops t) = true -> (forall a, In a (tagVals t) -> veq X a a = true) -> tagEq (veq X) t t = true.
Proof. intros t K H. unfold tagEq. rewrite strEqb_refl. cbn. apply mapEq_refl; auto using keysOk_NoDup. Qed.
Lemma vertexEq_refl : forall v, vertexOk v = true -> (forall a, In a (vertexVals v) -> veq X a a = true) -> vertexEq (veq X) v v = true.
Proof.
  intros v K H. unfold vertexEq. rewrite H by (left; auto). cbn. apply listEq_refl. intros t Ht.
  unfold vertexOk in K. rewrite forallb_forall in K.
  apply tagEq_refl; auto. intros a Ha. apply H. right. apply in_flat_map. eauto.
Qed.
Lemma stepEq_refl : forall s, vertexOk (sdst s) = true -> keysOk (sprops s) = true ->
  (forall a, In a (stepVals s) -> veq X a a = true) -> stepEq (veq X) s s = true.
Proof.
  intros s K1 K2 H. unfold stepEq. rewrite vertexEq_refl, !Z.eqb_refl, strEqb_refl; auto.
  - cbn. apply mapEq_refl; auto using keysOk_NoDup. intros a Ha. apply H. apply in_or_app. auto.
  - intros a Ha. apply H. apply in_or_app. auto.
Qed.

Theorem veq_refl : forall v, floatFree v = true -> wf v = true -> veq X v v = true.
Proof.
  apply (value_sub_ind (fun v => floatFree v = true -> wf v = true -> veq X v v = true)).
  intros v IH F W.
  assert (IH' : forall c, In c (subvals v) -> veq X c c = true).
  { intros c Hc. apply IH; auto; eapply vall_sub; eauto. }
  clear IH. pose proof (vall_here _ _ F) as F0. pose proof (vall_here _ _ W) as W0.
  destruct v; cbn [subvals] in IH'; cbn [wfHere] in W0; try discriminate F0.
  - reflexivity.
  - reflexivity.
  - change (Bool.eqb b b = true). apply Bool.eqb_reflx.
  - change (z =? z = true). apply Z.eqb_refl.
  - change (strEqb s s = true). apply strEqb_refl.
  - change (dateEq d d = true). unfold dateEq. now rewrite !Z.eqb_refl.
  - change (timeEq t t = true). unfold timeEq. now rewrite !Z.eqb_refl.
  - change (dtEq t t = true). unfold dtEq. now rewrite !Z.eqb_refl.
  - change (vertexEq (veq X) v v = true). now apply vertexEq_refl.
  - change (edgeEq (veq X) e e = true). unfold edgeEq. rewrite !Z.eqb_refl. cbn.
    apply andb_true_iff in W0. destruct W0 as [W0 W1]. apply andb_true_iff in W0. destruct W0 as [W0 W2].
    rewrite !IH' by (cbn; auto). cbn. apply mapEq_refl; auto using keysOk_NoDup.
    intros a Ha. apply IH'. cbn. auto.
  - change (pathEq (veq X) p p = true). unfold pathEq.
    apply andb_true_iff in W0. destruct W0 as [W0 W1]. rewrite vertexEq_refl; auto.
    + cbn. apply listEq_refl. intros s Hs. rewrite forallb_forall in W1. specialize (W1 s Hs).
      apply andb_true_iff in W1. destruct W1 as [W1 _]. apply andb_true_iff in W1. destruct W1 as [W1 _].
      apply andb_true_iff in W1. destruct W1 as [W1 W2]. apply stepEq_refl; auto.
      intros a Ha. apply IH'. apply in_or_app. right. apply in_flat_map. eauto.
    + intros a Ha. apply IH'. apply in_or_app. auto.
  - change (listEq (veq X) l l = true). now apply listEq_refl.
  - change (mapEq (veq X) m m = true). apply mapEq_refl; auto using keysOk_NoDup.
  - change (Nat.eqb (length s) (length s) && forallb (fun p => existsb (fun q => sameHash X p q && veq X p q) s) s = true).
    rewrite Nat.eqb_refl. cbn. apply forallb_forall. intros p Hp. apply existsb_exists. exists p. split; auto.
    rewrite IH' by auto. rewrite sameHash_refl; auto.
    apply andb_true_iff in W0. destruct W0 as [W0 _]. rewrite forallb_forall in W0. auto.
  - change (datasetEq (veq X) d d = true). unfold datasetEq. rewrite listEq_refl by (intros; apply strEqb_refl).
    cbn. apply listEq_refl. intros r Hr. apply listEq_refl. intros a Ha. apply IH'. apply in_concat. eauto.
Qed.

(** Transitivity *)
Lemma tagEq_trans : forall r s t,
  (forall a b c, In a (tagVals r) -> In b (tagVals s) -> In c (tagVals t) -> veq X a b = true -> veq X b c = true -> veq X a c = true) ->
  tagEq (veq X) r s = true -> tagEq (veq X) s t = true -> tagEq (veq X) r t = true.
Proof.
  unfold tagEq. intros r s t H E F. apply andb_true_iff in E, F. destruct E as [E1 E2], F as [F1 F2].
  apply strEqb_eq in E1, F1. rewrite E1, F1, strEqb_refl. cbn. eapply mapEq_trans; eauto.
Qed.
Lemma vertexEq_trans : forall r s t,
  (forall a b c, In a (vertexVals r) -> In b (vertexVals s) -> In c (vertexVals t) -> veq X a b = true -> veq X b c = true -> veq X a c = true) ->
  vertexEq (veq X) r s = true -> vertexEq (veq X) s t = true -> vertexEq (veq X) r t = true.
Proof.
  unfold vertexEq. intros r s t H E F. apply andb_true_iff in E, F. destruct E as [E1 E2], F as [F1 F2].
  rewrite (H (vvid r) (vvid s) (vvid t)) by (auto; left; auto). cbn.
  eapply listEq_trans; eauto. cbn beta. intros a b c Ha Hb Hc. apply tagEq_trans.
  intros a' b' c' Ha' Hb' Hc'. apply H; right; apply in_flat_map; eauto.
Qed.
Lemma stepEq_trans : forall r s t,
  (forall a b c, In a (stepVals r) -> In b (stepVals s) -> In c (stepVals t) -> veq X a b = true -> veq X b c = true -> veq X a c = true) ->
  stepEq (veq X) r s = true -> stepEq (veq X) s t = true -> stepEq (veq X) r t = true.
Proof.
  unfold stepEq. intros r s t H E F. rewrite !andb_true_iff in *.
  destruct E as [[[[E1 E2] E3] E4] E5], F as [[[[F1 F2] F3] F4] F5].
  rewrite ?Z.eqb_eq, ?strEqb_eq in *. splits; try congruence.
  - eapply vertexEq_trans; eauto. intros a b c Ha Hb Hc. apply H; apply in_or_app; auto.
  - eapply mapEq_trans; eauto. intros a b c Ha Hb Hc. apply H; apply in_or_app; auto.
Qed.
Lemma edgeEq_trans : forall r s t,
  (forall a b c, In a (edgeVals r) -> In b (edgeVals s) -> In c (edgeVals t) -> veq X a b = true -> veq X b c = true -> veq X a c = true) ->
  edgeEq (veq X) r s = true -> edgeEq (veq X) s t = true -> edgeEq (veq X) r t = true.
Proof.
  unfold edgeEq. intros r s t H E F.
  assert (M : mapEq (veq X) (eprops r) (eprops s) = true -> mapEq (veq X) (eprops s) (eprops t) = true ->
              mapEq (veq X) (eprops r) (eprops t) = true).
  { apply mapEq_trans. intros a b c Ha Hb Hc. apply H; cbn; auto. }
  assert (T : forall a b c, In a [esrc r; edst r] -> In b [esrc s; edst s] -> In c [esrc t; edst t] ->
              veq X a b = true -> veq X b c = true -> veq X a c = true).
  { cbn. intros a b c Ha Hb Hc. apply H; cbn; tauto. }
  clear H. cbn in T.
  destruct (Z.eqb_spec (etype r) (etype s)) as [A|A]; cbn [negb andb] in E;
  destruct (Z.eqb_spec (etype s) (etype t)) as [C|C]; cbn [negb andb] in F.
  - rewrite A, C, Z.eqb_refl. cbn [negb andb]. rewrite !andb_true_iff, !Z.eqb_eq in *.
    destruct E as [[[E1 E2] E3] E4], F as [[[F1 F2] F3] F4]. splits; try congruence; auto; eapply T; try eassumption; auto.
  - destruct (Z.eqb_spec (etype s) (- etype t)) as [D|D]; cbn [negb] in F; [|discriminate].
    destruct (Z.eqb_spec (etype r) (etype t)) as [G|G]; [congruence|]. rewrite A, D, Z.eqb_refl. cbn [negb andb].
    rewrite !andb_true_iff, !Z.eqb_eq in *.
    destruct E as [[[E1 E2] E3] E4], F as [[[F1 F2] F3] F4]. splits; try congruence; auto; eapply T; try eassumption; auto.
  - destruct (Z.eqb_spec (etype r) (- etype s)) as [D|D]; cbn [negb] in E; [|discriminate].
    destruct (Z.eqb_spec (etype r) (etype t)) as [G|G]; [congruence|]. rewrite D, C, Z.eqb_refl. cbn [negb andb].
    rewrite !andb_true_iff, !Z.eqb_eq in *.
    destruct E as [[[E1 E2] E3] E4], F as [[[F1 F2] F3] F4]. splits; try congruence; auto; eapply T; try eassumption; auto.
  - destruct (Z.eqb_spec (etype r) (- etype s)) as [D|D]; cbn [negb] in E; [|discriminate].
    destruct (Z.eqb_spec (etype s) (- etype t)) as [D'|D']; cbn [negb] in F; [|discriminate].
    assert (etype r = etype t) as -> by lia. rewrite Z.eqb_refl. cbn [negb andb].
    rewrite !andb_true_iff, !Z.eqb_eq in *.
    destruct E as [[[E1 E2] E3] E4], F as [[[F1 F2] F3] F4]. splits; try congruence; auto; eapply T; try eassumption; auto.
Qed.

Theorem veq_trans : forall a b c, floatFree a = true -> floatFree b = true -> floatFree c = true ->
  veq X a b = true -> veq X b c = true -> veq X a c = true.
Proof.
  apply (value_sub_ind (fun a => forall b c, floatFree a = true -> floatFree b = true -> floatFree c = true ->
    veq X a b = true -> veq X b c = true -> veq X a c = true)).
  intros a IH b c Fa Fb Fc E F.
  assert (IH' : forall a' b' c', In a' (subvals a) -> In b' (subvals b) -> In c' (subvals c) ->
    veq X a' b' = true -> veq X b' c' = true -> veq X a' c' = true).
  { intros a' b' c' Ha Hb Hc. apply IH; auto; [exact (vall_sub _ _ _ Fa Ha)|exact (vall_sub _ _ _ Fb Hb)|exact (vall_sub _ _ _ Fc Hc)]. }
  clear IH. pose proof (vall_here _ _ Fa) as Fa0. pose proof (vall_here _ _ Fb) as Fb0. pose proof (vall_here _ _ Fc) as Fc0.
  destruct a; try discriminate Fa0; destruct b; try discriminate Fb0; try discriminate E;
  destruct c; try discriminate Fc0; try discriminate F; cbn [subvals] in IH'.
  - reflexivity.
  - reflexivity.
  - change (Bool.eqb b0 b = true) in E. change (Bool.eqb b b1 = true) in F. change (Bool.eqb b0 b1 = true).
    apply Bool.eqb_prop in E, F. subst. apply Bool.eqb_reflx.
  - change (z =? z0 = true) in E. change (z0 =? z1 = true) in F. change (z =? z1 = true).
    rewrite Z.eqb_eq in *. congruence.
  - change (strEqb s s0 = true) in E. change (strEqb s0 s1 = true) in F. change (strEqb s s1 = true).
    rewrite strEqb_eq in *. congruence.
  - change (dateEq d d0 = true) in E. change (dateEq d0 d1 = true) in F. change (dateEq d d1 = true).
    unfold dateEq in *. rewrite !andb_true_iff, !Z.eqb_eq in *. intuition congruence.
  - change (timeEq t t0 = true) in E. change (timeEq t0 t1 = true) in F. change (timeEq t t1 = true).
    unfold timeEq in *. rewrite !andb_true_iff, !Z.eqb_eq in *. intuition congruence.
  - change (dtEq t t0 = true) in E. change (dtEq t0 t1 = true) in F. change (dtEq t t1 = true).
    unfold dtEq in *. rewrite !andb_true_iff, !Z.eqb_eq in *. intuition congruence.
  - exact (vertexEq_trans v v0 v1 IH' E F).
  - exact (edgeEq_trans e e0 e1 IH' E F).
  - change (pathEq (veq X) p p0 = true) in E. change (pathEq (veq X) p0 p1 = true) in F. change (pathEq (veq X) p p1 = true).
    unfold pathEq in *. rewrite !andb_true_iff in *. destruct E as [E1 E2], F as [F1 F2]. split.
    + eapply vertexEq_trans; eauto. intros x y z Hx Hy Hz. apply IH'; apply in_or_app; auto.
    + eapply listEq_trans; eauto. cbn beta. intros r s t Hr Hs Ht. apply stepEq_trans.
      intros x y z Hx Hy Hz. apply IH'; apply in_or_app; right; apply in_flat_map; eauto.
  - exact (listEq_trans (veq X) l l0 l1 IH' E F).
  - exact (mapEq_trans (veq X) m m0 m1 IH' E F).
  - change (Nat.eqb (length s) (length s0) && forallb (fun p => existsb (fun q => found p q) s0) s = true) in E.
    change (Nat.eqb (length s0) (length s1) && forallb (fun p => existsb (fun q => found p q) s1) s0 = true) in F.
    change (Nat.eqb (length s) (length s1) && forallb (fun p => existsb (fun q => found p q) s1) s = true).
    rewrite !andb_true_iff, !Nat.eqb_eq, !forallb_forall in *. destruct E as [E1 E2], F as [F1 F2]. split; [congruence|].
    intros p Hp. specialize (E2 p Hp). apply existsb_exists in E2. destruct E2 as [q [Hq E2]].
    specialize (F2 q Hq). apply existsb_exists in F2. destruct F2 as [r [Hr F2]].
    apply existsb_exists. exists r. split; auto. unfold found in *. rewrite andb_true_iff in *.
    destruct E2 as [E2 E3], F2 as [F2 F3]. split; [eapply sameHash_trans; eauto|]. eapply IH'; eauto.
  - change (datasetEq (veq X) d d0 = true) in E. change (datasetEq (veq X) d0 d1 = true) in F. change (datasetEq (veq X) d d1 = true).
    unfold datasetEq in *. rewrite !andb_true_iff in *. destruct E as [E1 E2], F as [F1 F2]. split.
    + eapply listEq_trans; eauto. cbn beta. intros x y z _ _ _. rewrite !strEqb_eq. congruence.
    + eapply listEq_trans; eauto. cbn beta. intros x y z Hx Hy Hz. apply listEq_trans.
      intros x' y' z' Hx' Hy' Hz'. apply IH'; apply in_concat; eauto.
Qed.

(** Symmetry; floats are allowed outside sets. *)
Definition setFloatFree (v : value) : bool := match v with VSet l => forallb floatFree l | _ => true end.
Definition floatFreeSets : value -> bool := vall setFloatFree.

Lemma nearEq_sym : forall a b, nearEq a b = nearEq b a.
Proof. intros. unfold nearEq. now rewrite f64sub_abs_sym. Qed.

Lemma tagEq_sym : forall r s, keysOk (tgprops r) = true -> keysOk (tgprops s) = true ->
  (forall a b, In a (tagVals r) -> In b (tagVals s) -> veq X a b = true -> veq X b a = true) ->
  tagEq (veq X) r s = true -> tagEq (veq X) s r = true.
Proof.
  unfold tagEq. intros r s K1 K2 H E. apply andb_true_iff in E. destruct E as [E1 E2].
  rewrite strEqb_sym, E1. cbn. apply mapEq_sym; auto using keysOk_NoDup.
Qed.
Lemma vertexEq_sym : forall r s, vertexOk r = true -> vertexOk s = true ->
  (forall a b, In a (vertexVals r) -> In b (vertexVals s) -> veq X a b = true -> veq X b a = true) ->
  vertexEq (veq X) r s = true -> vertexEq (veq X) s r = true.
Proof.
  unfold vertexEq, vertexOk. intros r s K1 K2 H E. apply andb_true_iff in E. destruct E as [E1 E2].
  rewrite forallb_forall in K1, K2.
  rewrite (H (vvid r) (vvid s)) by (auto; left; auto). cbn. eapply listEq_sym; [|eassumption].
  cbn beta. intros a b Ha Hb. apply tagEq_sym; auto.
  intros a' b' Ha' Hb'. apply H; right; apply in_flat_map; eauto.
Qed.
Lemma stepEq_sym : forall r s, vertexOk (sdst r) = true -> vertexOk (sdst s) = true -> keysOk (sprops r) = true -> keysOk (sprops s) = true ->
  (forall a b, In a (stepVals r) -> In b (stepVals s) -> veq X a b = true -> veq X b a = true) ->
  stepEq (veq X) r s = true -> stepEq (veq X) s r = true.
Proof.
  unfold stepEq. intros r s K1 K2 K3 K4 H E. rewrite !andb_true_iff in *.
  destruct E as [[[[E1 E2] E3] E4] E5]. rewrite strEqb_sym, (Z.eqb_sym (stype s)), (Z.eqb_sym (srank s)). splits; auto.
  - apply vertexEq_sym; auto. intros a b Ha Hb. apply H; apply in_or_app; auto.
  - apply mapEq_sym; auto using keysOk_NoDup. intros a b Ha Hb. apply H; apply in_or_app; auto.
Qed.
Lemma edgeEq_sym : forall r s, keysOk (eprops r) = true -> keysOk (eprops s) = true ->
  (forall a b, In a (edgeVals r) -> In b (edgeVals s) -> veq X a b = true -> veq X b a = true) ->
  edgeEq (veq X) r s = true -> edgeEq (veq X) s r = true.
Proof.
  unfold edgeEq. intros r s K1 K2 H E.
  assert (M : mapEq (veq X) (eprops r) (eprops s) = true -> mapEq (veq X) (eprops s) (eprops r) = true).
  { apply mapEq_sym; auto using keysOk_NoDup. intros a b Ha Hb. apply H; cbn; auto. }
  rewrite (Z.eqb_sym (etype s)), (Z.eqb_sym (erank s)).
  destruct (Z.eqb_spec (etype r) (etype s)) as [A|A]; cbn [negb andb] in *.
  - rewrite !andb_true_iff in *. destruct E as [[[E1 E2] E3] E4]. splits; auto; apply H; cbn; auto.
  - destruct (Z.eqb_spec (etype r) (- etype s)) as [D|D]; cbn [negb] in E; [|discriminate].
    replace (etype s =? - etype r) with true by (symmetry; apply Z.eqb_eq; lia). cbn [negb].
    rewrite !andb_true_iff in *. destruct E as [[[E1 E2] E3] E4]. splits; auto; apply H; cbn; auto.
Qed.
Lemma distinct_R : forall l, distinctFound l = true -> distinctR found l.
Proof.
  induction l as [|p l IH]; cbn; intros H; auto. apply andb_true_iff in H. destruct H as [H1 H2]. split; auto.
  intros q Hq. rewrite forallb_forall in H1. specialize (H1 q Hq). apply andb_true_iff in H1.
  rewrite !negb_true_iff in H1. auto.
Qed.

Theorem veq_sym : forall a b, wf a = true -> wf b = true -> floatFreeSets a = true -> floatFreeSets b = true ->
  veq X a b = true -> veq X b a = true.
Proof.
  apply (value_sub_ind (fun a => forall b, wf a = true -> wf b = true -> floatFreeSets a = true -> floatFreeSets b = true ->
    veq X a b = true -> veq X b a = true)).
  intros a IH b Wa Wb Fa Fb E.
  assert (IH' : forall a' b', In a' (subvals a) -> In b' (subvals b) -> veq X a' b' = true -> veq X b' a' = true).
  { intros a' b' Ha Hb. apply IH; auto; [exact (vall_sub _ _ _ Wa Ha)|exact (vall_sub _ _ _ Wb Hb)
      |exact (vall_sub _ _ _ Fa Ha)|exact (vall_sub _ _ _ Fb Hb)]. }
  clear IH. pose proof (vall_here _ _ Wa) as Wa0. pose proof (vall_here _ _ Wb) as Wb0.
  pose proof (vall_here _ _ Fa) as Fa0. pose proof (vall_here _ _ Fb) as Fb0.
  destruct a; destruct b; try discriminate E; cbn [subvals] in IH'; cbn [wfHere] in Wa0, Wb0.
  - reflexivity.
  - reflexivity.
  - change (Bool.eqb b0 b = true) in E. change (Bool.eqb b b0 = true).
    apply Bool.eqb_prop in E. subst. apply Bool.eqb_reflx.
  - change (z =? z0 = true) in E. change (z0 =? z = true). now rewrite Z.eqb_sym.
  - change (nearEq (f64ofZ z) f = true) in E. change (nearEq f (f64ofZ z) = true). now rewrite nearEq_sym.
  - change (nearEq f (f64ofZ z) = true) in E. change (nearEq (f64ofZ z) f = true). now rewrite nearEq_sym.
  - change (nearEq f f0 = true) in E. change (nearEq f0 f = true). now rewrite nearEq_sym.
  - change (strEqb s s0 = true) in E. change (strEqb s0 s = true). now rewrite strEqb_sym.
  - change (dateEq d d0 = true) in E. change (dateEq d0 d = true).
    unfold dateEq in *. rewrite !andb_true_iff, !Z.eqb_eq in *. intuition congruence.
  - change (timeEq t t0 = true) in E. change (timeEq t0 t = true).
    unfold timeEq in *. rewrite !andb_true_iff, !Z.eqb_eq in *. intuition congruence.
  - change (dtEq t t0 = true) in E. change (dtEq t0 t = true).
    unfold dtEq in *. rewrite !andb_true_iff, !Z.eqb_eq in *. intuition congruence.
  - exact (vertexEq_sym v v0 Wa0 Wb0 IH' E).
  - rewrite !andb_true_iff in Wa0, Wb0. apply edgeEq_sym; tauto.
  - change (pathEq (veq X) p p0 = true) in E. change (pathEq (veq X) p0 p = true).
    unfold pathEq in *. rewrite !andb_true_iff, !forallb_forall in *.
    destruct E as [E1 E2], Wa0 as [A1 A2], Wb0 as [B1 B2]. split.
    + apply vertexEq_sym; auto. intros x y Hx Hy. apply IH'; apply in_or_app; auto.
    + eapply listEq_sym; [|eassumption]. cbn beta. intros r s Hr Hs.
      specialize (A2 r Hr). specialize (B2 s Hs). rewrite !andb_true_iff in *.
      apply stepEq_sym; try tauto.
      intros x y Hx Hy. apply IH'; apply in_or_app; right; apply in_flat_map; eauto.
  - exact (listEq_sym (veq X) l l0 IH' E).
  - apply mapEq_sym; auto using keysOk_NoDup.
  - change (Nat.eqb (length s) (length s0) && forallb (fun p => existsb (fun q => found p q) s0) s = true) in E.
    change (Nat.eqb (length s0) (length s) && forallb (fun p => existsb (fun q => found p q) s) s0 = true).
    cbn [setFloatFree] in Fa0, Fb0.
    rewrite !andb_true_iff, !Nat.eqb_eq, !forallb_forall in *. destruct E as [E1 E2]. split; [congruence|].
    destruct Wa0 as [Wa1 Wa2].
    assert (S : forall p q, In p s -> In q s0 -> found p q = true -> found q p = true).
    { intros p q Hp Hq. unfold found. rewrite !andb_true_iff. intros [H1 H2]. split; auto using sameHash_sym. }
    intros q Hq.
    destruct (subR_surj found s s0 E1 (distinct_R s Wa2) S) with (q := q) as [p [Hp Hpq]]; auto.
    + intros p q' r Hp Hq' Hr. unfold found. rewrite !andb_true_iff. intros [H1 H2] [H3 H4]. split; [eapply sameHash_trans; eauto|].
      apply veq_trans with q'; auto.
    + intros p Hp. specialize (E2 p Hp). apply existsb_exists in E2. exact E2.
    + apply existsb_exists. exists p. split; auto.
  - change (datasetEq (veq X) d d0 = true) in E. change (datasetEq (veq X) d0 d = true).
    unfold datasetEq in *. rewrite !andb_true_iff in *. destruct E as [E1 E2]. split.
    + eapply listEq_sym; [|eassumption]. cbn beta. intros x y _ _. now rewrite strEqb_sym.
    + eapply listEq_sym; [|eassumption]. cbn beta. intros x y Hx Hy. apply listEq_sym.
      intros x' y' Hx' Hy'. apply IH'; apply in_concat; eauto.
Qed.

(** Equal values hash equally, when floats are absent and vertex and edge ids are plain scalars. *)
Definition plainId (v : value) : bool :=
  match v with VEmpty | VBool _ | VInt _ | VStr _ | VDate _ | VTime _ | VDateTime _ => true | _ => false end.
Definition idsHere (v : value) : bool :=
  match v with
  | VVertex x => plainId (vvid x)
  | VEdge e => plainId (esrc e) && plainId (edst e)
  | VPath p => plainId (vvid (psrc p)) && forallb (fun s => plainId (vvid (sdst s))) (psteps p)
  | _ => true
  end.
Definition plainIds : value -> bool := vall idsHere.

Lemma date_eta : forall d, mkDate (year d) (month d) (day d) = d.
Proof. now destruct d. Qed.
Lemma plain_veq_eq : forall a b, plainId a = true -> plainId b = true -> veq X a b = true -> a = b.
Proof.
  intros a b Ha Hb E. destruct a; try discriminate Ha; destruct b; try discriminate Hb; try discriminate E; auto; f_equal.
  - change (Bool.eqb b0 b = true) in E. now apply Bool.eqb_prop.
  - change (z =? z0 = true) in E. now apply Z.eqb_eq.
  - change (strEqb s s0 = true) in E. now apply strEqb_eq.
  - change (dateEq d d0 = true) in E. unfold dateEq in E. rewrite !andb_true_iff, !Z.eqb_eq in E.
    destruct d, d0; cbn in *. intuition congruence.
  - change (timeEq t t0 = true) in E. unfold timeEq in E. rewrite !andb_true_iff, !Z.eqb_eq in E.
    destruct t, t0; cbn in *. intuition congruence.
  - change (dtEq t t0 = true) in E. unfold dtEq in E. rewrite !andb_true_iff, !Z.eqb_eq in E.
    destruct t, t0; cbn in *. intuition congruence.
Qed.
Lemma listEq_fold : forall {A} (f : A -> A -> bool) (h : A -> Z) (g : Z -> Z -> Z) x y i,
  (forall a b, In a x -> In b y -> f a b = true -> h a = h b) -> listEq f x y = true ->
  fold_left (fun s a => g s (h a)) x i = fold_left (fun s a => g s (h a)) y i.
Proof.
  induction x as [|a x IH]; intros [|b y] i H E; cbn in *; try easy.
  apply andb_true_iff in E. destruct E as [E1 E2]. rewrite (H a b) by auto. apply IH; auto.
Qed.
Lemma hashVertex_eq : forall v w, plainId (vvid v) = true -> plainId (vvid w) = true ->
  vertexEq (veq X) v w = true -> hashVertex X v = hashVertex X w.
Proof.
  intros v w Pv Pw E. unfold vertexEq in E. apply andb_true_iff in E. destruct E as [E1 E2].
  unfold hashVertex. rewrite (plain_veq_eq _ _ Pv Pw E1).
  apply (listEq_fold _ _ (fun hv h => Z.lxor (fnvMix hv) h)) with (2 := E2).
  intros a b _ _ H. unfold tagEq in H. apply andb_true_iff in H. destruct H as [H _]. apply strEqb_eq in H.
  unfold hashTag. now rewrite H.
Qed.
Lemma hashEdge_eq : forall e f, plainId (esrc e) = true -> plainId (edst e) = true -> plainId (esrc f) = true -> plainId (edst f) = true ->
  edgeEq (veq X) e f = true -> hashEdge X e = hashEdge X f.
Proof.
  intros e f P1 P2 P3 P4 E. unfold edgeEq in E. unfold hashEdge.
  destruct (Z.eqb_spec (etype e) (etype f)) as [A|A]; cbn [negb andb] in E.
  - rewrite !andb_true_iff in E. destruct E as [[[E1 E2] E3] E4]. apply Z.eqb_eq in E3.
    rewrite A, E3. rewrite (plain_veq_eq _ _ P1 P3 E1), (plain_veq_eq _ _ P2 P4 E2). reflexivity.
  - destruct (Z.eqb_spec (etype e) (- etype f)) as [D|D]; cbn [negb] in E; [|discriminate].
    rewrite !andb_true_iff in E. destruct E as [[[E1 E2] E3] E4]. apply Z.eqb_eq in E3.
    rewrite E3. rewrite (plain_veq_eq _ _ P1 P4 E1), (plain_veq_eq _ _ P2 P3 E2).
    destruct (Z.ltb_spec 0 (etype e)); destruct (Z.ltb_spec 0 (etype f)); try lia;
      replace (- etype f) with (etype e) by lia; auto; replace (- etype e) with (etype f) by lia; auto.
Qed.
Definition listHash : list value -> Z -> outcome Z :=
  fix go (l : list value) (seed : Z) : outcome Z :=
    match l with
    | [] => Ret seed
    | x :: l' => obind (vhash X x) (fun h => go l' (hashCombine seed h))
    end.
Theorem veq_hash : forall a b, floatFree a = true -> floatFree b = true -> plainIds a = true -> plainIds b = true ->
  veq X a b = true -> vhash X a = vhash X b.
Proof.
  apply (value_sub_ind (fun a => forall b, floatFree a = true -> floatFree b = true -> plainIds a = true -> plainIds b = true ->
    veq X a b = true -> vhash X a = vhash X b)).
  intros a IH b Fa Fb Pa Pb E.
  assert (IH' : forall a' b', In a' (subvals a) -> In b' (subvals b) -> veq X a' b' = true -> vhash X a' = vhash X b').
  { intros a' b' Ha Hb. apply IH; auto; [exact (vall_sub _ _ _ Fa Ha)|exact (vall_sub _ _ _ Fb Hb)
      |exact (vall_sub _ _ _ Pa Ha)|exact (vall_sub _ _ _ Pb Hb)]. }
  clear IH. pose proof (vall_here _ _ Fa) as Fa0. pose proof (vall_here _ _ Fb) as Fb0.
  pose proof (vall_here _ _ Pa) as Pa0. pose proof (vall_here _ _ Pb) as Pb0.
  destruct a; try discriminate Fa0; destruct b; try discriminate Fb0; try discriminate E; cbn [subvals] in IH'; cbn [idsHere] in Pa0, Pb0.
  1-8: try (apply plain_veq_eq in E; [now rewrite E|reflexivity|reflexivity]).
  - reflexivity.
  - reflexivity.
  - cbn [vhash]. f_equal. now apply hashVertex_eq.
  - cbn [vhash]. f_equal. rewrite andb_true_iff in *. apply hashEdge_eq; tauto.
  - cbn [vhash]. f_equal. change (pathEq (veq X) p p0 = true) in E. unfold pathEq in E. rewrite !andb_true_iff, !forallb_forall in *.
    destruct E as [E1 E2], Pa0 as [A1 A2], Pb0 as [B1 B2]. unfold hashPath. rewrite (hashVertex_eq _ _ A1 B1 E1).
    apply (listEq_fold _ _ (fun hv h => Z.lxor (fnvMix hv) h)) with (2 := E2).
    intros r s Hr Hs H. unfold stepEq in H. rewrite !andb_true_iff, !Z.eqb_eq in H.
    destruct H as [[[[H1 H2] H3] H4] H5]. unfold hashStep. rewrite H2, H4. now rewrite (hashVertex_eq _ _ (A2 r Hr) (B2 s Hs) H1).
  - change (listHash l 0 = listHash l0 0). change (listEq (veq X) l l0 = true) in E. clear Fa Fb Pa Pb Fa0 Fb0 Pa0 Pb0.
    generalize 0 as i. revert l0 IH' E. induction l as [|x l IHl]; intros [|y l0] IH' E i; cbn in E; try discriminate; auto.
    apply andb_true_iff in E. destruct E as [E1 E2]. cbn [listHash]. rewrite (IH' x y) by (cbn; auto).
    destruct (vhash X y); cbn [obind]; auto. apply IHl; auto. intros a' b' Ha Hb. apply IH'; cbn; auto.
  - reflexivity.
  - reflexivity.
  - reflexivity.
Qed.
End WithX.
