(** Theorems about the operators on strings and on collections (C140, C141). *)
From Coq Require Import String.
From Verif Require Import ValueBase FloatProofs ValueModel ValueProofs ValueEqProofs ValueProps GraphModel ExprModel EvalModel EvalSpec EvalProofs EvalProps RelProps.
Local Open Scope list_scope.
Local Open Scope Z_scope.

(** * C140: CONTAINS, STARTS WITH, ENDS WITH *)
(** [p] stands in [s]: anywhere, at the front, at the end *)
Definition stands (o : rel) (p s : str) : Prop :=
  match o with
  | OContains => exists x y, s = x ++ p ++ y
  | OStartsWith => exists y, s = p ++ y
  | OEndsWith => exists x, s = x ++ p
  | _ => False
  end.
(** an operator and its NOT form *)
Definition notForm (o : rel) : option rel :=
  match o with OContains => Some ONotContains | OStartsWith => Some ONotStartsWith | OEndsWith => Some ONotEndsWith | _ => None end.

Lemma isPrefix_iff p : forall s, isPrefix p s = true <-> exists y, s = p ++ y.
Proof.
  induction p as [|x p IH]; intros [|a s]; cbn [isPrefix].
  - split; [exists []; reflexivity|reflexivity].
  - split; [exists (a :: s); reflexivity|reflexivity].
  - split; [discriminate|intros (y & H); discriminate].
  - rewrite andb_true_iff, Z.eqb_eq, IH. split; [intros [-> (y & ->)]; exists y; reflexivity|]. intros (y & [= -> ->]). split; [reflexivity|exists y; reflexivity].
Qed.
Lemma strFind_iff p : forall s, strFind p s = true <-> exists x y, s = x ++ p ++ y.
Proof.
  induction s as [|a s IH]; cbn [strFind]; rewrite orb_true_iff, isPrefix_iff.
  - split; [intros [(y & H)|]; [exists [], y; exact H|discriminate]|]. intros (x & y & H). left. exists y. destruct x; [exact H|discriminate].
  - rewrite IH. split.
    + intros [(y & H)|(x & y & H)]; [exists [], y; exact H|exists (a :: x), y; rewrite H; reflexivity].
    + intros (x & y & H). destruct x as [|b x]; [left; exists y; exact H|]. injection H as -> H. right. exists x, y. exact H.
Qed.
Lemma strEnds_iff p s : strEnds p s = true <-> exists x, s = x ++ p.
Proof.
  unfold strEnds. rewrite andb_true_iff, Nat.leb_le, strEqb_eq. split.
  - intros [L H]. exists (firstn (length s - length p) s). rewrite <- H at 2. symmetry. apply firstn_skipn.
  - intros (x & ->). rewrite app_length. split; [lia|]. replace (length x + length p - length p)%nat with (length x) by lia.
    rewrite skipn_app, skipn_all, Nat.sub_diag. reflexivity.
Qed.
(** On two texts the operator is true exactly when the right one stands in the left one, and its NOT form is the opposite. *)
Theorem C140_text : forall E c o n l r a b, notForm o = Some n -> yields E c l (VStr a) -> yields E c r (VStr b) ->
  exists t : bool, relYields E c o l r (VBool t) /\ relYields E c n l r (VBool (negb t)) /\ (t = true <-> stands o b a).
Proof.
  intros E c o n l r a b N Yl Yr. destruct o; try discriminate; injection N as <-.
  - exists (strFind b a). splits; [eapply rel_run; try eassumption; reflexivity..|apply strFind_iff].
  - exists (isPrefix b a). splits; [eapply rel_run; try eassumption; reflexivity..|apply isPrefix_iff].
  - exists (strEnds b a). splits; [eapply rel_run; try eassumption; reflexivity..|apply strEnds_iff].
Qed.
Example C140_text_ex : forall E c,
  relYields E c OContains (konst (VStr (B "banana"))) (konst (VStr (B "nan"))) (VBool true) /\ stands OContains (B "nan") (B "banana") /\
  relYields E c ONotStartsWith (konst (VStr (B "banana"))) (konst (VStr (B "nan"))) (VBool true) /\ ~ stands OStartsWith (B "nan") (B "banana") /\
  relYields E c OEndsWith (konst (VStr (B "banana"))) (konst (VStr [])) (VBool true).
Proof.
  intros E c. splits; try (eapply rel_run; [apply konst_yields..|reflexivity]).
  - exists (B "ba"), (B "a"). reflexivity.
  - intros (y & H). cbn in H. discriminate H.
Qed.

(** Whatever the operands: the result is a truth value for two texts, the plain null when one is the plain null and the other a
    text or the plain null, and the bad-type null in all other cases; for the operator, its NOT form and =~. *)
Definition textOp (o : rel) : Prop :=
  match o with OREG | OContains | ONotContains | OStartsWith | ONotStartsWith | OEndsWith | ONotEndsWith => True | _ => False end.
Definition textOrNull (v : value) : Prop := match v with VStr _ | VNull NNull => True | _ => False end.
Definition isText (v : value) : Prop := match v with VStr _ => True | _ => False end.
Theorem C140_other : forall E c o l r a b, textOp o -> yields E c l a -> yields E c r b -> ~ (isText a /\ isText b) ->
  (textOrNull a -> textOrNull b -> relYields E c o l r (VNull NNull)) /\
  (~ (textOrNull a /\ textOrNull b) -> relYields E c o l r (VNull NBadType)).
Proof.
  intros E c o l r a b T Yl Yr N.
  assert (G : forall f, (textOrNull a -> textOrNull b -> onStrings f a b = VNull NNull) /\ (~ (textOrNull a /\ textOrNull b) -> onStrings f a b = VNull NBadType)).
  { intros f. unfold onStrings. destruct a as [|[]| | | | | | | | | | | | | |], b as [|[]| | | | | | | | | | | | | |];
      try (destruct N; split; exact I); (split; [intros H1 H2; try destruct H1; try destruct H2; reflexivity|]); intros H;
      first [reflexivity|destruct H; split; exact I]. }
  split; intros H1; [intros H2|]; (eapply rel_run; [exact Yl|exact Yr|]); destruct o; try destruct T; cbn [vrel]; f_equal; apply G; assumption.
Qed.
Example C140_other_ex : forall E c,
  relYields E c OContains (konst (VStr (B "a"))) (konst (VNull NNull)) (VNull NNull) /\
  relYields E c ONotContains (konst (VNull NNull)) (konst (VNull NNull)) (VNull NNull) /\
  relYields E c OStartsWith (konst (VNull NNull)) (konst (VInt 1)) (VNull NBadType) /\
  relYields E c OREG (konst (VNull NBadData)) (konst (VNull NNull)) (VNull NBadType).
Proof. intros E c. splits; (eapply rel_run; [apply konst_yields..|reflexivity]). Qed.
Lemma rel_inv E c o l r a b v : yields E c l a -> yields E c r b -> relYields E c o l r v -> vrel E o a b = Ret v.
Proof.
  intros Yl Yr R. destruct (R (Cache VEmpty [])) as [k' H]. rewrite eval_eq in H. cbn [evalNode map] in H. unfold mbind in H.
  destruct (Yl noCache) as [k1 H1]. unfold child in H. cbn [nth_error nth fst snd] in H. rewrite H1 in H. cbn [fst snd setNth nth] in H.
  destruct (Yr noCache) as [k2 H2]. rewrite H2 in H. unfold mlift in H. destruct (vrel E o a b); try discriminate H. injection H as -> _. reflexivity.
Qed.
(** Texts that stand in each other are equal. *)
Theorem C140_both : forall E c o l r a b, notForm o <> None -> yields E c l (VStr a) -> yields E c r (VStr b) ->
  relYields E c o l r (VBool true) -> relYields E c o r l (VBool true) -> relYields E c OEQ l r (VBool true).
Proof.
  intros E c o l r a b N Yl Yr H1 H2.
  assert (Q : a = b).
  { apply (rel_inv _ _ _ _ _ _ _ _ Yl Yr) in H1. apply (rel_inv _ _ _ _ _ _ _ _ Yr Yl) in H2.
    destruct o; cbn in N; try (destruct N; reflexivity); injection H1 as H1; injection H2 as H2.
    - apply strFind_iff in H1 as (x & y & ->). apply strFind_iff in H2 as (x' & y' & H). pose proof (f_equal (@length Z) H) as L. rewrite !app_length in L.
      destruct x; [|cbn in L; lia]. destruct y; [|cbn in L; lia]. rewrite app_nil_r. reflexivity.
    - apply isPrefix_iff in H1 as (y & ->). apply isPrefix_iff in H2 as (y' & H). pose proof (f_equal (@length Z) H) as L. rewrite !app_length in L. destruct y; [|cbn in L; lia]. apply app_nil_r.
    - apply strEnds_iff in H1 as (x & ->). apply strEnds_iff in H2 as (x' & H). pose proof (f_equal (@length Z) H) as L. rewrite !app_length in L. destruct x; [|cbn in L; lia]. reflexivity. }
  subst b. eapply rel_run; [exact Yl|exact Yr|]. cbn [vrel]. change (vequal (eX E) (VStr a) (VStr a)) with (VBool (strEqb a a)). rewrite (proj2 (strEqb_eq a a) eq_refl). reflexivity.
Qed.
(** CONTAINS is implied by the other two. *)
Theorem C140_contains : forall E c o l r a b, o = OStartsWith \/ o = OEndsWith -> yields E c l (VStr a) -> yields E c r (VStr b) ->
  relYields E c o l r (VBool true) -> relYields E c OContains l r (VBool true).
Proof.
  intros E c o l r a b O Yl Yr H. apply (rel_inv _ _ _ _ _ _ _ _ Yl Yr) in H. eapply rel_run; [exact Yl|exact Yr|]. change (Ret (VBool (strFind b a)) = Ret (VBool true)). f_equal. f_equal.
  apply strFind_iff. destruct O as [-> | ->]; injection H as H.
  - apply isPrefix_iff in H as (y & ->). exists [], y. reflexivity.
  - apply strEnds_iff in H as (x & ->). exists x, []. rewrite app_nil_r. reflexivity.
Qed.
Example C140_both_ex : forall E c, let a := konst (VStr (B "ab")) in
  relYields E c OStartsWith a a (VBool true) /\ relYields E c OEQ a a (VBool true) /\ relYields E c OContains a (konst (VStr (B "b"))) (VBool true) /\
  relYields E c OContains (konst (VStr (B "b"))) a (VBool false).
Proof. intros E c a. unfold a. splits; (eapply rel_run; [apply konst_yields..|reflexivity]). Qed.
Print Assumptions C140_text.
Print Assumptions C140_other.
Print Assumptions C140_both.
Print Assumptions C140_contains.

(** * C141: IN and NOT IN *)
Lemma in_inv E c o l r a b v : yields E c l a -> yields E c r b -> relYields E c o l r v <-> vrel E o a b = Ret v.
Proof. intros Yl Yr. split; [apply (rel_inv _ _ _ _ _ _ _ _ Yl Yr)|apply (rel_run _ _ _ _ _ _ _ _ Yl Yr)]. Qed.
(** NOT IN is the negation of IN, whatever the operands; each returns when the other does. *)
Theorem C141_not : forall E c l r a b, yields E c l a -> yields E c r b ->
  (forall t, relYields E c OIn l r t -> relYields E c ONotIn l r (vnot t)) /\
  (forall t, relYields E c ONotIn l r t -> relYields E c OIn l r (vnot t)).
Proof.
  intros E c l r a b Yl Yr.
  assert (G : forall p t, containment E p a b = Ret t -> containment E (negb p) a b = Ret (vnot t)).
  { intros p t. unfold containment. rewrite negb_involutive.
    assert (K : forall v, isBoolV v || isNull v = true -> (if negb (isBadNull (vnot v)) && isNull a then kNull else vnot v) = vnot (if negb (isBadNull v) && isNull a then kNull else v)).
    { intros v V. destruct v as [|[]| | | | | | | | | | | | | |]; try discriminate V; cbn; destruct (isNull a); reflexivity. }
    assert (F : forall f h, (if f : bool then VBool (negb p) else if h : bool then kNull else VBool p) = vnot (if f then VBool p else if h then kNull else VBool (negb p))).
    { intros f h. destruct f, h; cbn; rewrite ?negb_involutive; reflexivity. }
    assert (C : forall f h, (if negb (isBadNull (if f : bool then VBool (negb p) else if h : bool then kNull else VBool p)) && isNull a then kNull else (if f then VBool (negb p) else if h then kNull else VBool p)) =
       vnot (if negb (isBadNull (if f then VBool p else if h then kNull else VBool (negb p))) && isNull a then kNull else (if f then VBool p else if h then kNull else VBool (negb p)))) by (intros f h; rewrite F; apply K; destruct f, h; reflexivity).
    destruct b as [|[]| | | | | | | | | | |x|m|x|]; cbn [obind]; try (intros [= <-]; f_equal; apply (K kBadType eq_refl)); try (intros [= <-]; f_equal; apply (K kNull eq_refl)).
    - intros [= <-]. f_equal. apply C.
    - intros [= <-]. f_equal. apply C.
    - destruct (setContains E x a) as [f| | |]; try discriminate. destruct f; cbn [obind]; [intros [= <-]; f_equal; apply (C true false)|].
      destruct (setContains E x kNull) as [h| | |]; try discriminate. cbn [obind]. intros [= <-]. f_equal. apply (C false h). }
  split; intros t H; apply (in_inv _ _ _ _ _ _ _ _ Yl Yr); apply (in_inv _ _ _ _ _ _ _ _ Yl Yr) in H; cbn [vrel] in *; apply G in H; exact H.
Qed.
(** The plain null is in nothing and nothing is in it: the result is the plain null, unless the right operand is no collection. *)
Definition collection (v : value) : Prop := match v with VList _ | VSet _ | VMap _ => True | _ => False end.
Theorem C141_null : forall E c l r a b n, yields E c l a -> yields E c r b ->
  (a = VNull n -> collection b -> relYields E c OIn l r (VNull NNull)) /\
  (b = VNull NNull -> relYields E c OIn l r (VNull NNull)) /\
  (~ collection b -> b <> VNull NNull -> relYields E c OIn l r (VNull NBadType)).
Proof.
  intros E c l r a b n Yl Yr. splits.
  - intros -> C. apply (in_inv _ _ _ _ _ _ _ _ Yl Yr). cbn [vrel]. unfold containment. destruct b; try destruct C; cbn [obind isNull].
    + destruct (listContains _ _ _); [reflexivity|]. destruct (listContains _ _ _); reflexivity.
    + reflexivity.
    + unfold setContains, kNull. cbn [vhash obind]. destruct (memberOf (eX E) (VNull n) s); [reflexivity|]. cbn [obind]. destruct (memberOf (eX E) (VNull NNull) s); reflexivity.
  - intros ->. apply (in_inv _ _ _ _ _ _ _ _ Yl Yr). cbn. unfold containment. cbn. destruct (isNull a); reflexivity.
  - intros C N. apply (in_inv _ _ _ _ _ _ _ _ Yl Yr). cbn [vrel]. unfold containment. destruct b as [|[]| | | | | | | | | | | | | |]; try (destruct C; exact I); try reflexivity. destruct N. reflexivity.
Qed.
Example C141_null_ex : forall E c,
  relYields E c OIn (konst (VNull NBadData)) (konst (VList [VInt 1])) (VNull NNull) /\ relYields E c ONotIn (konst (VNull NNull)) (konst (VList [])) (VNull NNull) /\
  relYields E c OIn (konst (VInt 1)) (konst (VNull NNull)) (VNull NNull) /\ relYields E c OIn (konst (VInt 1)) (konst (VNull NBadData)) (VNull NBadType) /\
  relYields E c ONotIn (konst (VInt 1)) (konst (VInt 1)) (VNull NBadType).
Proof. intros E c. splits; (eapply rel_run; [apply konst_yields..|reflexivity]). Qed.

(** The elements of the list compared with the left operand by =, one after the other, and the results joined by OR. *)
Lemma null_eq X w : veq X w kNull = isNull w.
Proof. destruct w; reflexivity. Qed.
Lemma or3 X v ws : isNull v = false -> forall found : bool, (found = true <-> exists w, In w ws /\ veq X w v = true) ->
  (forall w, In w ws -> isNull w = true -> veq X w v = false) ->
  isOr3 (map (fun w => if isNull w || isNull v then VNull NNull else VBool (veq X w v)) ws)
        (if found then VBool true else if existsb isNull ws then VNull NNull else VBool false).
Proof.
  intros Nv found F Nw.
  assert (T : In (VBool true) (map (fun w => if isNull w || isNull v then VNull NNull else VBool (veq X w v)) ws) <-> found = true).
  { rewrite F, in_map_iff. split.
    - intros (w & H & I). exists w. split; [exact I|]. rewrite Nv, orb_false_r in H. destruct (isNull w); [discriminate|]. congruence.
    - intros (w & I & H). exists w. split; [|exact I]. rewrite Nv, orb_false_r. destruct (isNull w) eqn:N; [rewrite (Nw w I N) in H; discriminate|]. rewrite H. reflexivity. }
  assert (U : In (VNull NNull) (map (fun w => if isNull w || isNull v then VNull NNull else VBool (veq X w v)) ws) <-> existsb isNull ws = true).
  { rewrite in_map_iff, existsb_exists. split.
    - intros (w & H & I). exists w. split; [exact I|]. rewrite Nv, orb_false_r in H. destruct (isNull w); [reflexivity|discriminate].
    - intros (w & I & H). exists w. split; [|exact I]. rewrite H. reflexivity. }
  unfold isOr3. rewrite T, U. destruct found; [splits; intros; congruence|]. destruct (existsb isNull ws); splits; intros; congruence.
Qed.
Lemma null_neq X w v : isNull v = false -> isNull w = true -> veq X w v = false.
Proof. destruct w; try discriminate. destruct v; try discriminate; reflexivity. Qed.
Lemma null_neq' X w v : isNull v = false -> isNull w = true -> veq X v w = false.
Proof. destruct w; try discriminate. destruct v; try discriminate; reflexivity. Qed.
Theorem C141_list : forall E c l r v ws ts, yields E c l v -> yields E c r (VList ws) -> isNull v = false ->
  Forall2 (fun w t => relYields E c OEQ (konst w) l t) ws ts ->
  exists t, isOr3 ts t /\ relYields E c OIn l r t /\ relYields E c ONotIn l r (vnot t).
Proof.
  intros E c l r v ws ts Yl Yr Nv F.
  assert (Ets : ts = map (fun w => if isNull w || isNull v then VNull NNull else VBool (veq (eX E) w v)) ws).
  { clear Yr r. induction F as [|w t ws ts H F IH]; [reflexivity|]. cbn [map]. rewrite IH. f_equal.
    apply (in_inv _ _ _ _ _ _ _ _ (konst_yields E c w) Yl) in H. cbn [vrel] in H. rewrite C13_equal in H. injection H as <-. reflexivity. }
  subst ts. clear F. eexists. split; [apply (or3 (eX E) v ws Nv (listContains E ws v))|].
  - unfold listContains. rewrite existsb_exists. split; intros (w & H); exists w; exact H.
  - intros w _. apply null_neq, Nv.
  - assert (R : relYields E c OIn l r (if listContains E ws v then VBool true else if existsb isNull ws then VNull NNull else VBool false)).
    { apply (in_inv _ _ _ _ _ _ _ _ Yl Yr). cbn [vrel]. unfold containment. cbn [obind]. rewrite Nv, andb_false_r.
      f_equal. destruct (listContains E ws v); [reflexivity|]. replace (listContains E ws kNull) with (existsb isNull ws); [destruct (existsb isNull ws); reflexivity|].
      unfold listContains. clear Yr. induction ws as [|w ws IH]; [reflexivity|]. cbn [existsb]. rewrite null_eq, IH. reflexivity. }
    split; [exact R|]. exact (proj1 (C141_not E c l r v (VList ws) Yl Yr) _ R).
Qed.
Example C141_list_ex : forall E c,
  relYields E c OIn (konst (VInt 1)) (konst (VList [VInt 2; VNull NBadType; VFloat (f64ofZ 1)])) (VBool true) /\
  relYields E c OIn (konst (VInt 1)) (konst (VList [VInt 2; VNull NBadType])) (VNull NNull) /\
  relYields E c ONotIn (konst (VInt 1)) (konst (VList [VInt 2])) (VBool true).
Proof. intros E c. splits; (eapply rel_run; [apply konst_yields..|reflexivity]). Qed.

(** The same for a set, when the left operand can be hashed and no doubles are involved. *)
Theorem C141_set : forall E c l r v ws ts h, yields E c l v -> yields E c r (VSet ws) -> isNull v = false -> vhash (eX E) v = Ret h ->
  (forall w, In w (v :: ws) -> floatFree w = true /\ plainIds w = true) ->
  Forall2 (fun w t => relYields E c OEQ l (konst w) t) ws ts ->
  exists t, isOr3 ts t /\ relYields E c OIn l r t /\ relYields E c ONotIn l r (vnot t).
Proof.
  intros E c l r v ws ts h Yl Yr Nv Hh Hf F.
  assert (Ets : ts = map (fun w => if isNull w || isNull v then VNull NNull else VBool (veq (eX E) v w)) ws).
  { clear Yr Hf r. induction F as [|w t ws ts H F IH]; [reflexivity|]. cbn [map]. rewrite IH. f_equal.
    apply (in_inv _ _ _ _ _ _ _ _ Yl (konst_yields E c w)) in H. cbn [vrel] in H. rewrite C13_equal, orb_comm in H. injection H as <-. reflexivity. }
  subst ts. clear F.
  assert (M : memberOf (eX E) v ws = existsb (fun w => veq (eX E) v w) ws).
  { unfold memberOf. apply eq_true_iff_eq. rewrite !existsb_exists. split; intros (w & I & H); exists w; (split; [exact I|]).
    - apply andb_true_iff in H. apply H.
    - rewrite H, andb_true_r. unfold sameHash. destruct (Hf v (or_introl eq_refl)) as [F1 P1]. destruct (Hf w (or_intror I)) as [F2 P2].
      rewrite <- (veq_hash (eX E) v w F1 F2 P1 P2 H), Hh. apply Z.eqb_refl. }
  assert (N : memberOf (eX E) kNull ws = existsb isNull ws).
  { unfold memberOf. clear. induction ws as [|w ws IH]; [reflexivity|]. cbn [existsb]. rewrite IH. f_equal. destruct w; try apply andb_false_r. reflexivity. }
  assert (R : relYields E c OIn l r (if existsb (fun w => veq (eX E) v w) ws then VBool true else if existsb isNull ws then VNull NNull else VBool false)).
  { apply (in_inv _ _ _ _ _ _ _ _ Yl Yr). cbn [vrel]. unfold containment. unfold setContains at 1. rewrite Hh. cbn [obind]. rewrite M.
    destruct (existsb (fun w => veq (eX E) v w) ws); cbn [obind]; [rewrite Nv, andb_false_r; reflexivity|].
    unfold setContains. cbn [kNull vhash obind]. fold kNull. rewrite N. destruct (existsb isNull ws); cbn; rewrite Nv; reflexivity. }
  eexists. split; [|split; [exact R|exact (proj1 (C141_not E c l r v (VSet ws) Yl Yr) _ R)]].
  clear - Nv. set (f := existsb (fun w => veq (eX E) v w) ws).
  assert (T : In (VBool true) (map (fun w => if isNull w || isNull v then VNull NNull else VBool (veq (eX E) v w)) ws) <-> f = true).
  { unfold f. rewrite in_map_iff, existsb_exists. split; intros (w & H & I); exists w.
    - split; [exact I|]. rewrite Nv, orb_false_r in H. destruct (isNull w); [discriminate|]. congruence.
    - split; [|exact H]. rewrite Nv, orb_false_r. destruct (isNull w) eqn:N; [rewrite (null_neq' (eX E) w v Nv N) in I; discriminate|]. rewrite I. reflexivity. }
  assert (U : In (VNull NNull) (map (fun w => if isNull w || isNull v then VNull NNull else VBool (veq (eX E) v w)) ws) <-> existsb isNull ws = true).
  { rewrite in_map_iff, existsb_exists. split; intros (w & H & I); exists w.
    - split; [exact I|]. rewrite Nv, orb_false_r in H. destruct (isNull w); [reflexivity|discriminate].
    - split; [|exact H]. rewrite I. reflexivity. }
  clearbody f. unfold isOr3. rewrite T, U. destruct f; [splits; intros; congruence|]. destruct (existsb isNull ws); splits; intros; congruence.
Qed.
Example C141_set_ex : forall E c,
  relYields E c OIn (konst (VStr (B "a"))) (konst (VSet [VInt 2; VNull NNull; VStr (B "a")])) (VBool true) /\
  relYields E c ONotIn (konst (VStr (B "b"))) (konst (VSet [VInt 2; VNull NNull; VStr (B "a")])) (VNull NNull) /\
  floatFree (VStr (B "a")) = true /\ plainIds (VStr (B "a")) = true.
Proof. intros E c. splits; try reflexivity; (eapply rel_run; [apply konst_yields..|vm_compute; reflexivity]). Qed.
(** Without the conditions it is wrong: 1 equals 1.0 and is in the list but not in the set; a map or a set in front of IN a set aborts the process. *)
Theorem C141_set_refuted : exists v w m, forall E c,
  relYields E c OEQ (konst v) (konst w) (VBool true) /\
  relYields E c OIn (konst v) (konst (VList [w])) (VBool true) /\ relYields E c OIn (konst v) (konst (VSet [w])) (VBool false) /\
  relYields E c OIn (konst m) (konst (VList [w])) (VBool false) /\
  forall k, eval E (Node (KRel OIn) [konst m; konst (VSet [w])]) k c = Fatal.
Proof.
  exists (VInt 1), (VFloat (f64ofZ 1)), (VMap []). intros E c. splits; try (eapply rel_run; [apply konst_yields..|vm_compute; reflexivity]).
  intros [r0 ks]. rewrite eval_eq. cbn [evalNode map]. unfold mbind, child. cbn [nth_error fst snd].
  unfold konst. destruct (nth 0 ks noCache) as [r1 k1]. cbn [eval evalNode mret fst snd].
  match goal with |- context [nth 1 ?l noCache] => destruct (nth 1 l noCache) as [r2 k2] end. reflexivity.
Qed.
(** IN a map asks for a key; what is no text is no key. *)
Theorem C141_map : forall E c l r v kvs, yields E c l v -> yields E c r (VMap kvs) -> isNull v = false ->
  exists t : bool, relYields E c OIn l r (VBool t) /\ relYields E c ONotIn l r (VBool (negb t)) /\ (t = true <-> exists k x, v = VStr k /\ In (k, x) kvs).
Proof.
  intros E c l r v kvs Yl Yr Nv. exists (mapContains kvs v).
  assert (R : relYields E c OIn l r (VBool (mapContains kvs v))).
  { apply (in_inv _ _ _ _ _ _ _ _ Yl Yr). cbn [vrel]. unfold containment. cbn [obind kNull mapContains]. rewrite Nv, andb_false_r. destruct (mapContains kvs v); reflexivity. }
  splits; [exact R|exact (proj1 (C141_not E c l r v (VMap kvs) Yl Yr) _ R)|].
  destruct v; cbn [mapContains]; try (split; [discriminate|intros (k & x & H & _); discriminate H]).
  split.
  - intros H. destruct (lookup s kvs) as [x|] eqn:L; [|discriminate]. exists s, x. split; [reflexivity|]. clear - L.
    induction kvs as [|[k y] kvs IH]; [discriminate|]. cbn [lookup] in L. destruct (strEqb s k) eqn:Q; [|right; apply IH, L]. apply strEqb_eq in Q. injection L as ->. subst k. left. reflexivity.
  - intros (k & x & [= <-] & I). clear - I. induction kvs as [|[k y] kvs IH]; [destruct I|]. cbn [lookup]. destruct (strEqb s k) eqn:Q; [reflexivity|]. destruct I as [[= -> ->]|I]; [|apply IH, I].
    rewrite (proj2 (strEqb_eq s s) eq_refl) in Q. discriminate.
Qed.
Example C141_map_ex : forall E c, let m := konst (VMap [(B "a", VInt 1)]) in
  relYields E c OIn (konst (VStr (B "a"))) m (VBool true) /\ relYields E c OIn (konst (VStr (B "b"))) m (VBool false) /\ relYields E c ONotIn (konst (VInt 1)) m (VBool true).
Proof. intros E c m. unfold m. splits; (eapply rel_run; [apply konst_yields..|reflexivity]). Qed.
Print Assumptions C141_not.
Print Assumptions C141_null.
Print Assumptions C141_list.
Print Assumptions C141_set.
Print Assumptions C141_set_refuted.
Print Assumptions C141_map.
