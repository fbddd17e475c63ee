(** operator< is a strict weak order on a fragment of the values. *)
From Verif Require Import ValueBase DateModel TimeModel HashModel ValueModel FloatProofs ValueProofs ValueEqProofs.
Local Open Scope list_scope.
Local Open Scope Z_scope.

(** The outcome of comparing both ways. *)
Definition tri (o : lt2) : Prop := o <> (true, true).
Definition isEq (o : lt2) : Prop := o = (false, false).
Definition tab (o1 o2 o3 : lt2) : Prop :=
  (isEq o1 -> o3 = o2) /\ (isEq o2 -> o3 = o1) /\ (o1 = o2 -> o3 = o1).
Definition swap (o : lt2) : lt2 := (snd o, fst o).
Definition lexc (x y : lt2) : lt2 :=
  ((if fst x then true else if snd x then false else fst y), (if snd x then true else if fst x then false else snd y)).

Ltac lt2cases := repeat match goal with o : lt2 |- _ => let l := fresh "l" in let g := fresh "g" in destruct o as [l g]; destruct l, g end.
Lemma lexc_tri : forall x y, tri x -> (isEq x -> tri y) -> tri (lexc x y).
Proof. unfold tri, isEq, lexc. intros x y H1 H2. lt2cases; cbn in *; try congruence; auto. Qed.
Lemma lexc_swap : forall x y, tri x -> swap (lexc x y) = lexc (swap x) (swap y).
Proof. unfold tri, swap, lexc. intros x y H. lt2cases; cbn in *; congruence. Qed.
Lemma lexc_tab : forall x1 x2 x3 y1 y2 y3, tri x1 -> tri x2 -> tri x3 -> tab x1 x2 x3 ->
  (isEq x1 -> isEq x2 -> tab y1 y2 y3) -> tab (lexc x1 y1) (lexc x2 y2) (lexc x3 y3).
Proof.
  unfold tri, tab, isEq, lexc. intros x1 x2 x3 y1 y2 y3 T1 T2 T3 [A [B C]] D.
  destruct y1 as [p1 q1], y2 as [p2 q2], y3 as [p3 q3].
  destruct x1 as [[] []], x2 as [[] []]; try congruence;
    try (rewrite (A eq_refl) in * ); try (rewrite (B eq_refl) in * ); try (rewrite (C eq_refl) in * ); cbn in *;
    try (apply D; reflexivity); splits; intros; try congruence.
Qed.
Lemma lexc_eq : forall x y, lexc x y = (if fst x then (true, snd x) else if snd x then (false, true) else y).
Proof. intros [[] []] [l g]; reflexivity. Qed.

Lemma ltZ2_tri : forall a b, tri (ltZ2 a b).
Proof. unfold tri, ltZ2. intros a b H. injection H as H1 H2. apply Z.ltb_lt in H1, H2. lia. Qed.
Lemma ltZ2_eq : forall a b, isEq (ltZ2 a b) <-> a = b.
Proof.
  unfold isEq, ltZ2. intros a b. split; intros H.
  - injection H as H1 H2. apply Z.ltb_ge in H1, H2. lia.
  - subst. now rewrite Z.ltb_irrefl.
Qed.
Lemma ltZ2_tab : forall a b c, tab (ltZ2 a b) (ltZ2 b c) (ltZ2 a c).
Proof.
  unfold tab, isEq, ltZ2. intros a b c. splits; intros H; injection H as H1 H2;
    destruct (Z.ltb_spec a b), (Z.ltb_spec b a), (Z.ltb_spec b c), (Z.ltb_spec c b), (Z.ltb_spec a c), (Z.ltb_spec c a);
    try discriminate; try lia; reflexivity.
Qed.
Lemma ltZ2_swap : forall a b, ltZ2 b a = swap (ltZ2 a b).
Proof. reflexivity. Qed.

Lemma listLt2_cons : forall {A} (f : A -> A -> lt2) a x b y, listLt2 f (a :: x) (b :: y) = lexc (f a b) (listLt2 f x y).
Proof.
  intros. unfold lexc. cbn [listLt2]. destruct (f a b) as [[] []]; cbn; destruct (listLt2 f x y); auto.
Qed.
Section ListLt.
Context {A : Type}.
Variable f : A -> A -> lt2.
Lemma listLt2_tri : forall x y, (forall a b, In a x -> In b y -> tri (f a b)) -> tri (listLt2 f x y).
Proof.
  induction x as [|a x IH]; intros [|b y] H; try (cbn; unfold tri; congruence).
  rewrite listLt2_cons. apply lexc_tri; [apply H; cbn; auto|]. intros _. apply IH. intros. apply H; cbn; auto.
Qed.
Lemma listLt2_swap : forall x y, (forall a b, In a x -> In b y -> f b a = swap (f a b) /\ tri (f a b)) ->
  listLt2 f y x = swap (listLt2 f x y).
Proof.
  induction x as [|a x IH]; intros [|b y] H; try reflexivity.
  rewrite !listLt2_cons. destruct (H a b) as [H1 H2]; cbn; auto. rewrite lexc_swap by auto. rewrite <- IH, <- H1; auto.
  intros. apply H; cbn; auto.
Qed.
Lemma listLt2_tab : forall x y z,
  (forall a b c, In a x -> In b y -> In c z -> tri (f a b) /\ tri (f b c) /\ tri (f a c) /\ tab (f a b) (f b c) (f a c)) ->
  tab (listLt2 f x y) (listLt2 f y z) (listLt2 f x z).
Proof.
  induction x as [|a x IH]; intros y z H.
  - destruct y, z; cbn; unfold tab, isEq; splits; try congruence.
  - destruct y as [|b y]; [destruct z as [|c z]; [cbn; unfold tab, isEq; splits; congruence|]|destruct z as [|c z]].
    + unfold tab, isEq. cbn [listLt2]. splits; intros; congruence.
    + unfold tab, isEq. cbn [listLt2]. splits; intros; congruence.
    + rewrite !listLt2_cons. destruct (H a b c) as [T1 [T2 [T3 T4]]]; cbn; auto.
      apply lexc_tab; auto. intros _ _. apply IH. intros. apply H; cbn; auto.
Qed.
Lemma listLt2_eq : forall x y, (forall a b, In a x -> In b y -> f a b = (false, false) -> a = b) -> isEq (listLt2 f x y) -> x = y.
Proof.
  induction x as [|a x IH]; intros [|b y] H E; try (cbn in E; unfold isEq in E; congruence).
  rewrite listLt2_cons, lexc_eq in E. unfold isEq in E. destruct (f a b) as [[] []] eqn:F; cbn in E; try congruence.
  f_equal; [apply H; cbn; auto|]. apply IH; auto. intros. apply H; cbn; auto.
Qed.
Lemma listLt2_same : forall x, (forall a, In a x -> f a a = (false, false)) -> listLt2 f x x = (false, false).
Proof.
  induction x as [|a x IH]; intros H; auto. rewrite listLt2_cons, lexc_eq, H by (cbn; auto). cbn. apply IH. intros. apply H. cbn. auto.
Qed.
End ListLt.

Definition zs (x y : list Z) : lt2 := listLt2 ltZ2 x y.
Lemma zs_tri : forall x y, tri (zs x y).
Proof. intros. apply listLt2_tri. intros. apply ltZ2_tri. Qed.
Lemma zs_swap : forall x y, zs y x = swap (zs x y).
Proof. intros. apply listLt2_swap. intros. split; [reflexivity|apply ltZ2_tri]. Qed.
Lemma zs_tab : forall x y z, tab (zs x y) (zs y z) (zs x z).
Proof. intros. apply listLt2_tab. intros. splits; try apply ltZ2_tri. apply ltZ2_tab. Qed.
Lemma zs_eq : forall x y, isEq (zs x y) <-> x = y.
Proof.
  intros x y. split; [|intros ->; apply listLt2_same; intros; apply ltZ2_eq; auto].
  apply listLt2_eq. intros a b _ _ H. now apply ltZ2_eq.
Qed.

Lemma strLtb_zs : forall x y, (strLtb x y, strLtb y x) = zs x y.
Proof.
  induction x as [|a x IH]; intros [|b y]; try reflexivity.
  unfold zs in *. rewrite listLt2_cons, <- IH. cbn [strLtb]. unfold lexc, ltZ2. cbn.
  rewrite (Z.eqb_sym b a). destruct (Z.ltb_spec a b), (Z.ltb_spec b a), (Z.eqb_spec a b); try lia; cbn; auto.
Qed.
Lemma lexLt_zs : forall x y, length x = length y -> (lexLt x y, lexLt y x) = zs x y.
Proof.
  induction x as [|a x IH]; intros [|b y] L; try discriminate L; [reflexivity|].
  injection L as L. unfold zs in *. rewrite listLt2_cons, <- IH by auto. cbn [lexLt]. unfold lexc, ltZ2. cbn.
  rewrite (Z.eqb_sym b a). destruct (Z.eqb_spec a b), (Z.ltb_spec a b), (Z.ltb_spec b a); try lia; cbn; auto.
Qed.
Definition dateFields (d : date) : list Z := [year d; month d; day d].
Lemma dateLt_lex : forall a b, dateLt a b = lexLt (dateFields a) (dateFields b).
Proof. reflexivity. Qed.

(** Values are first compared by class: the type, with INT and FLOAT together. *)
Definition cls (v : value) : Z := match v with VFloat _ => 4 | _ => typeBit v end.
Definition isScalar (v : value) : bool :=
  match v with VVertex _ | VEdge _ | VPath _ | VList _ | VMap _ | VSet _ | VDataSet _ => false | _ => true end.
Definition skey (v : value) : list Z :=
  match v with
  | VBool b => [if b then 1 else 0]
  | VInt z => [z * 2 ^ 1074]
  | VFloat f => [fkey f]
  | VStr s => s
  | VDate d => dateFields d
  | VTime t => timeFields t
  | VDateTime t => dtFields t
  | _ => []
  end.

(** The fragment.  With [fl] floats may occur (no NaN) and then integers are at most 2^53 in magnitude;
    without [fl] there are no floats.  Vertex and edge ids are plain; vertices in paths carry no tags. *)
Definition numOk (fl : bool) (v : value) : bool :=
  match v with
  | VInt z => if fl then isSmall z else true
  | VFloat f => fl && f64valid f && negb (f64isNaN f)
  | _ => true
  end.
Definition noTags (x : vertex) : bool := match vtags x with [] => true | _ => false end.
Definition pathOk (v : value) : bool :=
  match v with VPath p => noTags (psrc p) && forallb (fun s => noTags (sdst s)) (psteps p) | _ => true end.
Definition ordHere (fl : bool) (v : value) : bool := numOk fl v && idsHere v && pathOk v.
Definition orderable (fl : bool) : value -> bool := vall (ordHere fl).

Section WithX.
Variable X : externals.
Variable fl : bool.

Lemma pow1074 : 0 < 2 ^ 1074.
Proof. apply Z.pow_pos_nonneg; lia. Qed.
Lemma ltZ2_scale : forall a b, ltZ2 a b = ltZ2 (a * 2 ^ 1074) (b * 2 ^ 1074).
Proof.
  intros a b. pose proof pow1074 as P. generalize dependent (2 ^ 1074). intros p P. unfold ltZ2.
  f_equal; [destruct (Z.ltb_spec a b), (Z.ltb_spec (a * p) (b * p))|destruct (Z.ltb_spec b a), (Z.ltb_spec (b * p) (a * p))]; auto; nia.
Qed.
Lemma zs1 : forall a b, zs [a] [b] = ltZ2 a b.
Proof. intros. unfold zs. rewrite listLt2_cons. cbn [listLt2]. unfold lexc. destruct (ltZ2 a b) as [[] []] eqn:E; auto. Qed.

Lemma scalar_lt2 : forall a b, isScalar a = true -> isScalar b = true -> numOk fl a = true -> numOk fl b = true -> cls a = cls b ->
  vlt2 X a b = zs (skey a) (skey b).
Proof.
  intros a b Sa Sb Na Nb C.
  destruct a; try discriminate Sa; destruct b; try discriminate Sb; try discriminate C; cbn [skey]; try reflexivity; cbn [numOk] in *.
  - rewrite zs1. change ((negb b0 && b, negb b && b0) = ltZ2 (if b0 then 1 else 0) (if b then 1 else 0)).
    destruct b0, b; reflexivity.
  - rewrite zs1, <- ltZ2_scale. reflexivity.
  - rewrite zs1. change ((f64ltb (f64ofZ z) f, f64ltb f (f64ofZ z)) = ltZ2 (z * 2 ^ 1074) (fkey f)).
    destruct fl; [|discriminate Nb]. rewrite !andb_true_iff, negb_true_iff in Nb. destruct Nb as [[_ N1] N2].
    destruct (f64ofZ_small z Na) as [A [B C']]. rewrite !SFltb_key, C' by auto. reflexivity.
  - rewrite zs1. change ((f64ltb f (f64ofZ z), f64ltb (f64ofZ z) f) = ltZ2 (fkey f) (z * 2 ^ 1074)).
    destruct fl; [|discriminate Na]. rewrite !andb_true_iff, negb_true_iff in Na. destruct Na as [[_ N1] N2].
    destruct (f64ofZ_small z Nb) as [A [B C']]. rewrite !SFltb_key, C' by auto. reflexivity.
  - rewrite zs1. change ((f64ltb f f0, f64ltb f0 f) = ltZ2 (fkey f) (fkey f0)).
    destruct fl; [|discriminate Na]. rewrite !andb_true_iff, negb_true_iff in Na, Nb.
    rewrite !SFltb_key by tauto. reflexivity.
  - exact (strLtb_zs s s0).
  - exact (lexLt_zs (dateFields d) (dateFields d0) eq_refl).
  - exact (lexLt_zs (timeFields t) (timeFields t0) eq_refl).
  - exact (lexLt_zs (dtFields t) (dtFields t0) eq_refl).
Qed.
Lemma cls_lt2 : forall a b, cls a <> cls b -> vlt2 X a b = ltZ2 (cls a) (cls b).
Proof. intros a b C. destruct a, b; try reflexivity; exfalso; apply C; reflexivity. Qed.

(** plain ids *)
Lemma plain_scalar : forall a, plainId a = true -> isScalar a = true.
Proof. now destruct a. Qed.
Lemma plain_veq_lt : forall a b, plainId a = true -> plainId b = true -> numOk fl a = true -> numOk fl b = true ->
  if veq X a b then vlt2 X a b = (false, false) else vlt2 X a b <> (false, false).
Proof.
  intros a b Pa Pb Na Nb. destruct (Z.eq_dec (cls a) (cls b)) as [C|C].
  - rewrite scalar_lt2 by auto using plain_scalar. destruct (veq X a b) eqn:E.
    + apply plain_veq_eq in E; auto. subst. now apply zs_eq.
    + intros H. apply zs_eq in H. destruct a; try discriminate Pa; destruct b; try discriminate Pb; try discriminate C; cbn [skey] in H.
      * discriminate E.
      * change (Bool.eqb b0 b = false) in E. destruct b0, b; discriminate.
      * change (z =? z0 = false) in E. apply Z.eqb_neq in E. apply E.
        pose proof pow1074 as P. generalize dependent (2 ^ 1074). intros p H P. injection H as H. nia.
      * change (strEqb s s0 = false) in E. subst. now rewrite strEqb_refl in E.
      * change (dateEq d d0 = false) in E. unfold dateEq, dateFields in *. injection H as K0 K1 K2. rewrite K0, K1, K2, !Z.eqb_refl in E. discriminate E.
      * change (timeEq t t0 = false) in E. unfold timeEq, timeFields in *. injection H as K0 K1 K2 K3. rewrite K0, K1, K2, K3, !Z.eqb_refl in E. discriminate E.
      * change (dtEq t t0 = false) in E. unfold dtEq, dtFields in *. injection H as K0 K1 K2 K3 K4 K5 K6. rewrite K0, K1, K2, K3, K4, K5, K6, !Z.eqb_refl in E. discriminate E.
  - assert (veq X a b = false) as ->.
    { destruct (veq X a b) eqn:E; auto. apply plain_veq_eq in E; auto. congruence. }
    rewrite cls_lt2 by auto. intros H. apply C. now apply ltZ2_eq.
Qed.

(** The comparison of the structures as lexicographic combinations *)
Definition lenZ {A} (l : list A) : Z := Z.of_nat (length l).
Lemma sizeLt2_Z : forall {A} (x y : list A), sizeLt2 x y = ltZ2 (lenZ x) (lenZ y).
Proof.
  intros. unfold sizeLt2, ltZ2, lenZ. f_equal.
  - destruct (Nat.ltb_spec (length x) (length y)), (Z.ltb_spec (Z.of_nat (length x)) (Z.of_nat (length y))); auto; lia.
  - destruct (Nat.ltb_spec (length y) (length x)), (Z.ltb_spec (Z.of_nat (length y)) (Z.of_nat (length x))); auto; lia.
Qed.
Definition idOk (a : value) : Prop := plainId a = true /\ numOk fl a = true.
Lemma id_if : forall a b r, idOk a -> idOk b -> (if negb (veq X a b) then vlt2 X a b else r) = lexc (vlt2 X a b) r.
Proof.
  intros a b r [Pa Na] [Pb Nb]. pose proof (plain_veq_lt a b Pa Pb Na Nb) as H. rewrite lexc_eq.
  destruct (veq X a b); cbn [negb].
  - now rewrite H.
  - destruct (vlt2 X a b) as [[] []]; auto. congruence.
Qed.
Lemma ltZ_if : forall a b r, (if negb (a =? b) then ltZ2 a b else r) = lexc (ltZ2 a b) r.
Proof.
  intros. rewrite lexc_eq. unfold ltZ2. destruct (Z.eqb_spec a b), (Z.ltb_spec a b), (Z.ltb_spec b a); cbn; auto; lia.
Qed.
Lemma lexc_ff : forall x, tri x -> lexc x (false, false) = x.
Proof. unfold tri. intros [[] []] H; auto. Qed.
Lemma size_if : forall {A} (x y : list A), (if negb (Nat.eqb (length x) (length y)) then sizeLt2 x y else (false, false)) = ltZ2 (lenZ x) (lenZ y).
Proof.
  intros. rewrite sizeLt2_Z. unfold lenZ. destruct (Nat.eqb_spec (length x) (length y)) as [E|E]; auto. cbn. rewrite E.
  symmetry. now apply ltZ2_eq.
Qed.
Definition vertexN (a b : vertex) : lt2 := lexc (vlt2 X (vvid a) (vvid b)) (ltZ2 (lenZ (vtags a)) (lenZ (vtags b))).
Lemma vertex_normal : forall a b, idOk (vvid a) -> idOk (vvid b) -> vertexLt2 (vlt2 X) (veq X) a b = vertexN a b.
Proof. intros. unfold vertexLt2, vertexN. now rewrite size_if, id_if. Qed.
Definition edgeN (a b : edge) : lt2 :=
  lexc (vlt2 X (esrc a) (esrc b)) (lexc (vlt2 X (edst a) (edst b))
    (zs [etype a; erank a; lenZ (eprops a)] [etype b; erank b; lenZ (eprops b)])).
Lemma edge_normal : forall a b, idOk (esrc a) -> idOk (esrc b) -> idOk (edst a) -> idOk (edst b) ->
  edgeLt2 (vlt2 X) (veq X) a b = edgeN a b.
Proof.
  intros. unfold edgeLt2, edgeN. rewrite size_if, !ltZ_if, !id_if by auto. unfold zs. rewrite !listLt2_cons. cbn [listLt2].
  rewrite (lexc_ff (ltZ2 (lenZ (eprops a)) _)); auto using ltZ2_tri.
Qed.
Definition stepN (a b : step) : lt2 := lexc (vlt2 X (vvid (sdst a)) (vvid (sdst b))) (ltZ2 (stype a) (stype b)).
Lemma vertex_tagless : forall a b r, noTags a = true -> noTags b = true -> idOk (vvid a) -> idOk (vvid b) ->
  (if negb (vertexEq (veq X) a b) then vertexLt2 (vlt2 X) (veq X) a b else r) = lexc (vlt2 X (vvid a) (vvid b)) r.
Proof.
  intros a b r Ta Tb Ia Ib. unfold vertexEq, vertexLt2. unfold noTags in *. destruct (vtags a); [|discriminate]. destruct (vtags b); [|discriminate].
  cbn [listEq length Nat.eqb negb]. rewrite andb_true_r. rewrite <- id_if by auto. destruct (veq X (vvid a) (vvid b)); reflexivity.
Qed.
Lemma step_normal : forall a b, noTags (sdst a) = true -> noTags (sdst b) = true -> idOk (vvid (sdst a)) -> idOk (vvid (sdst b)) ->
  stepLt2 (vlt2 X) (veq X) a b = stepN a b.
Proof. intros. unfold stepLt2, stepN. now rewrite vertex_tagless. Qed.
Definition pathN (a b : path) : lt2 := lexc (vlt2 X (vvid (psrc a)) (vvid (psrc b))) (listLt2 stepN (psteps a) (psteps b)).
Definition stepGood (s : step) : Prop := noTags (sdst s) = true /\ idOk (vvid (sdst s)).
Lemma listLt2_ext : forall {A} (f g : A -> A -> lt2) x y, (forall a b, In a x -> In b y -> f a b = g a b) -> listLt2 f x y = listLt2 g x y.
Proof.
  induction x as [|a x IH]; intros [|b y] H; auto. rewrite !listLt2_cons, H by (cbn; auto). rewrite IH; auto. intros. apply H; cbn; auto.
Qed.
Lemma path_normal : forall a b, noTags (psrc a) = true -> noTags (psrc b) = true -> idOk (vvid (psrc a)) -> idOk (vvid (psrc b)) ->
  (forall s, In s (psteps a) -> stepGood s) -> (forall s, In s (psteps b) -> stepGood s) ->
  pathLt2 (vlt2 X) (veq X) a b = pathN a b.
Proof.
  intros a b Ta Tb Ia Ib Sa Sb. unfold pathLt2, pathN. rewrite vertex_tagless by auto. f_equal.
  destruct (listEq (stepEq (veq X)) (psteps a) (psteps b)) eqn:E; cbn [negb].
  - symmetry. revert E. generalize dependent (psteps b). generalize dependent (psteps a).
    induction l as [|s x IH]; intros Hx [|t y] Hy E; try reflexivity; try discriminate E.
    cbn [listEq] in E. apply andb_true_iff in E. destruct E as [E1 E2]. rewrite listLt2_cons, IH; auto.
    + destruct (Hx s) as [_ [P1 N1]]; [cbn; auto|]. destruct (Hy t) as [_ [P2 N2]]; [cbn; auto|].
      unfold stepEq, vertexEq in E1. rewrite !andb_true_iff, !Z.eqb_eq in E1. destruct E1 as [[[[[E0 _] E3] _] _] _].
      pose proof (plain_veq_lt _ _ P1 P2 N1 N2) as Hv. rewrite E0 in Hv. unfold stepN. rewrite Hv, E3.
      rewrite (proj2 (ltZ2_eq (stype t) (stype t)) eq_refl). reflexivity.
    + intros. apply Hx. cbn. auto.
    + intros. apply Hy. cbn. auto.
  - apply listLt2_ext. intros s t Hs Ht. destruct (Sa s Hs), (Sb t Ht). now apply step_normal.
Qed.

(** Facts from the fragment *)
Lemma ord_here : forall v, orderable fl v = true -> numOk fl v = true /\ idsHere v = true /\ pathOk v = true.
Proof. intros v H. apply vall_here in H. unfold ordHere in H. rewrite !andb_true_iff in H. tauto. Qed.
Lemma ord_sub : forall v c, orderable fl v = true -> In c (subvals v) -> orderable fl c = true.
Proof. intros v c. apply vall_sub. Qed.
Lemma vertex_id : forall v, orderable fl (VVertex v) = true -> idOk (vvid v).
Proof.
  intros v H. split; [apply (ord_here _ H)|]. apply ord_here. apply (ord_sub _ _ H). cbn. auto.
Qed.
Lemma edge_id : forall e, orderable fl (VEdge e) = true -> idOk (esrc e) /\ idOk (edst e).
Proof.
  intros e H. destruct (ord_here _ H) as [_ [I _]]. cbn [idsHere] in I. apply andb_true_iff in I.
  split; (split; [tauto|]); apply ord_here; apply (ord_sub _ _ H); cbn; auto.
Qed.
Lemma path_id : forall p, orderable fl (VPath p) = true -> noTags (psrc p) = true /\ idOk (vvid (psrc p)) /\ forall s, In s (psteps p) -> stepGood s.
Proof.
  intros p H. destruct (ord_here _ H) as [_ [I T]]. cbn [idsHere pathOk] in I, T. rewrite andb_true_iff, forallb_forall in I, T.
  destruct I as [I1 I2], T as [T1 T2]. splits; auto.
  - split; auto. apply ord_here. apply (ord_sub _ _ H). cbn. auto.
  - intros s Hs. split; auto. split; auto. apply ord_here. apply (ord_sub _ _ H). cbn. right. apply in_or_app. right.
    apply in_flat_map. exists s. split; auto. cbn. auto.
Qed.

(** The normal form of a comparison inside one class *)
Definition innerN (a b : value) : lt2 :=
  match a, b with
  | VVertex x, VVertex y => vertexN x y
  | VEdge x, VEdge y => edgeN x y
  | VPath x, VPath y => pathN x y
  | VList x, VList y => listLt2 (vlt2 X) x y
  | _, _ => zs (skey a) (skey b)
  end.
Lemma vlt2_normal : forall a b, orderable fl a = true -> orderable fl b = true ->
  vlt2 X a b = lexc (ltZ2 (cls a) (cls b)) (innerN a b).
Proof.
  intros a b Oa Ob. destruct (Z.eq_dec (cls a) (cls b)) as [C|C].
  - rewrite lexc_eq, (proj2 (ltZ2_eq _ _) C). cbn [fst snd].
    destruct (isScalar a) eqn:Sa.
    + assert (Sb : isScalar b = true) by (destruct a; try discriminate Sa; destruct b; try discriminate C; reflexivity).
      rewrite scalar_lt2; auto; [|apply ord_here; auto|apply ord_here; auto].
      destruct a; try discriminate Sa; destruct b; try discriminate Sb; try discriminate C; reflexivity.
    + destruct a; try discriminate Sa; destruct b; try discriminate C; try reflexivity.
      * apply vertex_normal; now apply vertex_id.
      * apply edge_id in Oa, Ob. apply edge_normal; tauto.
      * apply path_id in Oa, Ob. apply path_normal; tauto.
  - rewrite cls_lt2 by auto. rewrite lexc_eq. destruct (ltZ2 (cls a) (cls b)) as [[] []] eqn:E; auto.
    exfalso. apply C. now apply ltZ2_eq.
Qed.

Theorem vlt2_tri : forall a b, orderable fl a = true -> orderable fl b = true -> tri (vlt2 X a b).
Proof.
  apply (value_sub_ind (fun a => forall b, orderable fl a = true -> orderable fl b = true -> tri (vlt2 X a b))).
  intros a IH b Oa Ob.
  assert (IH' : forall a' b', In a' (subvals a) -> In b' (subvals b) -> tri (vlt2 X a' b')).
  { intros a' b' Ha Hb. apply IH; auto; [exact (ord_sub _ _ Oa Ha)|exact (ord_sub _ _ Ob Hb)]. }
  rewrite vlt2_normal by auto. apply lexc_tri; [apply ltZ2_tri|]. intros C. apply ltZ2_eq in C.
  destruct a, b; try discriminate C; cbn [innerN subvals] in *; try apply zs_tri.
  - apply lexc_tri; [apply IH'; cbn; auto|intros; apply ltZ2_tri].
  - apply lexc_tri; [apply IH'; cbn; auto|intros _]. apply lexc_tri; [apply IH'; cbn; auto|intros; apply zs_tri].
  - apply lexc_tri; [apply IH'; cbn; auto|intros _]. apply listLt2_tri. intros s t Hs Ht.
    apply lexc_tri; [|intros; apply ltZ2_tri]. apply IH'; apply in_or_app; right; apply in_flat_map; eexists; split; eauto; cbn; auto.
  - now apply listLt2_tri.
Qed.

Theorem vlt2_swap : forall a b, orderable fl a = true -> orderable fl b = true -> vlt2 X b a = swap (vlt2 X a b).
Proof.
  apply (value_sub_ind (fun a => forall b, orderable fl a = true -> orderable fl b = true -> vlt2 X b a = swap (vlt2 X a b))).
  intros a IH b Oa Ob.
  assert (IH' : forall a' b', In a' (subvals a) -> In b' (subvals b) -> vlt2 X b' a' = swap (vlt2 X a' b') /\ tri (vlt2 X a' b')).
  { intros a' b' Ha Hb. split; [apply IH|apply vlt2_tri]; auto; try exact (ord_sub _ _ Oa Ha); exact (ord_sub _ _ Ob Hb). }
  rewrite !vlt2_normal by auto. rewrite lexc_swap by apply ltZ2_tri. rewrite <- ltZ2_swap.
  destruct (Z.eq_dec (cls a) (cls b)) as [C|C].
  2:{ rewrite !lexc_eq. destruct (ltZ2 (cls b) (cls a)) as [[] []] eqn:E; auto. exfalso. apply C. symmetry. now apply ltZ2_eq. }
  f_equal.
  assert (L : forall x y r s, vlt2 X y x = swap (vlt2 X x y) /\ tri (vlt2 X x y) -> s = swap r ->
              lexc (vlt2 X y x) s = swap (lexc (vlt2 X x y) r)).
  { intros x y r s [H1 H2] ->. now rewrite lexc_swap, H1. }
  destruct a, b; try discriminate C; cbn [innerN subvals] in *; try apply zs_swap.
  - apply L; [apply IH'; cbn; auto|reflexivity].
  - apply L; [apply IH'; cbn; auto|]. apply L; [apply IH'; cbn; auto|]. apply zs_swap.
  - apply L; [apply IH'; cbn; auto|]. apply listLt2_swap. intros s t Hs Ht.
    assert (K : vlt2 X (vvid (sdst t)) (vvid (sdst s)) = swap (vlt2 X (vvid (sdst s)) (vvid (sdst t))) /\ tri (vlt2 X (vvid (sdst s)) (vvid (sdst t)))).
    { apply IH'; apply in_or_app; right; apply in_flat_map; eexists; split; eauto; cbn; auto. }
    split; [apply L; auto; reflexivity|]. apply lexc_tri; [tauto|intros; apply ltZ2_tri].
  - now apply listLt2_swap.
Qed.

Theorem vlt2_tab : forall a b c, orderable fl a = true -> orderable fl b = true -> orderable fl c = true ->
  tab (vlt2 X a b) (vlt2 X b c) (vlt2 X a c).
Proof.
  apply (value_sub_ind (fun a => forall b c, orderable fl a = true -> orderable fl b = true -> orderable fl c = true ->
    tab (vlt2 X a b) (vlt2 X b c) (vlt2 X a c))).
  intros a IH b c Oa Ob Oc.
  assert (IH' : forall a' b' c', In a' (subvals a) -> In b' (subvals b) -> In c' (subvals c) ->
    tri (vlt2 X a' b') /\ tri (vlt2 X b' c') /\ tri (vlt2 X a' c') /\ tab (vlt2 X a' b') (vlt2 X b' c') (vlt2 X a' c')).
  { intros a' b' c' Ha Hb Hc. pose proof (ord_sub _ _ Oa Ha). pose proof (ord_sub _ _ Ob Hb). pose proof (ord_sub _ _ Oc Hc).
    splits; auto using vlt2_tri. }
  clear IH. rewrite !vlt2_normal by auto. apply lexc_tab; try apply ltZ2_tri; [apply ltZ2_tab|].
  intros C D. apply ltZ2_eq in C, D.
  assert (L : forall x y z r s t, (tri (vlt2 X x y) /\ tri (vlt2 X y z) /\ tri (vlt2 X x z) /\ tab (vlt2 X x y) (vlt2 X y z) (vlt2 X x z)) ->
              tab r s t -> tab (lexc (vlt2 X x y) r) (lexc (vlt2 X y z) s) (lexc (vlt2 X x z) t)).
  { intros x y z r s t [H1 [H2 [H3 H4]]] H5. now apply lexc_tab. }
  destruct a, b; try discriminate C; destruct c; try discriminate D; cbn [innerN subvals] in *; try apply zs_tab.
  - apply L; [apply IH'; cbn; auto|apply ltZ2_tab].
  - apply L; [apply IH'; cbn; auto|]. apply L; [apply IH'; cbn; auto|]. apply zs_tab.
  - apply L; [apply IH'; cbn; auto|]. apply listLt2_tab. intros s t u Hs Ht Hu.
    assert (K : tri (vlt2 X (vvid (sdst s)) (vvid (sdst t))) /\ tri (vlt2 X (vvid (sdst t)) (vvid (sdst u))) /\
                tri (vlt2 X (vvid (sdst s)) (vvid (sdst u))) /\
                tab (vlt2 X (vvid (sdst s)) (vvid (sdst t))) (vlt2 X (vvid (sdst t)) (vvid (sdst u))) (vlt2 X (vvid (sdst s)) (vvid (sdst u)))).
    { apply IH'; apply in_or_app; right; apply in_flat_map; eexists; split; eauto; cbn; auto. }
    splits; try (apply lexc_tri; [tauto|intros; apply ltZ2_tri]). apply L; auto. apply ltZ2_tab.
  - now apply listLt2_tab.
Qed.

Lemma vlt2_refl : forall a, orderable fl a = true -> vlt2 X a a = (false, false).
Proof.
  intros a H. pose proof (vlt2_swap a a H H) as S. pose proof (vlt2_tri a a H H) as T. unfold swap, tri in *.
  destruct (vlt2 X a a) as [[] []]; cbn in *; congruence.
Qed.
End WithX.
