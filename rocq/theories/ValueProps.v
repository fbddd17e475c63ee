(** C08-C13: arithmetic, equality, ordering and hashing of Value. *)
From Verif Require Import ValueBase DateModel TimeModel HashModel ValueModel FloatProofs ValueProofs ValueEqProofs ValueLtProofs.
Local Open Scope list_scope.
Local Open Scope Z_scope.

(** Library functions picked arbitrarily for the concrete examples. *)
Definition X0 : externals := mkExt (fun _ => [63]) (fun _ => (S754_zero false, 0%nat)) (fun a _ => a).

(** * C08 *)
(** The contract of one integer operation whose mathematical result is m. *)
Definition exactOrOverflow (o : outcome value) (m : Z) : Prop :=
  (- 2 ^ 63 <= m < 2 ^ 63 -> o = Ret (VInt m)) /\ (m < - 2 ^ 63 \/ 2 ^ 63 <= m -> o = Ret (VNull NOverflow)).
Definition int64 (z : Z) : Prop := - 2 ^ 63 <= z < 2 ^ 63.

Lemma intRes_exact : forall m, exactOrOverflow (Ret (intRes m)) m.
Proof.
  intros m. unfold exactOrOverflow, intRes, in_int64, int64_min, int64_max. change (2 ^ 63) with 9223372036854775808.
  destruct (Z.leb_spec (-9223372036854775808) m), (Z.leb_spec m 9223372036854775807); cbn; split; intros; auto; lia.
Qed.

Theorem C08_int_arithmetic_exact : forall X x y, int64 x -> int64 y ->
  exactOrOverflow (vadd X (VInt x) (VInt y)) (x + y) /\
  exactOrOverflow (vsub (VInt x) (VInt y)) (x - y) /\
  exactOrOverflow (vmul (VInt x) (VInt y)) (x * y) /\
  exactOrOverflow (vneg (VInt x)) (- x) /\
  (y = 0 -> vdiv (VInt x) (VInt y) = Ret (VNull NDivByZero)) /\
  (y <> 0 -> exactOrOverflow (vdiv (VInt x) (VInt y)) (Z.quot x y)).
Proof.
  intros X x y Hx Hy. unfold int64 in *. change (2 ^ 63) with 9223372036854775808 in *. splits.
  - apply intRes_exact.
  - apply intRes_exact.
  - unfold vmul. cbn [nullOrEmpty isNull isEmpty orb andb negb].
    destruct (((x =? -1) && (y =? int64_min)) || ((y =? -1) && (x =? int64_min))) eqn:E; [|apply intRes_exact].
    unfold exactOrOverflow. change (2 ^ 63) with 9223372036854775808. unfold int64_min in E.
    split; [intros H; exfalso|auto]. apply orb_true_iff in E. rewrite !andb_true_iff, !Z.eqb_eq in E. lia.
  - unfold vneg, exactOrOverflow, in_int64, int64_min, int64_max. change (2 ^ 63) with 9223372036854775808.
    destruct (Z.eqb_spec x (-9223372036854775808)); [split; intros; auto; lia|].
    destruct (Z.leb_spec (-9223372036854775808) (- x)), (Z.leb_spec (- x) 9223372036854775807); cbn; split; intros; auto; lia.
  - intros ->. reflexivity.
  - intros Hy0. unfold vdiv. cbn [nullOrEmpty isNull isEmpty orb andb negb].
    destruct (Z.eqb_spec y 0) as [|_]; [contradiction|].
    unfold cdiv, in_int64, exactOrOverflow, int64_min, int64_max. change (2 ^ 63) with 9223372036854775808.
    destruct (Z.eqb_spec x (-9223372036854775808)), (Z.eqb_spec y (-1)); cbn [andb].
    + subst. cbn. split; intros; auto; lia.
    + assert (Q : -9223372036854775808 <= Z.quot x y <= 9223372036854775807).
      { subst. assert (Z.abs (Z.quot (-9223372036854775808) y) <= 9223372036854775807 \/ y = 1).
        { destruct (Z.eq_dec y 1); auto. left. rewrite <- Z.quot_abs by auto.
          change (Z.abs (-9223372036854775808)) with 9223372036854775808.
          assert (2 <= Z.abs y) by lia. apply Z.le_trans with (Z.quot 9223372036854775808 2); [|cbn; lia].
          apply Z.quot_le_compat_l; lia. }
        destruct H as [H| ->]; [lia|]. cbn. lia. }
      destruct (Z.eqb_spec y 0); [contradiction|].
      destruct (Z.leb_spec (-9223372036854775808) (Z.quot x y)), (Z.leb_spec (Z.quot x y) 9223372036854775807); cbn; split; intros; auto; lia.
    + assert (Q : -9223372036854775808 <= Z.quot x y <= 9223372036854775807) by (subst; change (-1) with (- (1)); rewrite Z.quot_opp_r, Z.quot_1_r by lia; lia).
      destruct (Z.eqb_spec y 0); [contradiction|].
      destruct (Z.leb_spec (-9223372036854775808) (Z.quot x y)), (Z.leb_spec (Z.quot x y) 9223372036854775807); cbn; split; intros; auto; lia.
    + assert (Q : -9223372036854775808 <= Z.quot x y <= 9223372036854775807).
      { assert (Z.abs (Z.quot x y) <= Z.abs x); [|lia].
        rewrite <- Z.quot_abs by auto. rewrite <- (Z.quot_1_r (Z.abs x)) at 2. apply Z.quot_le_compat_l; lia. }
      destruct (Z.eqb_spec y 0); [contradiction|].
      destruct (Z.leb_spec (-9223372036854775808) (Z.quot x y)), (Z.leb_spec (Z.quot x y) 9223372036854775807); cbn; split; intros; auto; lia.
Qed.

(** The remainder, except for the one pair of operands below. *)
Theorem C08_int_remainder_exact : forall X x y, int64 x -> int64 y -> ~ (x = - 2 ^ 63 /\ y = -1) ->
  vmod X (VInt x) (VInt y) = Ret (if Z.eq_dec y 0 then VNull NDivByZero else VInt (Z.rem x y)).
Proof.
  intros X x y Hx Hy N. unfold int64 in *. unfold vmod. cbn [nullOrEmpty isNull isEmpty orb andb negb].
  destruct (Z.eq_dec y 0) as [->|Hy0]; [reflexivity|].
  destruct (Z.eqb_spec y 0) as [|_]; [contradiction|]. cbn [negb].
  destruct (C08_int_arithmetic_exact X x y Hx Hy) as [_ [_ [_ [_ [_ H]]]]]. specialize (H Hy0).
  unfold crem. destruct (Z.eqb_spec y 0) as [|_]; [contradiction|].
  assert (Q : in_int64 (Z.quot x y) = true).
  { unfold exactOrOverflow, vdiv in H. cbn [nullOrEmpty isNull isEmpty orb andb negb] in H.
    destruct (Z.eqb_spec y 0) as [|_]; [contradiction|]. unfold cdiv in H. destruct (Z.eqb_spec y 0) as [|_]; [contradiction|].
    destruct ((x =? int64_min) && (y =? -1)) eqn:E.
    { exfalso. apply N. apply andb_true_iff in E. rewrite !Z.eqb_eq in E. exact E. }
    destruct (in_int64 (Z.quot x y)) eqn:I; auto. exfalso. cbn [obind] in H.
    destruct (Z.le_gt_cases (- 2 ^ 63) (Z.quot x y)); [destruct (Z.lt_ge_cases (Z.quot x y) (2 ^ 63))|].
    - discriminate (proj1 H (conj H0 H1)).
    - discriminate (proj2 H (or_intror H1)).
    - discriminate (proj2 H (or_introl H0)). }
  rewrite Q. reflexivity.
Qed.

(** INT64_MIN % -1 is undefined behaviour (a hardware trap on x86-64). *)
Theorem C08_remainder_defined_refuted : exists x y, int64 x /\ int64 y /\ y <> 0 /\ forall X, vmod X (VInt x) (VInt y) = UB.
Proof. exists (- 2 ^ 63), (-1). unfold int64. splits; try lia. intros X. vm_compute. reflexivity. Qed.

Example C08_ex : vadd X0 (VInt 9223372036854775807) (VInt 1) = Ret (VNull NOverflow)
  /\ vdiv (VInt (-7)) (VInt 2) = Ret (VInt (-3)) /\ vmod X0 (VInt (-7)) (VInt 2) = Ret (VInt (-1))
  /\ vdiv (VInt (- 2 ^ 63)) (VInt (-1)) = Ret (VNull NOverflow).
Proof. vm_compute. auto. Qed.

(** * C09 *)
Inductive binop := OpAdd | OpSub | OpMul | OpDiv | OpMod | OpBitAnd | OpBitOr | OpBitXor | OpAnd | OpOr.
Definition runOp (X : externals) (o : binop) (l r : value) : outcome value :=
  match o with
  | OpAdd => vadd X l r | OpSub => vsub l r | OpMul => vmul l r | OpDiv => vdiv l r | OpMod => vmod X l r
  | OpBitAnd => Ret (vbit Z.land l r) | OpBitOr => Ret (vbit Z.lor l r) | OpBitXor => Ret (vbit Z.lxor l r)
  | OpAnd => Ret (vandOp l r) | OpOr => Ret (vorOp l r)
  end.
(** Which operand the result is, if any. *)
Theorem C09_null_empty_propagate : forall X o,
  (forall n r, runOp X o (VNull n) r = Ret (VNull n)) /\
  (forall l n, (forall m, l <> VNull m) -> runOp X o l (VNull n) = Ret (VNull n)) /\
  (forall r, (forall m, r <> VNull m) -> runOp X o VEmpty r = Ret VEmpty) /\
  (forall l, (forall m, l <> VNull m) -> runOp X o l VEmpty = Ret VEmpty).
Proof.
  intros X o. splits.
  - intros n r. destruct o; reflexivity.
  - intros l n H. destruct l; try (exfalso; eapply H; reflexivity); destruct o; reflexivity.
  - intros r H. destruct r; try (exfalso; eapply H; reflexivity); destruct o; reflexivity.
  - intros l H. destruct l; try (exfalso; eapply H; reflexivity); destruct o; reflexivity.
Qed.
(** An empty result only comes from an empty operand. *)
Lemma obind_ret : forall (A : Type) (o : outcome A) (g : A -> value), obind o (fun x => Ret (g x)) = Ret VEmpty -> exists x, g x = VEmpty.
Proof. intros A o g H. destruct o; try discriminate H. exists a. cbn in H. now apply Ret_inj in H. Qed.
Theorem C09_empty_only_from_empty : forall X o l r, runOp X o l r = Ret VEmpty -> l = VEmpty \/ r = VEmpty.
Proof.
  intros X o l r H. destruct (nullOrEmpty l r) as [v|] eqn:E.
  - unfold nullOrEmpty in E. destruct l, r; cbn in E; try discriminate E; auto; exfalso;
      destruct o; cbn in H; discriminate H.
  - destruct o; cbn [runOp] in H; unfold vadd, vsub, vmul, vdiv, vmod, vbit in H; try rewrite E in H; clear E.
    all: destruct l; auto; destruct r; auto; exfalso; cbv beta iota in H.
    all: repeat match type of H with
    | (if ?c then _ else _) = _ => destruct c
    | Ret (intRes ?z) = _ => unfold intRes in H; destruct (in_int64 z)
    | obind (toInt ?d) _ = _ => destruct (toInt d); cbn [obind] in H
    | obind _ _ = Ret VEmpty => apply obind_ret in H; destruct H as [? H]
    | VNull _ = VEmpty => discriminate H
    | VInt _ = VEmpty => discriminate H
    | VDate _ = VEmpty => discriminate H
    | Ret ?x = Ret VEmpty => apply Ret_inj in H; discriminate H
    | _ => discriminate H
    end.
Qed.
(** On booleans && and || are the connectives; anything else that is neither null nor empty is refused. *)
Theorem C09_connectives : forall X l r,
  (forall a b, l = VBool a -> r = VBool b -> runOp X OpAnd l r = Ret (VBool (if a then b else false)) /\
                                             runOp X OpOr l r = Ret (VBool (if a then true else b))) /\
  ((forall n, l <> VNull n) -> (forall n, r <> VNull n) -> l <> VEmpty -> r <> VEmpty -> ~ (exists a b, l = VBool a /\ r = VBool b) ->
     runOp X OpAnd l r = Ret (VNull NBadType) /\ runOp X OpOr l r = Ret (VNull NBadType)).
Proof.
  intros X l r. split.
  - intros a b -> ->. split; reflexivity.
  - intros N1 N2 E1 E2 N. destruct l; try congruence; destruct r; try congruence; try (split; reflexivity). destruct N. eauto.
Qed.
Example C09_ex : runOp X0 OpAdd VEmpty (VNull NBadType) = Ret (VNull NBadType)
  /\ runOp X0 OpAdd (VNull NNaN) (VNull NBadType) = Ret (VNull NNaN) /\ runOp X0 OpDiv (VStr [97]) VEmpty = Ret VEmpty.
Proof. vm_compute. auto. Qed.

(** * C10 *)
Lemma floatFree_sets : forall v, floatFree v = true -> floatFreeSets v = true.
Proof.
  apply (value_sub_ind (fun v => floatFree v = true -> floatFreeSets v = true)). intros v IH H.
  apply vall_intro; [|intros c Hc; apply IH; auto; exact (vall_sub _ _ _ H Hc)].
  destruct v; try reflexivity. cbn [setFloatFree]. apply forallb_forall. intros c Hc. exact (vall_sub _ _ _ H Hc).
Qed.

(** Values without floats, at any nesting. *)
Theorem C10_equivalence_without_floats : forall X a b c,
  wf X a = true -> wf X b = true -> floatFree a = true -> floatFree b = true -> floatFree c = true ->
  veq X a a = true /\ (veq X a b = true -> veq X b a = true) /\ (veq X a b = true -> veq X b c = true -> veq X a c = true).
Proof.
  intros X a b c Wa Wb Fa Fb Fc. splits.
  - now apply veq_refl.
  - apply veq_sym; auto using floatFree_sets.
  - now apply veq_trans.
Qed.
(** Symmetry also with floats (NaN and infinities included), as long as they are not inside sets. *)
Theorem C10_symmetric : forall X a b, wf X a = true -> wf X b = true -> floatFreeSets a = true -> floatFreeSets b = true ->
  veq X a b = veq X b a.
Proof.
  intros X a b Wa Wb Fa Fb. destruct (veq X a b) eqn:E1, (veq X b a) eqn:E2; auto.
  - now rewrite (veq_sym X a b) in E2.
  - now rewrite (veq_sym X b a) in E1.
Qed.

(** A nested value: a list of a map, a set and an edge. *)
Definition exEdge (t : Z) : edge := mkEdge (VStr [97]) (VStr [98]) t [101] 7 [([120], VInt 1); ([121], VNull NNull)].
Definition exNested (t : Z) : value :=
  VList [VMap [([107], VInt 3); ([108], VStr [1])]; VSet [VInt 1; VInt 2]; VEdge (exEdge t);
         VPath (mkPath (mkVertex (VInt 1) []) [mkStep (mkVertex (VInt 2) []) 3 [101] 0 [([120], VBool true)]])].
Example C10_ex : wf X0 (exNested 5) = true /\ floatFree (exNested 5) = true /\
  veq X0 (exNested 5) (VList [VMap [([108], VStr [1]); ([107], VInt 3)]; VSet [VInt 2; VInt 1];
     VEdge (mkEdge (VStr [98]) (VStr [97]) (-5) [] 7 [([121], VNull NBadType); ([120], VInt 1)]);
     VPath (mkPath (mkVertex (VInt 1) []) [mkStep (mkVertex (VInt 2) []) 3 [101] 0 [([120], VBool true)]])]) = true /\
  veq X0 (exNested 5) (exNested 6) = false.
Proof. vm_compute. auto. Qed.

(** With floats it is not an equivalence. *)
Theorem C10_reflexive_refuted : exists v, forall X, wf X v = true /\ veq X v v = false.
Proof. exists (VFloat (S754_infinity false)). intros. vm_compute. auto. Qed.
Definition eps06 : f64 := f64mul (f64div (f64ofZ 6) (f64ofZ 10)) kEpsilon.
Theorem C10_transitive_refuted : exists a b c, forall X, wf X a = true /\ wf X b = true /\ wf X c = true /\
  veq X a b = true /\ veq X b c = true /\ veq X a c = false.
Proof. exists (VInt 0), (VFloat eps06), (VFloat (f64add eps06 eps06)). intros. vm_compute. auto 10. Qed.

(** * C11 *)
(** For values in the fragment: floats without NaN together with integers up to 2^53, or no floats at all. *)
Theorem C11_strict_weak_order : forall X fl a b c, orderable fl a = true -> orderable fl b = true -> orderable fl c = true ->
  vlt X a a = false /\
  (vlt X a b = true -> vlt X b a = false) /\
  (vlt X a b = true -> vlt X b c = true -> vlt X a c = true) /\
  (vlt X a b = false /\ vlt X b a = false -> vlt X b c = false /\ vlt X c b = false -> vlt X a c = false /\ vlt X c a = false).
Proof.
  intros X fl a b c Oa Ob Oc. unfold vlt.
  rewrite (vlt2_swap X fl a b), (vlt2_swap X fl b c), (vlt2_swap X fl a c), (vlt2_refl X fl a) by auto.
  pose proof (vlt2_tri X fl a b Oa Ob) as T1. pose proof (vlt2_tri X fl b c Ob Oc) as T2. pose proof (vlt2_tri X fl a c Oa Oc) as T3.
  destruct (vlt2_tab X fl a b c Oa Ob Oc) as [A [B C]]. unfold tri, isEq in *.
  destruct (vlt2 X a b) as [l1 g1], (vlt2 X b c) as [l2 g2], (vlt2 X a c) as [l3 g3]. cbn [fst snd swap].
  splits; auto.
  - intros ->. destruct g1; auto. congruence.
  - intros -> ->. destruct g1; [congruence|]. destruct g2; [congruence|]. specialize (C eq_refl). congruence.
  - intros [-> ->] [-> ->]. specialize (A eq_refl). split; congruence.
Qed.
(** Both directions computed by the model agree with computing the other way round. *)
Theorem C11_direction_consistent : forall X fl a b, orderable fl a = true -> orderable fl b = true ->
  vlt2 X a b = (vlt X a b, vlt X b a).
Proof. intros. unfold vlt. rewrite (vlt2_swap X fl a b) by auto. cbn. apply surjective_pairing. Qed.
Example C11_ex :
  orderable true (VList [VFloat eps06; VInt 9007199254740992; exNested 5]) = true /\
  vlt X0 (VList [VFloat eps06; VInt 4]) (VList [VFloat eps06; VFloat (f64ofZ 5)]) = true /\
  vlt X0 (VEdge (exEdge 5)) (VEdge (exEdge 6)) = true /\ vlt X0 (VStr [97]) (VStr [97; 0]) = true.
Proof. vm_compute. auto. Qed.

(** Outside the fragment incomparability is not transitive: NaN, ... *)
Theorem C11_incomparability_nan_refuted : exists a b c, forall X,
  (vlt X a b = false /\ vlt X b a = false) /\ (vlt X b c = false /\ vlt X c b = false) /\ vlt X a c = true.
Proof. exists (VInt 1), (VFloat S754_nan), (VInt 2). intros. vm_compute. auto. Qed.
(** ... integers above 2^53 next to a float, ... *)
Theorem C11_incomparability_large_int_refuted : exists a b c, forall X,
  wf X a = true /\ wf X b = true /\ wf X c = true /\
  (vlt X a b = false /\ vlt X b a = false) /\ (vlt X b c = false /\ vlt X c b = false) /\ vlt X a c = true.
Proof. exists (VInt 9007199254740992), (VFloat (f64ofZ 9007199254740992)), (VInt 9007199254740993). intros. vm_compute. auto 10. Qed.
(** ... and, without any float, paths whose source vertices have different tags. *)
Definition pathOf (tagn t : Z) : value :=
  VPath (mkPath (mkVertex (VInt 1) [mkTag [tagn] []]) [mkStep (mkVertex (VInt 2) []) t [] 0 []]).
Theorem C11_incomparability_path_refuted : exists a b c, forall X,
  wf X a = true /\ wf X b = true /\ wf X c = true /\ floatFree a = true /\ floatFree b = true /\ floatFree c = true /\
  (vlt X a b = false /\ vlt X b a = false) /\ (vlt X b c = false /\ vlt X c b = false) /\ vlt X a c = true.
Proof. exists (pathOf 65 1), (pathOf 66 5), (pathOf 65 2). intros. vm_compute. auto 10. Qed.

(** * C12 *)
Theorem C12_equal_hash_equal : forall X a b, floatFree a = true -> floatFree b = true -> plainIds a = true -> plainIds b = true ->
  veq X a b = true -> vhash X a = vhash X b.
Proof. exact veq_hash. Qed.
Example C12_ex :
  let e := VList [VEdge (exEdge 5); VInt 3; VNull NNull] in
  let f := VList [VEdge (mkEdge (VStr [98]) (VStr [97]) (-5) [] 7 [([121], VNull NBadType); ([120], VInt 1)]); VInt 3; VNull NNaN] in
  floatFree e = true /\ plainIds e = true /\ veq X0 e f = true /\ vhash X0 e = vhash X0 f /\ hashable X0 e = true.
Proof. vm_compute. auto 10. Qed.
(** 1 == 1.0 but the hashes differ. *)
Theorem C12_int_float_refuted : exists a b, forall X, veq X a b = true /\ hashable X a = true /\ hashable X b = true /\ vhash X a <> vhash X b.
Proof. exists (VInt 1), (VFloat (f64ofZ 1)). intros. splits; try reflexivity. vm_compute. discriminate. Qed.
(** Two floats that are equal under the tolerance have different hashes. *)
Theorem C12_float_refuted : exists a b, forall X, veq X (VFloat a) (VFloat b) = true /\ vhash X (VFloat a) <> vhash X (VFloat b).
Proof. exists eps06, (S754_zero false). intros. split; [reflexivity|]. vm_compute. discriminate. Qed.
(** All nulls are equal, but a vertex hashes the text of its id. *)
Theorem C12_null_id_refuted : exists a b, forall X, floatFree a = true /\ floatFree b = true /\
  veq X (VVertex (mkVertex a [])) (VVertex (mkVertex b [])) = true /\ vhash X (VVertex (mkVertex a [])) <> vhash X (VVertex (mkVertex b [])).
Proof. exists (VNull NNull), (VNull NBadType). intros. splits; try reflexivity. vm_compute. discriminate. Qed.

(** * C13 *)
(** Value::equal: null when an operand is null, otherwise the truth value of operator==. *)
Theorem C13_equal : forall X a b,
  vequal X a b = if isNull a || isNull b then VNull NNull else VBool (veq X a b).
Proof. intros X a b. destruct a; destruct b; reflexivity. Qed.

(** Value::lessThan: null when an operand is null, empty when one is empty, null for types that do not
    compare; for numbers "less and not equal", otherwise the truth value of operator<. *)
Definition numeric (v : value) : bool := match v with VInt _ | VFloat _ => true | _ => false end.
Lemma farLt_spec : forall a b, farLt a b = f64ltb a b && negb (nearEq a b).
Proof.
  intros a b. unfold farLt, nearEq. destruct (f64ltb a b) eqn:E; [|now rewrite andb_false_r].
  rewrite andb_true_r. cbn [andb]. apply leb_ltb; auto.
  apply sub_not_nan in E. destruct (f64sub a b); auto.
Qed.
Theorem C13_lessThan : forall X a b,
  vlessThan X a b =
    if isNull a || isNull b then VNull NNull
    else if isEmpty a || isEmpty b then VEmpty
    else if numeric a && numeric b then VBool (vlt X a b && negb (veq X a b))
    else if typeBit a =? typeBit b then VBool (vlt X a b)
    else VNull NNull.
Proof.
  intros X a b. destruct a; destruct b; try reflexivity.
  - change (VBool (z <? z0) = VBool ((z <? z0) && negb (z =? z0))). f_equal.
    destruct (Z.ltb_spec z z0), (Z.eqb_spec z z0); auto; lia.
  - change (VBool (farLt (f64ofZ z) f) = VBool (f64ltb (f64ofZ z) f && negb (nearEq (f64ofZ z) f))). now rewrite farLt_spec.
  - change (VBool (farLt f (f64ofZ z)) = VBool (f64ltb f (f64ofZ z) && negb (nearEq f (f64ofZ z)))). now rewrite farLt_spec.
  - change (VBool (farLt f f0) = VBool (f64ltb f f0 && negb (nearEq f f0))). now rewrite farLt_spec.
Qed.
(** Two floats closer than 1e-8 are ordered by operator< but not by lessThan. *)
Theorem C13_lessThan_operator_refuted : exists a b, forall X, vlt X a b = true /\ vlessThan X a b = VBool false.
Proof. exists (VInt 0), (VFloat eps06). intros. vm_compute. auto. Qed.
Example C13_ex : vequal X0 (VInt 1) VEmpty = VBool false /\ vequal X0 VEmpty (VNull NNull) = VNull NNull
  /\ vlessThan X0 (VInt 1) (VFloat (f64ofZ 2)) = VBool true /\ vlessThan X0 (VInt 1) (VStr []) = VNull NNull.
Proof. vm_compute. auto. Qed.

Print Assumptions C08_int_arithmetic_exact. Print Assumptions C08_int_remainder_exact. Print Assumptions C08_remainder_defined_refuted.
Print Assumptions C09_null_empty_propagate. Print Assumptions C09_empty_only_from_empty. Print Assumptions C09_connectives.
Print Assumptions C10_equivalence_without_floats. Print Assumptions C10_symmetric.
Print Assumptions C11_strict_weak_order. Print Assumptions C12_equal_hash_equal. Print Assumptions C13_equal. Print Assumptions C13_lessThan.
