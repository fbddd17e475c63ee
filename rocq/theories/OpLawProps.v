(** Theorems about rewriting expressions: which laws of arithmetic and of logic the operators keep (C175, C176). *)
From Coq Require Import String.
From Verif Require Import ValueBase FloatProofs ValueModel ValueProofs ValueEqProofs ValueProps GraphModel ExprModel EvalModel EvalSpec EvalProofs EvalProps RelProps OperatorProps.
Local Open Scope list_scope.
Local Open Scope Z_scope.

(** Two expressions may replace one another: both evaluate, and to the same value. *)
Definition same_ (E : env) (c : ctx) (e e' : expr) : Prop := exists v, yields E c e v /\ yields E c e' v.
Definition bin (o : arith) (l r : expr) : expr := Node (KArith o) [l; r].
Definition cmp (o : rel) (l r : expr) : expr := Node (KRel o) [l; r].
Definition neg (e : expr) : expr := Node (KUnary ONegate) [e].
Definition inv (e : expr) : expr := Node (KUnary ONot) [e].
Definition conj_ (es : list expr) : expr := Node (KLogical OAnd) es.
Definition disj_ (es : list expr) : expr := Node (KLogical OOr) es.
(** a number: a 64-bit integer or a double *)
Definition number (v : value) : Prop := match v with VInt z => int64_min <= z <= int64_max | VFloat _ => True | _ => False end.

(** * Evaluation of the nodes *)
Lemma arith_run E c o l r a b v : yields E c l a -> yields E c r b -> varith E o a b = Ret v -> yields E c (bin o l r) v.
Proof.
  intros Yl Yr H. apply run_node with (v := v); auto. intros r0. exists v. cbn [evalNode].
  eapply gives_bind; [eapply gives_child; [reflexivity|exact Yl]|].
  eapply gives_bind; [eapply gives_child; [reflexivity|exact Yr]|].
  eapply gives_bind; [apply gives_lift; exact H|apply gives_ret].
Qed.
Lemma neg_run E c e a v : yields E c e a -> vneg a = Ret v -> yields E c (neg e) v.
Proof.
  intros Y H. apply run_node with (v := v); auto. intros r0. exists v. cbn [evalNode].
  eapply gives_bind; [eapply gives_child; [reflexivity|exact Y]|]. eapply gives_bind; [apply gives_lift; exact H|apply gives_ret].
Qed.
Lemma inv_run E c e a : yields E c e a -> yields E c (inv e) (vnot a).
Proof.
  intros Y. apply run_node with (v := vnot a); auto. intros r0. exists (vnot a). cbn [evalNode].
  eapply gives_bind; [eapply gives_child; [reflexivity|exact Y]|apply gives_ret].
Qed.
Lemma conj_run E c es vs : Forall2 (yields E c) es vs -> yields E c (conj_ es) (andOr false vs (VBool true)).
Proof. intros Y. eapply logical_run; [left; eauto|]. now apply andOr_whole. Qed.
Lemma disj_run E c es vs : Forall2 (yields E c) es vs -> yields E c (disj_ es) (andOr true vs (VBool false)).
Proof. intros Y. eapply logical_run; [right; eauto|]. now apply andOr_whole. Qed.

(** * C175: arithmetic *)
Lemma add_comm x y : f64add x y = f64add y x.
Proof.
  destruct x as [s|s| |s m e], y as [t|t| |t n f]; cbn [f64add SFadd]; try reflexivity; try (destruct s, t; reflexivity).
  unfold f64add, SFadd. rewrite (Z.min_comm f e). cbv zeta. rewrite Z.add_comm. reflexivity.
Qed.
Lemma mul_comm x y : f64mul x y = f64mul y x.
Proof.
  destruct x as [s|s| |s m e], y as [t|t| |t n f]; cbn [f64mul SFmul]; try reflexivity; try (destruct s, t; reflexivity).
  rewrite (Z.add_comm f e), (Pos.mul_comm n m), (xorb_comm t s). reflexivity.
Qed.
Lemma sub_add x y : f64sub x y = f64add x (f64neg y).
Proof.
  destruct x as [s|s| |s m e], y as [t|t| |t n f]; try reflexivity; destruct s, t; reflexivity.
Qed.
Lemma aux_opp sx m e l : binary_round_aux 53 1024 (negb sx) m e l = SFopp (binary_round_aux 53 1024 sx m e l).
Proof.
  unfold binary_round_aux. destruct (shr_fexp _ _ m e l) as [p e']. destruct (shr_fexp _ _ _ e' _) as [q e''].
  destruct (shr_m q); try reflexivity. destruct (Zle_bool _ _); reflexivity.
Qed.
Lemma ofZ_opp z : z <> 0 -> f64ofZ (- z) = f64neg (f64ofZ z).
Proof.
  intros N. unfold f64ofZ, binary_normalize, f64neg. destruct z as [|p|p]; [congruence| |].
  - change (- Z.pos p) with (Z.neg p). unfold binary_round. destruct (shl_align _ _ _). apply (aux_opp false).
  - change (- Z.neg p) with (Z.pos p). unfold binary_round. destruct (shl_align _ _ _). apply (aux_opp true).
Qed.
Lemma neg_neg x : f64neg (f64neg x) = x.
Proof. destruct x as [s|s| |s m e]; try destruct s; reflexivity. Qed.

(** The operands of + and of * may be exchanged: for all numbers, doubles with their infinities and NaN as well. *)
Theorem C175_swap : forall E c o l r a b, o = OAdd \/ o = OMultiply -> yields E c l a -> yields E c r b -> number a -> number b ->
  same_ E c (bin o l r) (bin o r l).
Proof.
  intros E c o l r a b Ho Yl Yr Na Nb.
  assert (G : exists v, varith E o a b = Ret v /\ varith E o b a = Ret v).
  { destruct Ho as [-> | ->]; destruct a, b; try contradiction; cbn [varith vadd vmul nullOrEmpty isNull isEmpty orb].
    - eexists. split; [reflexivity|]. cbn. do 2 f_equal. apply Z.add_comm.
    - eexists. split; [reflexivity|]. cbn. do 2 f_equal. apply add_comm.
    - eexists. split; [reflexivity|]. cbn. do 2 f_equal. apply add_comm.
    - eexists. split; [reflexivity|]. cbn. do 2 f_equal. apply add_comm.
    - eexists. split; [cbn; match goal with |- (if ?q then _ else _) = _ => instantiate (1 := if q then VNull NOverflow else intRes (z * z0)); destruct q; reflexivity end|].
      cbn. rewrite orb_comm, (Z.mul_comm z0 z). match goal with |- (if ?q then _ else _) = _ => destruct q; reflexivity end.
    - eexists. split; [reflexivity|]. cbn. do 2 f_equal. apply mul_comm.
    - eexists. split; [reflexivity|]. cbn. do 2 f_equal. apply mul_comm.
    - eexists. split; [reflexivity|]. cbn. do 2 f_equal. apply mul_comm. }
  destruct G as (v & G1 & G2). exists v. split; eapply arith_run; eassumption.
Qed.
(** Not of texts, and not of two different nulls. *)
Theorem C175_swap_refuted : forall E c,
  yields E c (bin OAdd (konst (VStr (B "a"))) (konst (VStr (B "b")))) (VStr (B "ab")) /\
  yields E c (bin OAdd (konst (VStr (B "b"))) (konst (VStr (B "a")))) (VStr (B "ba")) /\
  yields E c (bin OMultiply (konst (VNull NNull)) (konst (VNull NNaN))) (VNull NNull) /\
  yields E c (bin OMultiply (konst (VNull NNaN)) (konst (VNull NNull))) (VNull NNaN).
Proof. intros E c. splits; (eapply arith_run; [apply konst_yields..|reflexivity]). Qed.

(** Subtraction is the addition of the opposite, for all numbers but two: a smallest integer has no opposite, and the integer
    zero taken from the double -0. *)
Theorem C175_minus : forall E c l r a b, yields E c l a -> yields E c r b -> number a -> number b ->
  b <> VInt int64_min -> ~ (a = VFloat (S754_zero true) /\ b = VInt 0) -> same_ E c (bin OMinus l r) (bin OAdd l (neg r)).
Proof.
  intros E c l r a b Yl Yr Na Nb N1 N2.
  assert (G : exists w v, vneg b = Ret w /\ varith E OMinus a b = Ret v /\ varith E OAdd a w = Ret v).
  { destruct b as [| | |y|y| | | | | | | | | | |]; try contradiction.
    - assert (H : y <> int64_min) by congruence. cbn in Nb. exists (VInt (- y)).
      assert (V : vneg (VInt y) = Ret (VInt (- y))).
      { unfold vneg. rewrite (proj2 (Z.eqb_neq _ _) H). unfold in_int64. rewrite (proj2 (Z.leb_le _ _)), (proj2 (Z.leb_le _ _)); [reflexivity|..]; unfold int64_min, int64_max in *; lia. }
      destruct a as [| | |x|x| | | | | | | | | | |]; try contradiction.
      + eexists. splits; [exact V|reflexivity|]. reflexivity.
      + eexists. splits; [exact V|reflexivity|]. cbn. do 2 f_equal. rewrite sub_add. destruct (Z.eq_dec y 0) as [->|Z0].
        * change (- 0) with 0. cbn. destruct x as [[]|s| |s m e]; try reflexivity. destruct N2. split; reflexivity.
        * rewrite ofZ_opp by exact Z0. reflexivity.
    - exists (VFloat (f64neg y)). destruct a as [| | |x|x| | | | | | | | | | |]; try contradiction;
        (eexists; splits; [reflexivity|reflexivity|]; cbn; do 2 f_equal; symmetry; apply sub_add). }
  destruct G as (w & v & G1 & G2 & G3). exists v. split; [eapply arith_run; eassumption|].
  eapply arith_run; [exact Yl| |exact G3]. eapply neg_run; eassumption.
Qed.
Theorem C175_minus_refuted : forall E c,
  yields E c (bin OMinus (konst (VInt (-1))) (konst (VInt int64_min))) (VInt int64_max) /\
  yields E c (bin OAdd (konst (VInt (-1))) (neg (konst (VInt int64_min)))) (VNull NOverflow) /\
  yields E c (bin OMinus (konst (VFloat (S754_zero true))) (konst (VInt 0))) (VFloat (S754_zero true)) /\
  yields E c (bin OAdd (konst (VFloat (S754_zero true))) (neg (konst (VInt 0)))) (VFloat (S754_zero false)).
Proof.
  intros E c. splits; (eapply arith_run; [apply konst_yields|..]); try apply konst_yields; try reflexivity;
    try (eapply neg_run; [apply konst_yields|reflexivity]); reflexivity.
Qed.

(** Two minus signs cancel, of numbers, null and empty; not before the smallest integer. *)
Theorem C175_double_minus : forall E c e a, yields E c e a -> number a \/ isNull a = true \/ isEmpty a = true -> a <> VInt int64_min ->
  yields E c (neg (neg e)) a.
Proof.
  intros E c e a Y Na N.
  assert (G : exists w, vneg a = Ret w /\ vneg w = Ret a).
  { destruct a as [| | |y|y| | | | | | | | | | |]; try (destruct Na as [[]|[Na|Na]]; discriminate Na); try (eexists; split; reflexivity).
    - destruct Na as [Na|[Na|Na]]; try discriminate Na. cbn in Na. assert (H : y <> int64_min) by congruence. exists (VInt (- y)).
      unfold vneg. rewrite (proj2 (Z.eqb_neq y _) H). unfold in_int64, int64_min, int64_max in *.
      rewrite (proj2 (Z.leb_le _ _)), (proj2 (Z.leb_le _ _)) by lia. split; [reflexivity|].
      rewrite (proj2 (Z.eqb_neq (- y) _)) by lia. rewrite (proj2 (Z.leb_le _ _)), (proj2 (Z.leb_le _ _)) by lia. cbn. do 2 f_equal. lia.
    - exists (VFloat (f64neg y)). split; [reflexivity|]. cbn [vneg]. rewrite neg_neg. reflexivity. }
  destruct G as (w & G1 & G2). eapply neg_run; [eapply neg_run; eassumption|exact G2].
Qed.
Theorem C175_double_minus_refuted : forall E c e, yields E c e (VInt int64_min) -> yields E c (neg (neg e)) (VNull NOverflow).
Proof. intros E c e Y. eapply neg_run; [eapply neg_run; [exact Y|reflexivity]|reflexivity]. Qed.

(** Integers may be added in any grouping as long as no partial sum leaves the range; otherwise one grouping is the sum and the
    other null. *)
Definition fits (z : Z) : Prop := int64_min <= z <= int64_max.
Lemma fits_in z : fits z -> in_int64 z = true.
Proof. intros [A B]. unfold in_int64. rewrite (proj2 (Z.leb_le _ _) A), (proj2 (Z.leb_le _ _) B). reflexivity. Qed.
Lemma int_add E c l r x y : yields E c l (VInt x) -> yields E c r (VInt y) -> fits (x + y) -> yields E c (bin OAdd l r) (VInt (x + y)).
Proof. intros Yl Yr H. eapply arith_run; [exact Yl|exact Yr|]. cbn. unfold intRes. rewrite fits_in by exact H. reflexivity. Qed.
Lemma int_sub E c l r x y : yields E c l (VInt x) -> yields E c r (VInt y) -> fits (x - y) -> yields E c (bin OMinus l r) (VInt (x - y)).
Proof. intros Yl Yr H. eapply arith_run; [exact Yl|exact Yr|]. cbn. unfold intRes. rewrite fits_in by exact H. reflexivity. Qed.
Theorem C175_group : forall E c p q r x y z, yields E c p (VInt x) -> yields E c q (VInt y) -> yields E c r (VInt z) ->
  fits (x + y) -> fits (y + z) -> same_ E c (bin OAdd (bin OAdd p q) r) (bin OAdd p (bin OAdd q r)).
Proof.
  intros E c p q r x y z Yp Yq Yr F1 F2. exists (intRes (x + y + z)). split.
  - eapply arith_run; [apply (int_add _ _ _ _ _ _ Yp Yq F1)|exact Yr|reflexivity].
  - eapply arith_run; [exact Yp|apply (int_add _ _ _ _ _ _ Yq Yr F2)|]. cbn. do 2 f_equal. lia.
Qed.
Theorem C175_group_refuted : forall E c,
  yields E c (bin OAdd (bin OAdd (konst (VInt int64_max)) (konst (VInt 1))) (konst (VInt (-1)))) (VNull NOverflow) /\
  yields E c (bin OAdd (konst (VInt int64_max)) (bin OAdd (konst (VInt 1)) (konst (VInt (-1))))) (VInt int64_max).
Proof.
  intros E c. split.
  - eapply arith_run; [eapply arith_run; [apply konst_yields..|reflexivity]|apply konst_yields|reflexivity].
  - eapply arith_run; [apply konst_yields|eapply arith_run; [apply konst_yields..|reflexivity]|reflexivity].
Qed.

(** Moving a summand to the other side of a comparison. *)
Definition comparing (o : rel) : Prop := match o with OEQ | ONE | OLT | OLE | OGT | OGE => True | _ => False end.
Lemma int_rel E c o l r l' r' x y x' y' : comparing o -> yields E c l (VInt x) -> yields E c r (VInt y) -> yields E c l' (VInt x') -> yields E c r' (VInt y') ->
  x - y = x' - y' -> same_ E c (cmp o l r) (cmp o l' r').
Proof.
  intros Ho Yl Yr Yl' Yr' D.
  assert (L : vlessThan (eX E) (VInt x) (VInt y) = vlessThan (eX E) (VInt x') (VInt y')).
  { cbn. f_equal. destruct (Z.ltb_spec x y), (Z.ltb_spec x' y'); try reflexivity; lia. }
  assert (Q : vequal (eX E) (VInt x) (VInt y) = vequal (eX E) (VInt x') (VInt y')).
  { cbn. f_equal. destruct (Z.eqb_spec x y), (Z.eqb_spec x' y'); try reflexivity; lia. }
  assert (G : exists v, vrel E o (VInt x) (VInt y) = Ret v /\ vrel E o (VInt x') (VInt y') = Ret v).
  { destruct o; try contradiction; cbn [vrel]; rewrite ?L, ?Q; eexists; split; reflexivity. }
  destruct G as (v & G1 & G2). exists v. split; eapply rel_run; eassumption.
Qed.
Theorem C175_move : forall E c o e k d x n m, comparing o -> yields E c e (VInt x) -> yields E c k (VInt n) -> yields E c d (VInt m) ->
  (fits (x + n) -> fits (m - n) -> same_ E c (cmp o (bin OAdd e k) d) (cmp o e (bin OMinus d k))) /\
  (fits (x - n) -> fits (m + n) -> same_ E c (cmp o (bin OMinus e k) d) (cmp o e (bin OAdd d k))).
Proof.
  intros E c o e k d x n m Ho Ye Yk Yd. split; intros F1 F2.
  - eapply int_rel; [exact Ho|apply (int_add _ _ _ _ _ _ Ye Yk F1)|exact Yd|exact Ye|apply (int_sub _ _ _ _ _ _ Yd Yk F2)|lia].
  - eapply int_rel; [exact Ho|apply (int_sub _ _ _ _ _ _ Ye Yk F1)|exact Yd|exact Ye|apply (int_add _ _ _ _ _ _ Yd Yk F2)|lia].
Qed.
(** With an overflow on one side only, one of the two is null; and on doubles the two may be true and false. *)
Definition f53 : f64 := f64ofZ 9007199254740992.
Theorem C175_move_refuted : forall E c,
  (yields E c (cmp OGT (bin OAdd (konst (VInt int64_max)) (konst (VInt 1))) (konst (VInt 0))) (VNull NNull) /\
   yields E c (cmp OGT (konst (VInt int64_max)) (bin OMinus (konst (VInt 0)) (konst (VInt 1)))) (VBool true)) /\
  (yields E c (cmp OEQ (bin OAdd (konst (VFloat f53)) (konst (VFloat (f64ofZ 1)))) (konst (VFloat f53))) (VBool true) /\
   yields E c (cmp OEQ (konst (VFloat f53)) (bin OMinus (konst (VFloat f53)) (konst (VFloat (f64ofZ 1))))) (VBool false)).
Proof.
  intros E c. splits.
  - eapply rel_run; [eapply arith_run; [apply konst_yields..|reflexivity]|apply konst_yields|reflexivity].
  - eapply rel_run; [apply konst_yields|eapply arith_run; [apply konst_yields..|reflexivity]|reflexivity].
  - eapply rel_run; [eapply arith_run; [apply konst_yields..|reflexivity]|apply konst_yields|vm_compute; reflexivity].
  - eapply rel_run; [apply konst_yields|eapply arith_run; [apply konst_yields..|reflexivity]|vm_compute; reflexivity].
Qed.
Example C175_ex : forall E c,
  same_ E c (bin OMultiply (konst (VInt 3)) (konst (VFloat (f64ofZ 2)))) (bin OMultiply (konst (VFloat (f64ofZ 2))) (konst (VInt 3))) /\
  yields E c (bin OMinus (konst (VInt 3)) (konst (VInt 5))) (VInt (-2)) /\ yields E c (bin OAdd (konst (VInt 3)) (neg (konst (VInt 5)))) (VInt (-2)) /\
  same_ E c (cmp OLE (bin OAdd (konst (VInt 3)) (konst (VInt 4))) (konst (VInt 7))) (cmp OLE (konst (VInt 3)) (bin OMinus (konst (VInt 7)) (konst (VInt 4)))).
Proof.
  intros E c. splits.
  - eapply C175_swap; [right; reflexivity|apply konst_yields..| |]; cbn; unfold int64_min, int64_max; try exact I; lia.
  - eapply arith_run; [apply konst_yields..|reflexivity].
  - eapply arith_run; [apply konst_yields|eapply neg_run; [apply konst_yields|reflexivity]|reflexivity].
  - eapply (proj1 (C175_move E c OLE _ _ _ 3 4 7 I (konst_yields _ _ _) (konst_yields _ _ _) (konst_yields _ _ _))); unfold fits, int64_min, int64_max; lia.
Qed.

(** * C176: logic *)
(** What a condition may be: a Boolean, null of any kind, empty. *)
Definition logical (v : value) : Prop := match v with VBool _ | VNull _ | VEmpty => True | _ => False end.
Lemma vnot_vnot v : logical v -> vnot (vnot v) = v.
Proof. destruct v; try contradiction; try reflexivity. destruct b; reflexivity. Qed.
Lemma andOr_not s : forall vs r, logical r -> vnot (andOr s vs r) = andOr (negb s) (map vnot vs) (vnot r).
Proof.
  induction vs as [|v vs IH]; intros r Hr; [reflexivity|]. cbn [andOr map].
  destruct v as [|n|b| | | | | | | | | | | | |]; cbn [isBadNull isBoolV isNull isEmpty orb vnot andb]; try reflexivity.
  - assert (Q : isNull (vnot r) = isNull r) by (destruct r; try contradiction; reflexivity). rewrite Q.
    destruct (isNull r); [reflexivity|]. cbn [negb]. apply (IH VEmpty). exact I.
  - destruct n; try reflexivity. apply (IH (VNull NNull)). exact I.
  - replace (Bool.eqb (negb b) (negb s)) with (Bool.eqb b s) by (destruct b, s; reflexivity).
    destruct (Bool.eqb b s); [reflexivity|]. apply IH. exact Hr.
Qed.
Lemma inv_all E c es vs : Forall2 (yields E c) es vs -> Forall2 (yields E c) (map inv es) (map vnot vs).
Proof. induction 1; cbn [map]; constructor; auto. apply inv_run. assumption. Qed.
(** De Morgan, for any number of operands and whatever they are: the result is the same, which null or empty it is included. *)
Theorem C176_de_morgan : forall E c es vs, Forall2 (yields E c) es vs ->
  same_ E c (inv (conj_ es)) (disj_ (map inv es)) /\ same_ E c (inv (disj_ es)) (conj_ (map inv es)).
Proof.
  intros E c es vs Y. split.
  - eexists. split; [apply inv_run, conj_run; exact Y|]. rewrite andOr_not by exact I. apply disj_run, inv_all, Y.
  - eexists. split; [apply inv_run, disj_run; exact Y|]. rewrite andOr_not by exact I. apply conj_run, inv_all, Y.
Qed.
Example C176_de_morgan_ex : forall E c, let es := [konst (VBool true); konst VEmpty; konst (VInt 5); crash] in
  yields E c (inv (conj_ (firstn 3 es))) (VNull NBadType) /\ yields E c (disj_ (map inv (firstn 3 es))) (VNull NBadType) /\
  yields E c (inv (conj_ (firstn 2 es))) VEmpty /\ yields E c (disj_ (map inv (firstn 2 es))) VEmpty.
Proof.
  intros E c es. unfold es. cbn [firstn]. pose proof (konsts_yield E c [VBool true; VEmpty; VInt 5]) as Y. pose proof (konsts_yield E c [VBool true; VEmpty]) as Y'. splits.
  - apply (inv_run _ _ _ (VNull NBadType)). apply (conj_run E c _ _ Y).
  - apply (disj_run E c _ _ (inv_all E c _ _ Y)).
  - apply (inv_run _ _ _ VEmpty). apply (conj_run E c _ _ Y').
  - apply (disj_run E c _ _ (inv_all E c _ _ Y')).
Qed.

(** Two NOTs cancel on conditions, and turn anything else into the bad-type null. *)
Theorem C176_double_not : forall E c e a, yields E c e a ->
  (logical a -> yields E c (inv (inv e)) a) /\ (~ logical a -> yields E c (inv (inv e)) (VNull NBadType)).
Proof.
  intros E c e a Y. pose proof (inv_run _ _ _ _ (inv_run _ _ _ _ Y)) as H. split; intros L.
  - rewrite vnot_vnot in H by exact L. exact H.
  - destruct a; try (destruct L; exact I); exact H.
Qed.

(** A conjunction inside a conjunction may be written flat, a disjunction inside a disjunction too, whatever the operands but
    empty ones. *)
Definition notEmpty (v : value) : Prop := v <> VEmpty.
Definition settled (stop : bool) (v : value) : bool := match v with VBool b => Bool.eqb b stop | VNull NNull => false | _ => true end.
Lemma andOr_app s : forall us vs r, Forall notEmpty us -> andOr s (us ++ vs) r = if existsb (settled s) us then andOr s us r else andOr s vs (andOr s us r).
Proof.
  induction us as [|u us IH]; intros vs r H; [reflexivity|]. inversion H as [|? ? Hu Hs]; subst. cbn [app andOr existsb].
  destruct u as [|n|b| | | | | | | | | | | | |]; try reflexivity.
  - destruct (Hu eq_refl).
  - destruct n; try reflexivity. cbn [isBadNull orb isBoolV isNull settled]. apply IH. exact Hs.
  - cbn [isBadNull orb isBoolV settled]. destruct (Bool.eqb b s); [reflexivity|]. cbn [orb]. apply IH. exact Hs.
Qed.
(** what a nested operator contributes *)
Lemma andOr_nested s : forall us r, Forall notEmpty us -> r = VBool (negb s) \/ r = VNull NNull ->
  let m := andOr s us (VBool (negb s)) in
  if existsb (settled s) us then settled s m = true /\ m <> VEmpty /\ andOr s us r = m /\ (match m with VBool _ | VNull _ => True | _ => False end)
  else (m = VBool (negb s) /\ andOr s us r = r) \/ (m = VNull NNull /\ andOr s us r = VNull NNull).
Proof.
  intros us r H. revert r.
  assert (G : forall r q, q = VBool (negb s) \/ q = VNull NNull -> r = VBool (negb s) \/ r = VNull NNull -> 
     if existsb (settled s) us then settled s (andOr s us q) = true /\ andOr s us q <> VEmpty /\ andOr s us r = andOr s us q /\ (match andOr s us q with VBool _ | VNull _ => True | _ => False end)
     else (andOr s us q = q /\ andOr s us r = r) \/ (andOr s us q = VNull NNull /\ andOr s us r = VNull NNull)).
  { induction H as [|u us Hu Hs IH]; intros r q Hq Hr; [left; split; reflexivity|]. cbn [andOr existsb].
    destruct u as [|n|b| | | | | | | | | | | | |]; try (cbn; splits; try reflexivity; try discriminate; exact I).
    - destruct (Hu eq_refl).
    - destruct n; try (cbn; splits; try reflexivity; try discriminate; exact I). cbn [isBadNull orb isBoolV isNull settled].
      specialize (IH (VNull NNull) (VNull NNull) (or_intror eq_refl) (or_intror eq_refl)). destruct (existsb (settled s) us); [exact IH|].
      right. destruct IH as [[A _]|[A _]]; split; exact A.
    - cbn [isBadNull orb isBoolV settled]. destruct (Bool.eqb b s) eqn:Q; cbn [orb]; [splits; try reflexivity; [cbn; exact Q|discriminate]|]. apply IH; assumption. }
  intros r Hr. apply G; [left; reflexivity|exact Hr].
Qed.
Lemma F2_app E c l1 l2 v1 v2 : Forall2 (yields E c) l1 v1 -> Forall2 (yields E c) l2 v2 -> Forall2 (yields E c) (l1 ++ l2) (v1 ++ v2).
Proof. apply Forall2_app. Qed.
Lemma go_on s : forall us r, Forall notEmpty us -> r = VBool (negb s) \/ r = VNull NNull -> existsb (settled s) us = false -> andOr s us r = VBool (negb s) \/ andOr s us r = VNull NNull.
Proof.
  intros us r H Hr Q. pose proof (andOr_nested s us r H Hr) as G. cbn zeta in G. rewrite Q in G. destruct G as [[_ G]|[_ G]]; rewrite G; auto.
Qed.
Lemma andOr_flat s pre mid post : Forall notEmpty (pre ++ mid) ->
  andOr s (pre ++ andOr s mid (VBool (negb s)) :: post) (VBool (negb s)) = andOr s (pre ++ mid ++ post) (VBool (negb s)).
Proof.
  intros H. apply Forall_app in H as [Hp Hm]. rewrite !andOr_app by assumption. destruct (existsb (settled s) pre) eqn:Q; [reflexivity|].
  pose proof (go_on s pre _ Hp (or_introl eq_refl) Q) as R. set (r := andOr s pre _) in *.
  pose proof (andOr_nested s mid r Hm R) as G. cbn zeta in G. set (m := andOr s mid (VBool (negb s))) in *.
  destruct (existsb (settled s) mid).
  - destruct G as (G1 & G2 & G3 & G4). rewrite G3. cbn [andOr]. destruct m as [|n|b| | | | | | | | | | | | |]; try contradiction.
    + destruct n; try reflexivity. discriminate G1.
    + cbn in G1. rewrite G1. cbn [isBadNull orb]. reflexivity.
  - destruct G as [[-> ->]|[-> ->]]; cbn [andOr isBadNull isBoolV orb]; [|reflexivity]. replace (Bool.eqb (negb s) s) with false by (destruct s; reflexivity). reflexivity.
Qed.
Theorem C176_flat : forall E c pre mid post us ms ws, Forall2 (yields E c) pre us -> Forall2 (yields E c) mid ms -> Forall2 (yields E c) post ws ->
  Forall notEmpty (us ++ ms) ->
  same_ E c (conj_ (pre ++ conj_ mid :: post)) (conj_ (pre ++ mid ++ post)) /\ same_ E c (disj_ (pre ++ disj_ mid :: post)) (disj_ (pre ++ mid ++ post)).
Proof.
  intros E c pre mid post us ms ws Yp Ym Yw H. split.
  - eexists. split; [apply conj_run, Forall2_app; [exact Yp|constructor; [apply conj_run; exact Ym|exact Yw]]|].
    pose proof (andOr_flat false us ms ws H) as Q. cbn [negb] in Q. rewrite Q. apply conj_run. repeat apply Forall2_app; assumption.
  - eexists. split; [apply disj_run, Forall2_app; [exact Yp|constructor; [apply disj_run; exact Ym|exact Yw]]|].
    pose proof (andOr_flat true us ms ws H) as Q. cbn [negb] in Q. rewrite Q. apply disj_run. repeat apply Forall2_app; assumption.
Qed.
(** With an empty operand before a null the two differ. *)
Theorem C176_flat_refuted : forall E c, let n := konst (VNull NNull) in let e := konst VEmpty in
  yields E c (conj_ [n; conj_ [e; n]]) (VNull NNull) /\ yields E c (conj_ [n; e; n]) (VNull NBadType) /\
  yields E c (disj_ [n; disj_ [e; konst (VBool true)]]) (VBool true) /\ yields E c (disj_ [n; e; konst (VBool true)]) (VNull NBadType).
Proof.
  intros E c n e. unfold n, e. pose proof (konsts_yield E c [VEmpty; VNull NNull]) as Y1. pose proof (konsts_yield E c [VEmpty; VBool true]) as Y2.
  pose proof (konst_yields E c (VNull NNull)) as Y3. splits.
  - apply (conj_run E c _ [VNull NNull; VNull NNull]). constructor; [exact Y3|constructor; [apply (conj_run E c _ _ Y1)|constructor]].
  - apply (conj_run E c _ _ (konsts_yield E c [VNull NNull; VEmpty; VNull NNull])).
  - apply (disj_run E c _ [VNull NNull; VBool true]). constructor; [exact Y3|constructor; [apply (disj_run E c _ _ Y2)|constructor]].
  - apply (disj_run E c _ _ (konsts_yield E c [VNull NNull; VEmpty; VBool true])).
Qed.
Example C176_flat_ex : forall E c, let t := konst (VBool true) in let n := konst (VNull NNull) in
  same_ E c (conj_ [t; conj_ [n; t]; konst (VInt 5)]) (conj_ [t; n; t; konst (VInt 5)]) /\ yields E c (conj_ [t; n; t; konst (VInt 5)]) (VNull NBadType).
Proof.
  intros E c t n. unfold t, n. split.
  - apply (C176_flat E c [konst (VBool true)] [konst (VNull NNull); konst (VBool true)] [konst (VInt 5)] [VBool true] [VNull NNull; VBool true] [VInt 5]);
      try apply (konsts_yield E c [VBool true]); try apply (konsts_yield E c [VNull NNull; VBool true]); try apply (konsts_yield E c [VInt 5]).
    repeat constructor; discriminate.
  - apply (conj_run E c _ _ (konsts_yield E c [VBool true; VNull NNull; VBool true; VInt 5])).
Qed.

(** NOT before a comparison. *)
Definition opposite (o : rel) : option rel :=
  match o with OEQ => Some ONE | ONE => Some OEQ | OLT => Some OGE | OGE => Some OLT | OLE => Some OGT | OGT => Some OLE | _ => None end.
Lemma eq_logical X a b : logical (vequal X a b).
Proof. unfold vequal. destruct (isEmpty a); [destruct (isNull b); exact I|]. destruct (isNull a || isNull b); [exact I|]. destruct (_ && _); [exact I|]. destruct a, b; exact I. Qed.
Lemma lt_logical X a b : logical (vlessThan X a b).
Proof.
  unfold vlessThan. destruct (isEmpty a || isEmpty b); [destruct (isNull b || isNull a); exact I|]. destruct (isNull a || isNull b); [exact I|]. destruct (_ && _); [exact I|]. destruct a, b; exact I.
Qed.
Lemma or_not x y : logical x -> logical y -> vnot (vorOp x y) = vandOp (vnot x) (vnot y).
Proof. destruct x as [| |[]| | | | | | | | | | | | |], y as [| |[]| | | | | | | | | | | | |]; intros [] []; reflexivity. Qed.
Lemma and_not x y : logical x -> logical y -> vnot (vandOp x y) = vorOp (vnot x) (vnot y).
Proof. destruct x as [| |[]| | | | | | | | | | | | |], y as [| |[]| | | | | | | | | | | | |]; intros [] []; reflexivity. Qed.
Lemma not_logical x : logical x -> logical (vnot x).
Proof. destruct x; intros []; exact I. Qed.
(** The opposite of ==, !=, <= and > is !=, ==, > and <=, whatever the operands; that of < and >= is >= and < unless the two
    operands are both less and equal at the same time. *)
Theorem C176_not_compare : forall E c o o' l r a b, opposite o = Some o' -> yields E c l a -> yields E c r b ->
  (o = OLT \/ o = OGE -> ~ (relYields E c OLT l r (VBool true) /\ relYields E c OEQ l r (VBool true))) ->
  same_ E c (inv (cmp o l r)) (cmp o' l r).
Proof.
  intros E c o o' l r a b Q Yl Yr N. pose proof (lt_logical (eX E) a b) as L. pose proof (eq_logical (eX E) a b) as M.
  assert (N' : o = OLT \/ o = OGE -> ~ (vlessThan (eX E) a b = VBool true /\ vequal (eX E) a b = VBool true)).
  { intros H [A B]. destruct (N H). split; (eapply rel_run; [exact Yl|exact Yr|]); cbn [vrel]; [rewrite A|rewrite B]; reflexivity. }
  clear N. set (x := vlessThan (eX E) a b) in *. set (y := vequal (eX E) a b) in *.
  assert (K : o = OLT \/ o = OGE -> vorOp (vnot x) y = vnot x).
  { intros H. specialize (N' H). unfold x in *. clear x. unfold vlessThan, y, vequal in *. destruct (isEmpty a) eqn:Ea.
    - cbn [orb] in *. destruct a; try discriminate Ea. cbn [isNull orb] in *. destruct (isNull b) eqn:Eb; cbn [orb vnot vorOp]; [reflexivity|]. reflexivity.
    - cbn [orb] in *. destruct (isEmpty b) eqn:Eb.
      + destruct b; try discriminate Eb. cbn [isNull orb] in *. rewrite orb_false_r in *. destruct (isNull a) eqn:Na; [reflexivity|].
        destruct a; try discriminate Ea; try discriminate Na; reflexivity.
      + destruct (isNull a || isNull b); [reflexivity|]. destruct (_ && _); [reflexivity|].
        destruct a, b; try reflexivity; cbn [vnot vorOp]; f_equal;
          match goal with |- negb ?p || ?q = negb ?p => destruct p, q; try reflexivity; destruct N'; split; reflexivity end. }
  assert (G : exists v, vrel E o a b = Ret v /\ vrel E o' a b = Ret (vnot v)).
  { destruct o; try discriminate Q; injection Q as <-; cbn [vrel]; fold x y; (eexists; split; [reflexivity|]).
    - reflexivity.
    - rewrite vnot_vnot by exact M. reflexivity.
    - rewrite K by (left; reflexivity). reflexivity.
    - rewrite or_not by assumption. reflexivity.
    - rewrite and_not by (apply not_logical; assumption). rewrite !vnot_vnot by assumption. reflexivity.
    - rewrite K by (right; reflexivity). rewrite vnot_vnot by exact L. reflexivity. }
  destruct G as (v & G1 & G2). exists (vnot v). split; [apply inv_run|]; eapply rel_run; eassumption.
Qed.
(** Only graph elements and collections can be both: two Booleans, numbers, texts, dates or times never are. *)
Definition simple (v : value) : Prop := match v with VBool _ | VInt _ | VFloat _ | VStr _ | VDate _ | VTime _ | VDateTime _ | VNull _ | VEmpty => True | _ => False end.
Theorem C176_less_or_equal : forall E c l r a b, yields E c l a -> yields E c r b -> simple a ->
  ~ (relYields E c OLT l r (VBool true) /\ relYields E c OEQ l r (VBool true)).
Proof.
  intros E c l r a b Yl Yr S [A B]. apply (rel_inv _ _ _ _ _ _ _ _ Yl Yr) in A, B. cbn [vrel] in A, B. apply Ret_inj in A, B.
  destruct (compareValues a b) as [t|] eqn:T.
  - destruct (scalar_rel (eX E) a b t T) as [A' B']. rewrite A' in A. rewrite B' in B. destruct t; discriminate.
  - destruct a, b; try contradiction; try discriminate A; try discriminate B; try discriminate T; cbn in A, B; injection A as A; injection B as B;
      rewrite farLt_spec, B in A; rewrite andb_false_r in A; discriminate A.
Qed.
(** An edge and its reversal are both less and equal. *)
Theorem C176_not_compare_refuted : exists a b, forall E c,
  yields E c (inv (cmp OLT (konst a) (konst b))) (VBool false) /\ yields E c (cmp OGE (konst a) (konst b)) (VBool true) /\
  yields E c (inv (cmp OGE (konst a) (konst b))) (VBool false) /\ yields E c (cmp OLT (konst a) (konst b)) (VBool true).
Proof.
  exists (VEdge (mkEdge (VStr [97]) (VStr [98]) 1 [] 0 [])), (VEdge (mkEdge (VStr [98]) (VStr [97]) (-1) [] 0 [])).
  intros E c. splits; try (eapply rel_run; [apply konst_yields..|reflexivity]);
    apply (inv_run _ _ _ (VBool true)); (eapply rel_run; [apply konst_yields..|reflexivity]).
Qed.
Example C176_ex : forall E c, let nan := konst (VFloat S754_nan) in let one := konst (VInt 1) in
  same_ E c (inv (cmp OLT nan one)) (cmp OGE nan one) /\ same_ E c (inv (cmp OLE one (konst VEmpty))) (cmp OGT one (konst VEmpty)) /\
  yields E c (cmp OGE nan one) (VBool true) /\ yields E c (cmp OGT one (konst VEmpty)) VEmpty.
Proof.
  intros E c nan one. unfold nan, one. splits.
  - eapply C176_not_compare; [reflexivity|apply konst_yields..|]. intros _. eapply C176_less_or_equal; [apply konst_yields..|exact I].
  - eapply C176_not_compare; [reflexivity|apply konst_yields..|]. intros [H|H]; discriminate H.
  - eapply rel_run; [apply konst_yields..|reflexivity].
  - eapply rel_run; [apply konst_yields..|reflexivity].
Qed.
Print Assumptions C175_swap. Print Assumptions C175_minus. Print Assumptions C175_double_minus. Print Assumptions C175_group. Print Assumptions C175_move.
Print Assumptions C175_swap_refuted. Print Assumptions C175_minus_refuted. Print Assumptions C175_double_minus_refuted. Print Assumptions C175_group_refuted. Print Assumptions C175_move_refuted.
Print Assumptions C176_de_morgan. Print Assumptions C176_double_not. Print Assumptions C176_flat. Print Assumptions C176_flat_refuted.
Print Assumptions C176_not_compare. Print Assumptions C176_less_or_equal. Print Assumptions C176_not_compare_refuted.
