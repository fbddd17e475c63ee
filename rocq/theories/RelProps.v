(** Theorems about the relational operators (C34). *)
From Verif Require Import ValueBase FloatProofs DateModel TimeModel ValueModel ValueProofs ValueProps GraphModel ExprModel EvalModel EvalSpec EvalProofs EvalProps.
Local Open Scope list_scope.
Local Open Scope Z_scope.

(** * Specification: the ordering of two comparable scalars *)
(** lexicographic comparison *)
Fixpoint lexCompare (x y : list Z) : comparison :=
  match x, y with
  | [], [] => Eq | [], _ => Lt | _, [] => Gt
  | a :: x', b :: y' => match a ?= b with Eq => lexCompare x' y' | t => t end
  end.
Definition floatOf (v : value) : option f64 := match v with VInt z => Some (f64ofZ z) | VFloat f => Some f | _ => None end.
Definition infinite (f : f64) : bool := match f with S754_infinity _ => true | _ => false end.
(** doubles: no NaN, not two infinities; closer than kEpsilon is equal *)
Definition floatCompare (a b : f64) : option comparison :=
  if f64isNaN a || f64isNaN b || (infinite a && infinite b) then None
  else Some (if f64ltb (f64abs (f64sub a b)) kEpsilon then Eq else if f64ltb a b then Lt else Gt).
Definition compareValues (a b : value) : option comparison :=
  match a, b with
  | VBool x, VBool y => Some (Z.b2z x ?= Z.b2z y)
  | VInt x, VInt y => Some (x ?= y)
  | VInt x, VFloat y => floatCompare (f64ofZ x) y
  | VFloat x, VInt y => floatCompare x (f64ofZ y)
  | VFloat x, VFloat y => floatCompare x y
  | VStr x, VStr y => Some (lexCompare x y)
  | VDate x, VDate y => Some (lexCompare [year x; month x; day x] [year y; month y; day y])
  | VTime x, VTime y => Some (lexCompare [thour x; tminute x; tsec x; tmicro x] [thour y; tminute y; tsec y; tmicro y])
  | VDateTime x, VDateTime y =>
      Some (lexCompare [dyear x; dmonth x; dday x; dhour x; dminute x; dsec x; dmicro x] [dyear y; dmonth y; dday y; dhour y; dminute y; dsec y; dmicro y])
  | _, _ => None
  end.
Definition relYields (E : env) (c : ctx) (o : rel) (l r : expr) (v : value) : Prop := yields E c (Node (KRel o) [l; r]) v.
Definition isLt (t : comparison) := match t with Lt => true | _ => false end.
Definition isEqual (t : comparison) := match t with Eq => true | _ => false end.
Definition isGt (t : comparison) := match t with Gt => true | _ => false end.

(** * Proofs *)
Lemma rel_run : forall E c o l r a b v, yields E c l a -> yields E c r b -> vrel E o a b = Ret v -> relYields E c o l r v.
Proof.
  intros E c o l r a b v Yl Yr H. apply run_node with (v := v); auto. intros r0. exists v. cbn [evalNode].
  eapply gives_bind; [eapply gives_child; [reflexivity|exact Yl]|].
  eapply gives_bind; [eapply gives_child; [reflexivity|exact Yr]|].
  eapply gives_bind; [apply gives_lift; exact H|apply gives_ret].
Qed.
Lemma lex_str : forall x y, strLtb x y = isLt (lexCompare x y) /\ strEqb x y = isEqual (lexCompare x y).
Proof.
  induction x as [|a x IH]; intros [|b y]; try (split; reflexivity). destruct (IH y) as [A B].
  cbn [strLtb strEqb lexCompare]. destruct (Z.compare_spec a b) as [H|H|H].
  - subst b. rewrite Z.ltb_irrefl, Z.eqb_refl. cbn [orb andb]. auto.
  - rewrite (proj2 (Z.ltb_lt a b)) by lia. rewrite (proj2 (Z.eqb_neq a b)) by lia. auto.
  - rewrite (proj2 (Z.ltb_ge a b)) by lia. rewrite (proj2 (Z.eqb_neq a b)) by lia. auto.
Qed.
Lemma lex_lexLt : forall x y, length x = length y -> lexLt x y = isLt (lexCompare x y).
Proof.
  induction x as [|a x IH]; intros [|b y] L; try discriminate L; [reflexivity|]. injection L as L.
  cbn [lexLt lexCompare]. destruct (Z.compare_spec a b) as [H|H|H].
  - subst b. rewrite Z.eqb_refl. cbn [negb]. auto.
  - rewrite (proj2 (Z.eqb_neq a b)) by lia. cbn [negb]. now apply Z.ltb_lt.
  - rewrite (proj2 (Z.eqb_neq a b)) by lia. cbn [negb]. apply Z.ltb_ge. lia.
Qed.
Lemma lex_eq : forall x y, lexCompare x y = Eq <-> x = y.
Proof.
  induction x as [|a x IH]; intros [|b y]; cbn; split; intros H; try discriminate H; auto.
  - destruct (Z.compare_spec a b) as [K|K|K]; try discriminate H. subst. f_equal. now apply IH.
  - injection H as -> ->. rewrite Z.compare_refl. now apply IH.
Qed.
Lemma lex_anti : forall x y, lexCompare y x = CompOpp (lexCompare x y).
Proof.
  induction x as [|a x IH]; intros [|b y]; auto. cbn [lexCompare]. rewrite (Z.compare_antisym a b), IH. now destruct (a ?= b).
Qed.
Lemma isEqual_iff : forall t b, (b = true <-> t = Eq) -> b = isEqual t.
Proof. intros [] [] H; auto; cbn; destruct H; try (now rewrite H0); try (now discriminate H). Qed.
Lemma dateEq_lex : forall x y, dateEq x y = isEqual (lexCompare [year x; month x; day x] [year y; month y; day y]).
Proof.
  intros x y. apply isEqual_iff. rewrite lex_eq. unfold dateEq. rewrite !andb_true_iff, !Z.eqb_eq. split; [intros [[-> ->] ->]; auto|intros H; now injection H].
Qed.
Lemma timeEq_lex : forall x y, timeEq x y = isEqual (lexCompare [thour x; tminute x; tsec x; tmicro x] [thour y; tminute y; tsec y; tmicro y]).
Proof.
  intros x y. apply isEqual_iff. rewrite lex_eq. unfold timeEq. rewrite !andb_true_iff, !Z.eqb_eq. split; [intros [[[-> ->] ->] ->]; auto|intros H; now injection H].
Qed.
Lemma dtEq_lex : forall x y, dtEq x y = isEqual (lexCompare (dtFields x) (dtFields y)).
Proof.
  intros x y. apply isEqual_iff. rewrite lex_eq. unfold dtEq, dtFields. rewrite !andb_true_iff, !Z.eqb_eq.
  split; [intros [[[[[[-> ->] ->] ->] ->] ->] ->]; auto|intros H; injection H; intros; repeat split; assumption].
Qed.
Lemma float_rel : forall a b t, floatCompare a b = Some t -> farLt a b = isLt t /\ nearEq a b = isEqual t.
Proof.
  intros a b t H. rewrite farLt_spec. unfold floatCompare in H. destruct (_ || _) eqn:N; [discriminate H|]. injection H as <-.
  fold (nearEq a b). destruct (nearEq a b); cbn; [now rewrite andb_false_r|]. rewrite andb_true_r. destruct (f64ltb a b); auto.
Qed.
Lemma scalar_rel : forall X a b t, compareValues a b = Some t -> vlessThan X a b = VBool (isLt t) /\ vequal X a b = VBool (isEqual t).
Proof.
  intros X a b t H. destruct a; destruct b; try discriminate H; cbn [compareValues] in H.
  - injection H as <-. destruct b, b0; auto.
  - injection H as <-. change (VBool (z <? z0) = VBool (isLt (z ?= z0)) /\ VBool (z =? z0) = VBool (isEqual (z ?= z0))).
    unfold Z.ltb. rewrite Z.eqb_compare. destruct (z ?= z0); auto.
  - apply float_rel in H as [A B]. change (VBool (farLt (f64ofZ z) f) = VBool (isLt t) /\ VBool (nearEq (f64ofZ z) f) = VBool (isEqual t)). now rewrite A, B.
  - apply float_rel in H as [A B]. change (VBool (farLt f (f64ofZ z)) = VBool (isLt t) /\ VBool (nearEq f (f64ofZ z)) = VBool (isEqual t)). now rewrite A, B.
  - apply float_rel in H as [A B]. change (VBool (farLt f f0) = VBool (isLt t) /\ VBool (nearEq f f0) = VBool (isEqual t)). now rewrite A, B.
  - injection H as <-. change (VBool (strLtb s s0) = VBool (isLt (lexCompare s s0)) /\ VBool (strEqb s s0) = VBool (isEqual (lexCompare s s0))).
    destruct (lex_str s s0) as [A B]. now rewrite A, B.
  - match type of H with Some ?q = _ => assert (t = q) as -> by congruence end. clear H.
    match goal with |- vlessThan _ (VDate ?x) (VDate ?y) = VBool ?p /\ _ = VBool ?q => change (VBool (dateLt x y) = VBool p /\ VBool (dateEq x y) = VBool q) end.
    rewrite dateEq_lex, <- lex_lexLt by reflexivity. split; reflexivity.
  - match type of H with Some ?q = _ => assert (t = q) as -> by congruence end. clear H.
    match goal with |- vlessThan _ (VTime ?x) (VTime ?y) = VBool ?p /\ _ = VBool ?q => change (VBool (timeLt x y) = VBool p /\ VBool (timeEq x y) = VBool q) end.
    rewrite timeEq_lex, <- lex_lexLt by reflexivity. split; reflexivity.
  - match type of H with Some ?q = _ => assert (t = q) as -> by congruence end. clear H.
    match goal with |- vlessThan _ (VDateTime ?x) (VDateTime ?y) = VBool ?p /\ _ = VBool ?q => change (VBool (dtLt x y) = VBool p /\ VBool (dtEq x y) = VBool q) end.
    rewrite dtEq_lex, <- lex_lexLt by reflexivity. split; reflexivity.
Qed.

(** * C34 *)
(** Two comparable scalars are related in exactly one of three ways, and all six operators report it. *)
Theorem C34_trichotomy : forall E c l r a b t, yields E c l a -> yields E c r b -> compareValues a b = Some t ->
  relYields E c OLT l r (VBool (isLt t)) /\ relYields E c OEQ l r (VBool (isEqual t)) /\ relYields E c OGT l r (VBool (isGt t)) /\
  relYields E c OLE l r (VBool (isLt t || isEqual t)) /\ relYields E c OGE l r (VBool (isGt t || isEqual t)) /\
  relYields E c ONE l r (VBool (negb (isEqual t))).
Proof.
  intros E c l r a b t Yl Yr H. destruct (scalar_rel (eX E) a b t H) as [A B].
  splits; (eapply rel_run; [exact Yl|exact Yr|]); cbn [vrel]; rewrite ?A, ?B; destruct t; reflexivity.
Qed.
(** Exchanging the operands exchanges less and greater. *)
Lemma compare_anti : forall a b, f64isNaN a = false -> f64isNaN b = false -> exists c, SFcompare a b = Some c /\ SFcompare b a = Some (CompOpp c).
Proof.
  intros [s|s| |s m e] [t|t| |t n f] Ha Hb; try discriminate; cbn [SFcompare]; eexists; (split; [reflexivity|]);
    try (destruct s; reflexivity); try (destruct t; reflexivity); try (destruct s, t; reflexivity).
  change (Pos.compare_cont Eq) with Pos.compare. rewrite (Z.compare_antisym e f), (Pos.compare_antisym m n).
  destruct s, t; cbn; auto; destruct (e ?= f), (m ?= n)%positive; reflexivity.
Qed.
Lemma compare_same : forall a b, SFcompare a b = Some Eq -> infinite a && infinite b = false -> f64abs (f64sub a b) = S754_zero false.
Proof.
  intros [s|s| |s m e] [t|t| |t n f] H N; try (cbn in H; discriminate H); try (cbn in H; destruct s; discriminate H);
    try (cbn in H; destruct t; discriminate H); try discriminate N.
  - destruct s, t; reflexivity.
  - cbn [SFcompare] in H. change (Pos.compare_cont Eq) with Pos.compare in H.
    assert (s = t /\ e = f /\ m = n) as [-> [-> ->]].
    { destruct s, t; try discriminate H; destruct (Z.compare_spec e f) as [K|K|K]; try discriminate H; subst f;
        destruct (Pos.compare_spec m n) as [K|K|K]; try discriminate H; subst n; auto. }
    unfold f64sub, SFsub. rewrite Z.min_id. cbv zeta. rewrite Z.sub_diag. reflexivity.
Qed.
Lemma floatCompare_anti : forall a b, floatCompare b a = option_map CompOpp (floatCompare a b).
Proof.
  intros a b. unfold floatCompare. rewrite (orb_comm (f64isNaN b)), (andb_comm (infinite b)).
  destruct (_ || _) eqn:N; [reflexivity|]. cbn [option_map]. f_equal. rewrite (f64sub_abs_sym b a).
  rewrite !orb_false_iff in N. destruct N as [[Na Nb] Ni].
  destruct (compare_anti a b Na Nb) as [c [C1 C2]]. pose proof (compare_same a b) as S. rewrite C1 in S.
  unfold f64ltb at 2 4. unfold SFltb. rewrite C1, C2. destruct c; cbn [CompOpp].
  - rewrite S by auto. reflexivity.
  - destruct (f64ltb _ _); reflexivity.
  - destruct (f64ltb _ _); reflexivity.
Qed.
Theorem C34_antisymmetric : forall a b, compareValues b a = option_map CompOpp (compareValues a b).
Proof.
  intros a b. destruct a; destruct b; try reflexivity; cbn [compareValues option_map]; try apply floatCompare_anti;
    try (now rewrite lex_anti); f_equal; apply Z.compare_antisym.
Qed.
(** A null operand makes all six null. *)
Theorem C34_null : forall E c o l r a b, yields E c l a -> yields E c r b -> isNull a = true \/ isNull b = true ->
  In o [OEQ; ONE; OLT; OLE; OGT; OGE] -> relYields E c o l r (VNull NNull).
Proof.
  intros E c o l r a b Yl Yr H I. eapply rel_run; [exact Yl|exact Yr|].
  assert (Q : vequal (eX E) a b = VNull NNull) by (rewrite C13_equal; destruct H as [-> | ->]; rewrite ?orb_true_r; reflexivity).
  assert (L : vlessThan (eX E) a b = VNull NNull) by (rewrite C13_lessThan; destruct H as [-> | ->]; rewrite ?orb_true_r; reflexivity).
  cbn in I. intuition (subst o); cbn [vrel]; rewrite ?Q, ?L; reflexivity.
Qed.
(** For values of any type: when < and == have truth values, the others are combined from them. *)
Theorem C34_derived : forall E c l r a b x y, yields E c l a -> yields E c r b ->
  relYields E c OLT l r (VBool x) -> relYields E c OEQ l r (VBool y) ->
  relYields E c OLE l r (VBool (x || y)) /\ relYields E c ONE l r (VBool (negb y)) /\
  relYields E c OGT l r (VBool (negb (x || y))) /\ relYields E c OGE l r (VBool (negb x || y)).
Proof.
  intros E c l r a b x y Yl Yr HL HE.
  assert (L : vlessThan (eX E) a b = VBool x) by (apply (yields_unique E c (Node (KRel OLT) [l; r])); auto; now apply rel_run with a b).
  assert (Q : vequal (eX E) a b = VBool y) by (apply (yields_unique E c (Node (KRel OEQ) [l; r])); auto; now apply rel_run with a b).
  splits; (eapply rel_run; [exact Yl|exact Yr|]); cbn [vrel]; rewrite ?Q, ?L; cbn; rewrite ?negb_orb; reflexivity.
Qed.
Example C34_ex : compareValues (VInt 3) (VFloat (f64ofZ 4)) = Some Lt /\ compareValues (VStr [97; 98]) (VStr [97]) = Some Gt /\
  compareValues (VFloat eps06) (VInt 0) = Some Eq /\ compareValues (VDate (mkDate 2020 2 29)) (VDate (mkDate 2020 3 1)) = Some Lt /\
  relYields E0 [] OGT (konst (VInt 4)) (konst (VFloat (f64ofZ 3))) (VBool true).
Proof. splits; try reflexivity. caches. Qed.

(** An edge and its reversal are equal and less at once. *)
Theorem C34_exactly_one_refuted : exists a b, forall E c,
  relYields E c OLT (konst a) (konst b) (VBool true) /\ relYields E c OEQ (konst a) (konst b) (VBool true).
Proof.
  exists (VEdge (mkEdge (VStr [97]) (VStr [98]) 1 [] 0 [])), (VEdge (mkEdge (VStr [98]) (VStr [97]) (-1) [] 0 [])).
  intros E c. split; (eapply rel_run; [apply konst_yields|apply konst_yields|reflexivity]).
Qed.
(** NaN is greater than 1 and 1 is greater than NaN; infinity is greater than itself. *)
Theorem C34_greater_refuted : exists nan inf, forall E c,
  relYields E c OGT (konst nan) (konst (VInt 1)) (VBool true) /\ relYields E c OGT (konst (VInt 1)) (konst nan) (VBool true) /\
  relYields E c OGT (konst inf) (konst inf) (VBool true).
Proof.
  exists (VFloat S754_nan), (VFloat (S754_infinity false)).
  intros E c. splits; (eapply rel_run; [apply konst_yields|apply konst_yields|reflexivity]).
Qed.
Print Assumptions C34_trichotomy. Print Assumptions C34_antisymmetric. Print Assumptions C34_null. Print Assumptions C34_derived.
