(** Theorems about comparing and copying expression trees (C79, C80). *)
From Verif Require Import Prelude ValueBase DateModel TimeModel ValueModel ValueProofs GraphModel ExprModel ExprSpec ExprProofs EvalModel EvalProofs EvalProps AggModel CloneModel CloneSpec CloneProofs.
From Coq Require Import Lia String.
Local Open Scope string_scope.
Local Open Scope list_scope.
Local Open Scope Z_scope.

(** * C79 *)
(** Two trees, each as its classes build it and with constants that are equal only to themselves, are equal exactly if they are
    the same tree up to the original text, the inner flag of a variable and the distinct flag of an aggregate. *)
Theorem C79_decides_sameness : forall X a b, built a -> built b -> exactConsts a -> exactConsts b ->
  exists r, exprEq X a b = Ret r /\ (r = true <-> erase a = erase b).
Proof. exact exprEq_spec. Qed.
(** hence an equivalence *)
Theorem C79_equivalence : forall X a b c, built a -> built b -> built c -> exactConsts a -> exactConsts b -> exactConsts c ->
  exprEq X a a = Ret true /\ exprEq X a b = exprEq X b a /\ (exprEq X a b = Ret true -> exprEq X b c = Ret true -> exprEq X a c = Ret true).
Proof.
  intros X a b c Ba Bb Bc Ea Eb Ec.
  destruct (exprEq_spec X a a Ba Ba Ea Ea) as (r1 & E1 & H1). destruct (exprEq_spec X a b Ba Bb Ea Eb) as (r2 & E2 & H2).
  destruct (exprEq_spec X b a Bb Ba Eb Ea) as (r3 & E3 & H3). destruct (exprEq_spec X b c Bb Bc Eb Ec) as (r4 & E4 & H4).
  destruct (exprEq_spec X a c Ba Bc Ea Ec) as (r5 & E5 & H5). rewrite E1, E2, E3, E4, E5.
  split; [f_equal; apply H1; reflexivity|]. split.
  - f_equal. apply eq_true_iff_eq. rewrite H2, H3. split; congruence.
  - intros P Q. apply Ret_inj in P. apply Ret_inj in Q. f_equal. apply H5. rewrite (proj1 H2 P). apply H4, Q.
Qed.
(** Equal trees evaluate alike: the same value, the same stored results and the same variables afterwards, or the same end of
    the process. *)
Theorem C79_equal_evaluates_equally : forall X a b, built a -> built b -> exactConsts a -> exactConsts b -> exprEq X a b = Ret true ->
  forall E k c, eval E a k c = eval E b k c.
Proof.
  intros X a b Ba Bb Ea Eb H E k c. destruct (exprEq_spec X a b Ba Bb Ea Eb) as (r & G & Hr). rewrite H in G. apply Ret_inj in G. subst r.
  rewrite <- (eval_erase E a), <- (eval_erase E b), (proj1 Hr eq_refl). reflexivity.
Qed.
Definition exPred (org : str) (n : Z) : expr :=
  Node (KPredicate (B "any") (B "x") org true) [Node KList [konst (VInt 1); konst (VInt n)]; Node (KRel OGT) [Node (KVar (B "x") true) []; konst (VInt 3)]].
Example C79_ex : built (exPred (B "a") 5) /\ exactConsts (exPred (B "a") 5) /\ exPred (B "a") 5 <> exPred (B "b") 5
  /\ exprEq exX (exPred (B "a") 5) (exPred (B "b") 5) = Ret true /\ exprEq exX (exPred (B "a") 5) (exPred (B "a") 2) = Ret false
  /\ (exists k c, eval E0 (exPred (B "a") 5) noCache [] = Ret (VBool true, k, c)) /\ (exists k c, eval E0 (exPred (B "a") 2) noCache [] = Ret (VBool false, k, c)).
Proof.
  splits; try (vm_compute; intuition; fail); try (do 2 eexists; vm_compute; reflexivity); try (vm_compute; reflexivity).
  intros H. vm_compute in H. discriminate H.
Qed.

(** False for trees in general. *)
Definition half (one : value) : expr := Node (KArith ODivision) [konst one; konst (VInt 2)].
(** 1 / 2 and 1.0 / 2 are equal and evaluate to 0 and 0.5 *)
Theorem C79_evaluates_equally_refuted : built (half (VInt 1)) /\ built (half (VFloat (f64ofZ 1)))
  /\ (forall X, exprEq X (half (VInt 1)) (half (VFloat (f64ofZ 1))) = Ret true)
  /\ (exists k c, eval E0 (half (VInt 1)) noCache [] = Ret (VInt 0, k, c))
  /\ (exists k c f, eval E0 (half (VFloat (f64ofZ 1))) noCache [] = Ret (VFloat f, k, c)).
Proof.
  splits; try (vm_compute; intuition; fail); try (intros X; vm_compute; reflexivity); try (do 2 eexists; vm_compute; reflexivity).
  do 3 eexists. vm_compute. reflexivity.
Qed.
(** a tree with a NaN constant is not equal to its own copy *)
Theorem C79_reflexive_refuted : forall X, built (konst (VFloat S754_nan)) /\ exprEq X (konst (VFloat S754_nan)) (konst (VFloat S754_nan)) = Ret false.
Proof. intros X. split; [vm_compute; auto|vm_compute; reflexivity]. Qed.
(** count(x) and count(distinct x) are equal; over the rows 1, 1 they are 2 and 1 *)
Theorem C79_aggregates_refuted : forall X, let agg d := Node (KAggregate (B "COUNT") d) [Node (KColumn 0) []] in
  built (agg true) /\ built (agg false) /\ exprEq X (agg true) (agg false) = Ret true
  /\ aggValue X ACount true [VInt 1; VInt 1] = Ret (VInt 1) /\ aggValue X ACount false [VInt 1; VInt 1] = Ret (VInt 2).
Proof. intros X. cbv zeta. splits; vm_compute; auto. Qed.
(** a versioned variable without a version and an aggregate without an argument: a missing pointer is dereferenced *)
Theorem C79_defined_refuted : forall X, exprEq X (Node (KVersioned (B "v") false) []) (Node (KVersioned (B "v") false) []) = UB
  /\ exprEq X (Node (KAggregate (B "COUNT") false) []) (Node (KAggregate (B "COUNT") false) []) = UB.
Proof. intros X. split; vm_compute; reflexivity. Qed.
(** two text search expressions are never equal *)
Theorem C79_text_search_refuted : forall X k, exprEq X (Node (KTextSearch k) []) (Node (KTextSearch k) []) = Ret false.
Proof. intros X k. unfold exprEq, nodeEq. cbn [kindNo]. rewrite Z.eqb_refl. reflexivity. Qed.

(** Text search arguments compare equal exactly if value, operator, fuzziness, limit and time limit agree. *)
Theorem C79_text_argument : forall a b, tsArgEq a b = true <->
  tsVal a = tsVal b /\ tsOp a = tsOp b /\ tsFuzz a = tsFuzz b /\ tsLimit a = tsLimit b /\ tsTimeout a = tsTimeout b.
Proof. intros a b. unfold tsArgEq. rewrite !andb_true_iff, !strEqb_iff, !Z.eqb_eq. tauto. Qed.
(** What is searched for in which property is not compared. *)
Theorem C79_text_argument_refuted : exists a b, tsArgEq a b = true /\ tsFrom a <> tsFrom b /\ tsProp a <> tsProp b.
Proof. exists (tsMake (B "t") (B "p") (B "v")), (tsMake (B "u") (B "q") (B "v")). splits; vm_compute; [reflexivity| |]; discriminate. Qed.

(** * C80 *)
(** The copy of a tree as its classes build it is the tree. *)
Theorem C80_copy_is_same : forall e, built e -> clone e = Ret e.
Proof. exact clone_built. Qed.
(** and compares equal to it *)
Theorem C80_copy_is_equal : forall X e, built e -> exactConsts e -> exists e', clone e = Ret e' /\ exprEq X e' e = Ret true /\ forall E k c, eval E e' k c = eval E e k c.
Proof.
  intros X e Be Ee. exists e. split; [now apply clone_built|]. split; [|reflexivity].
  destruct (exprEq_spec X e e Be Be Ee Ee) as (r & -> & H). f_equal. now apply H.
Qed.
Example C80_ex : built (exPred (B "a") 5) /\ clone (exPred (B "a") 5) = Ret (exPred (B "a") 5)
  /\ clone (Node (KProp PEdgeSrc [] (B "e") (B "other")) []) = Ret (Node (KProp PEdgeSrc [] (B "e") (B "_src")) []).
Proof. splits; vm_compute; auto; intuition. Qed.
(** The copy of any tree, a decoded one included, has the members that its classes decide. *)
Theorem C80_copy_is_made : forall e e', clone e = Ret e' ->
  allNodes (fun k _ => match k with KProp p r s pr => fixedMembers p r s pr | _ => True end) e'.
Proof.
  induction e as [k cs IH] using expr_ind'. intros e' H. cbn [clone] in H.
  destruct (obindList (map clone cs)) as [ds| | |] eqn:L; cbn [obind] in H; try discriminate H.
  assert (D : Forall (allNodes (fun k _ => match k with KProp p r s pr => fixedMembers p r s pr | _ => True end)) ds).
  { clear H. revert ds L. induction IH as [|c cs Hc _ IHl]; intros ds L; cbn [map obindList] in L; [injection L as <-; constructor|].
    change ((fix go l := match l with [] => Ret [] | x :: l' => obind x (fun a => obind (go l') (fun r => Ret (a :: r))) end) (map clone cs)) with (obindList (map clone cs)) in L.
    destruct (clone c) as [d| | |] eqn:Ec; cbn [obind] in L; try discriminate L.
    destruct (obindList (map clone cs)) as [ds'| | |] eqn:El; cbn [obind] in L; try discriminate L. injection L as <-. constructor; auto. }
  destruct k; cbn [cloneNode] in H;
    try (injection H as <-; split; [exact I|rewrite fold_and_Forall; first [exact D|constructor]]; fail).
  - injection H as <-. destruct p; split; cbn; auto.
  - destruct ds as [|d [|? ?]]; try discriminate H. injection H as <-. split; [exact I|rewrite fold_and_Forall; exact D].
  - destruct ds as [|d [|? ?]]; try discriminate H. injection H as <-. split; [exact I|rewrite fold_and_Forall; exact D].
Qed.
Example C80_made_ex : clone (Node (KProp PInput (B "$") (B "x") (B "p")) []) = Ret (Node (KProp PInput (B "$-") [] (B "p")) []).
Proof. reflexivity. Qed.
(** A text search argument loses its operator, fuzziness, limit and time limit, and the copy of the argument is not equal to it *)
Theorem C80_text_search_refuted : exists a, tsClone a <> a /\ tsArgEq (tsClone a) a = false
  /\ tsOp (tsClone a) <> tsOp a /\ tsFuzz (tsClone a) <> tsFuzz a /\ tsLimit (tsClone a) <> tsLimit a /\ tsTimeout (tsClone a) <> tsTimeout a.
Proof. exists (mkTs (B "t") (B "p") (B "v") (B "or") 1 10 20). splits; vm_compute; auto; discriminate. Qed.
(** ... and only these: with the defaults the copy is the argument *)
Theorem C80_text_search_defaults : forall f p v, tsClone (tsMake f p v) = tsMake f p v /\ tsArgEq (tsMake f p v) (tsMake f p v) = true.
Proof. intros f p v. split; [reflexivity|]. unfold tsArgEq. cbn. rewrite (proj2 (strEqb_iff v v) eq_refl). reflexivity. Qed.
(** A versioned variable without a version and an aggregate without an argument cannot be copied *)
Theorem C80_defined_refuted : clone (Node (KVersioned (B "v") false) []) = UB /\ clone (Node (KAggregate (B "COUNT") false) []) = UB.
Proof. split; reflexivity. Qed.

Print Assumptions C79_decides_sameness.
Print Assumptions C79_equal_evaluates_equally.
Print Assumptions C80_copy_is_equal.
Print Assumptions C80_copy_is_made.
Print Assumptions C79_text_argument.
