(** Theorems about expression evaluation (C32-C39). *)
From Verif Require Import ValueBase ValueModel ValueProofs GraphModel ExprModel ExprProofs EvalModel EvalSpec EvalProofs.
From Coq Require Import Permutation.
Local Open Scope list_scope.
Local Open Scope Z_scope.

(** A context for the examples: no functions, no regular expressions; the columns are given. *)
Definition exX : externals := mkExt (fun _ => [63]) (fun _ => (S754_zero false, 0%nat)) (fun a _ => a).
Definition exEnv (col : Z -> value) : env :=
  mkEnv exX (fun _ _ => None) (fun _ _ => Fatal) (fun _ => VNull NUnknownProp) (fun _ _ _ => VEmpty) (fun _ _ _ => VEmpty)
        (fun _ _ => VEmpty) (fun _ _ => VEmpty) (fun _ _ => VEmpty) (fun _ _ => VEmpty) (fun _ => VEmpty) col VEmpty VEmpty.
Definition E0 := exEnv (fun _ => VEmpty).
Definition konst (v : value) : expr := Node (KConst v) [].
Definition crash : expr := Node KLabelAttr [].      (* evaluating it aborts the process *)
Ltac caches := intros [? [|[? ?] [|[? ?] [|[? ?] [|[? ?] ?]]]]]; eexists; cbn; reflexivity.
Lemma konst_yields : forall E c v, yields E c (konst v) v.
Proof. intros E c v [r ks]. now exists (Cache r ks). Qed.
Lemma konsts_yield : forall E c vs, Forall2 (yields E c) (map konst vs) vs.
Proof. intros E c vs. induction vs; cbn; constructor; auto using konst_yields. Qed.

(** * C32 *)
Lemma F2_length : forall A C (R : A -> C -> Prop) l l', Forall2 R l l' -> length l = length l'.
Proof. induction 1; cbn; auto. Qed.
Lemma andOr_truth : forall stop vs res, Forall truth vs -> (res = VNull NNull \/ res = VBool (negb stop)) ->
  andOr stop vs res = if existsb (fun v => match v with VBool b => Bool.eqb b stop | _ => false end) vs then VBool stop
                      else if existsb isNull vs then VNull NNull else res.
Proof.
  intros stop vs. induction vs as [|v vs IH]; intros res F Hr; [reflexivity|].
  inversion F as [|? ? T F']; subst. cbn [andOr existsb].
  destruct T as [-> | [-> | ->]]; cbn [isBadNull orb isBoolV isNull].
  - destruct stop; cbn [Bool.eqb orb]; auto; rewrite IH by auto; reflexivity.
  - destruct stop; cbn [Bool.eqb orb]; auto; rewrite IH by auto; reflexivity.
  - rewrite IH by auto. destruct (existsb _ vs); auto. now destruct (existsb _ vs).
Qed.
Lemma exists_bool : forall b vs, existsb (fun v => match v with VBool x => Bool.eqb x b | _ => false end) vs = true <-> In (VBool b) vs.
Proof.
  intros b vs. rewrite existsb_exists. split.
  - intros [v [I H]]. destruct v; try discriminate H. apply eqb_prop in H. now subst.
  - intros I. exists (VBool b). split; auto. apply eqb_reflx.
Qed.
Lemma exists_null : forall vs, Forall truth vs -> (existsb isNull vs = true <-> In (VNull NNull) vs).
Proof.
  intros vs F. rewrite existsb_exists. rewrite Forall_forall in F. split.
  - intros [v [I H]]. destruct (F v I) as [-> | [-> | ->]]; auto; discriminate H.
  - intros I. now exists (VNull NNull).
Qed.
Lemma logical_run : forall E o es c r stop res, (o = OAnd /\ stop = false /\ res = VBool true \/ o = OOr /\ stop = true /\ res = VBool false) ->
  gives (evalAndOr (map (eval E) es) stop (length es) 0 res) c r c -> yields E c (Node (KLogical o) es) r.
Proof.
  intros E o es c r stop res H G. apply run_node with (v := r); auto. intros r0. exists r.
  destruct H as [[-> [-> ->]]|[-> [-> ->]]]; cbn [evalNode]; rewrite map_length;
    (eapply gives_bind; [exact G|apply gives_ret]).
Qed.
Lemma andOr_whole : forall E stop es c vs res, Forall2 (yields E c) es vs ->
  gives (evalAndOr (map (eval E) es) stop (length es) 0 res) c (andOr stop vs res) c.
Proof. intros. apply gives_andOr; cbn [skipn]; auto. now rewrite firstn_all. Qed.

Theorem C32_and : forall E c es vs, Forall2 (yields E c) es vs -> Forall truth vs ->
  exists r, isAnd3 vs r /\ yields E c (Node (KLogical OAnd) es) r.
Proof.
  intros E c es vs Y T. exists (andOr false vs (VBool true)). split.
  - rewrite andOr_truth by auto. unfold isAnd3. pose proof (exists_bool false vs) as HB. pose proof (exists_null vs T) as HN.
    destruct (existsb _ vs); [splits; tauto|]. destruct (existsb isNull vs); splits; auto; intuition congruence.
  - eapply logical_run; [left; eauto|]. now apply andOr_whole.
Qed.
Theorem C32_or : forall E c es vs, Forall2 (yields E c) es vs -> Forall truth vs ->
  exists r, isOr3 vs r /\ yields E c (Node (KLogical OOr) es) r.
Proof.
  intros E c es vs Y T. exists (andOr true vs (VBool false)). split.
  - rewrite andOr_truth by auto. unfold isOr3. pose proof (exists_bool true vs) as HB. pose proof (exists_null vs T) as HN.
    destruct (existsb _ vs); [splits; tauto|]. destruct (existsb isNull vs); splits; auto; intuition congruence.
  - eapply logical_run; [right; eauto|]. now apply andOr_whole.
Qed.
Lemma xorOf_truth : forall vs fi b, Forall truth vs ->
  xorOf vs false fi (VBool b) =
    if existsb isNull vs then VNull NNull
    else match vs with [] => VBool b | _ => VBool (xorb (negb fi && b) (Z.odd (trues vs))) end.
Proof.
  induction vs as [|v vs IH]; intros fi b F; [reflexivity|]. inversion F as [|? ? T F']; subst.
  destruct T as [-> | [-> | ->]]; cbn [xorOf isNull existsb orb trues]; auto; destruct fi; rewrite IH by auto; destruct (existsb isNull vs); auto.
  all: cbn [negb andb]; destruct vs; [destruct b; reflexivity|]; f_equal.
  all: rewrite ?Z.odd_add; cbn [Z.odd]; destruct b, (Z.odd (trues (v :: vs))); reflexivity.
Qed.
Theorem C32_xor : forall E c es vs, Forall2 (yields E c) es vs -> Forall truth vs -> es <> [] ->
  exists r, isXor3 vs r /\ yields E c (Node (KLogical OXor) es) r.
Proof.
  intros E c es vs Y T NE. exists (xorOf vs false true (VBool false)). split.
  - rewrite xorOf_truth by auto. unfold isXor3. pose proof (exists_null vs T) as HN.
    destruct (existsb isNull vs); [splits; tauto|]. split; [intuition congruence|]. intros _.
    destruct vs; auto. cbn [negb andb]. now destruct (Z.odd _).
  - apply run_node with (v := xorOf vs false true (VBool false)); auto. intros r0. exists (xorOf vs false true (VBool false)).
    cbn [evalNode]. rewrite map_length.
    assert (Q : xorOf vs false true (VBool false) = xorOf vs false true r0).
    { destruct Y; [congruence|]. cbn [xorOf]. inversion T as [|? ? Ht ?]; subst. destruct Ht as [-> | [-> | ->]]; reflexivity. }
    eapply gives_bind with (a := xorOf vs false true r0); [|rewrite Q; apply gives_ret].
    apply gives_xor; cbn [skipn]; auto; [right; now left|now rewrite firstn_all].
Qed.
(** Without operands the result is an old one. *)
Theorem C32_xor_without_operands_refuted : exists k1 k2, forall E c, exists r1 r2 k1' k2', r1 <> r2 /\
  eval E (Node (KLogical OXor) []) k1 c = Ret (r1, k1', c) /\ eval E (Node (KLogical OXor) []) k2 c = Ret (r2, k2', c).
Proof.
  exists (Cache (VBool true) []), (Cache (VBool false) []). intros. do 4 eexists. split; [|split; reflexivity]. discriminate.
Qed.

(** The order of the operands does not matter. *)
Lemma perm_mem : forall (vs vs' : list value) x, Permutation vs vs' -> (In x vs <-> In x vs').
Proof. intros vs vs' x P. split; apply Permutation_in; [|symmetry]; auto. Qed.
Lemma perm_trues : forall vs vs', Permutation vs vs' -> trues vs = trues vs'.
Proof. induction 1; cbn; auto; [destruct x as [| |[]| | | | | | | | | | | | | ]| destruct x as [| |[]| | | | | | | | | | | | | ], y as [| |[]| | | | | | | | | | | | | ]|]; lia. Qed.
Lemma yields_unique : forall E c e a b, yields E c e a -> yields E c e b -> a = b.
Proof. intros E c e a b H1 H2. destruct (H1 noCache) as [k1 E1], (H2 noCache) as [k2 E2]. congruence. Qed.
Theorem C32_order_irrelevant : forall E c o es es' vs vs' r r',
  Forall2 (yields E c) es vs -> Forall2 (yields E c) es' vs' -> Permutation vs vs' -> Forall truth vs -> es <> [] ->
  yields E c (Node (KLogical o) es) r -> yields E c (Node (KLogical o) es') r' -> r = r'.
Proof.
  intros E c o es es' vs vs' r r' Y Y' P T NE R R'.
  assert (T' : Forall truth vs') by (now rewrite <- P).
  assert (NE' : es' <> []).
  { intros ->. inversion Y'; subst. apply Permutation_sym, Permutation_nil in P. subst. now inversion Y; subst. }
  destruct o.
  - destruct (C32_and E c es vs Y T) as [x [[A1 [A2 A3]] H]]. destruct (C32_and E c es' vs' Y' T') as [x' [[B1 [B2 B3]] H']].
    rewrite (yields_unique _ _ _ _ _ R H), (yields_unique _ _ _ _ _ R' H'). rewrite <- (perm_mem vs vs') in * by auto.
    rewrite <- (perm_mem vs vs' (VNull NNull)) in * by auto.
    destruct (existsb (fun v => match v with VBool x => Bool.eqb x false | _ => false end) vs) eqn:Q.
    + apply exists_bool in Q. now rewrite A1, B1.
    + assert (~ In (VBool false) vs) by (rewrite <- exists_bool; congruence).
      destruct (existsb isNull vs) eqn:Q2.
      * apply exists_null in Q2; auto. now rewrite A2, B2.
      * assert (~ In (VNull NNull) vs) by (rewrite <- exists_null by auto; congruence). now rewrite A3, B3.
  - destruct (C32_or E c es vs Y T) as [x [[A1 [A2 A3]] H]]. destruct (C32_or E c es' vs' Y' T') as [x' [[B1 [B2 B3]] H']].
    rewrite (yields_unique _ _ _ _ _ R H), (yields_unique _ _ _ _ _ R' H'). rewrite <- (perm_mem vs vs') in * by auto.
    rewrite <- (perm_mem vs vs' (VNull NNull)) in * by auto.
    destruct (existsb (fun v => match v with VBool x => Bool.eqb x true | _ => false end) vs) eqn:Q.
    + apply exists_bool in Q. now rewrite A1, B1.
    + assert (~ In (VBool true) vs) by (rewrite <- exists_bool; congruence).
      destruct (existsb isNull vs) eqn:Q2.
      * apply exists_null in Q2; auto. now rewrite A2, B2.
      * assert (~ In (VNull NNull) vs) by (rewrite <- exists_null by auto; congruence). now rewrite A3, B3.
  - destruct (C32_xor E c es vs Y T NE) as [x [[A1 A2] H]]. destruct (C32_xor E c es' vs' Y' T' NE') as [x' [[B1 B2] H']].
    rewrite (yields_unique _ _ _ _ _ R H), (yields_unique _ _ _ _ _ R' H').
    rewrite <- (perm_mem vs vs') in * by auto. rewrite <- (perm_trues vs vs') in B2 by auto.
    destruct (existsb isNull vs) eqn:Q2.
    + apply exists_null in Q2; auto. now rewrite A1, B1.
    + assert (~ In (VNull NNull) vs) by (rewrite <- exists_null by auto; congruence). now rewrite A2, B2.
Qed.

(** The operand that decides, and a non-Boolean operand that is reached, end the evaluation: whatever stands behind. *)
Theorem C32_stops : forall E c o (stop : bool) pre ps e rest v,
  (o = OAnd /\ stop = false) \/ (o = OOr /\ stop = true) ->
  Forall2 (yields E c) pre ps -> Forall (fun p => p = VBool (negb stop) \/ p = VNull NNull) ps -> yields E c e v ->
  (v = VBool stop -> yields E c (Node (KLogical o) (pre ++ e :: rest)) (VBool stop)) /\
  (noTruth v -> yields E c (Node (KLogical o) (pre ++ e :: rest)) (VNull NBadType)).
Proof.
  intros E c o stop pre ps e rest v Ho Yp G Y.
  assert (K : forall r, (forall res, v = VBool stop /\ r = v \/ noTruth v /\ r = kBadType -> gives (evalAndOr (map (eval E) (pre ++ e :: rest)) stop (S (length rest)) (length ps) res) c r c) ->
              v = VBool stop /\ r = v \/ noTruth v /\ r = kBadType ->
              yields E c (Node (KLogical o) (pre ++ e :: rest)) r).
  { intros r Hg Hv. apply logical_run with (stop := stop) (res := VBool (negb stop)).
    - destruct Ho as [[-> ->]|[-> ->]]; auto.
    - replace (length (pre ++ e :: rest)) with (length ps + S (length rest))%nat
        by (rewrite app_length; cbn; now rewrite (F2_length _ _ _ _ _ Yp)).
      apply gives_andOr_prefix; auto; cbn [skipn].
      rewrite <- (F2_length _ _ _ _ _ Yp), firstn_app, Nat.sub_diag, firstn_all. cbn [firstn]. now rewrite app_nil_r. }
  assert (N : nth_error (pre ++ e :: rest) (length ps) = Some e).
  { rewrite <- (F2_length _ _ _ _ _ Yp), nth_error_app2, Nat.sub_diag; auto. }
  split; intros Hv; apply K; auto; intros res _; cbn [evalAndOr];
    (eapply gives_bind; [eapply gives_child; [exact N|exact Y]|]).
  - subst v. cbn [isBadNull orb]. rewrite eqb_reflx. apply gives_ret.
  - destruct v; try now elim Hv. all: apply gives_ret.
Qed.
Example C32_ex : yields E0 [] (Node (KLogical OAnd) [konst (VNull NNull); konst (VBool true); konst (VBool false); crash]) (VBool false)
  /\ yields E0 [] (Node (KLogical OOr) [konst (VBool false); konst (VInt 1); crash]) (VNull NBadType)
  /\ yields E0 [] (Node (KLogical OXor) [konst (VBool true); konst (VBool true); konst (VBool true)]) (VBool true).
Proof. splits; caches. Qed.

(** * C33 *)
(** Null and empty operands together: the order matters. *)
Theorem C33_null_then_empty_refuted : exists a b, (a = VNull NNull /\ b = VEmpty) /\ forall E c,
  yields E c (Node (KLogical OAnd) [konst a; konst b]) (VNull NBadType) /\ yields E c (Node (KLogical OAnd) [konst b; konst a]) (VNull NNull) /\
  yields E c (Node (KLogical OOr) [konst a; konst b]) (VNull NBadType) /\ yields E c (Node (KLogical OOr) [konst b; konst a]) (VNull NNull).
Proof. exists (VNull NNull), VEmpty. split; auto. intros. splits; caches. Qed.
(** Operands that are all null give null, all empty give empty, and empties before nulls give null, and
    an empty behind a null gives the bad-type null.  These are all the lists of nulls and empties. *)
Theorem C33_exact : forall E c o es vs, o = OAnd \/ o = OOr -> Forall2 (yields E c) es vs -> es <> [] ->
  (Forall (eq (VNull NNull)) vs -> yields E c (Node (KLogical o) es) (VNull NNull)) /\
  (Forall (eq VEmpty) vs -> yields E c (Node (KLogical o) es) VEmpty) /\
  (forall n m, vs = repeat VEmpty n ++ repeat (VNull NNull) (S m) -> yields E c (Node (KLogical o) es) (VNull NNull)) /\
  (forall n m rest, vs = repeat VEmpty n ++ repeat (VNull NNull) (S m) ++ VEmpty :: rest -> yields E c (Node (KLogical o) es) (VNull NBadType)).
Proof.
  intros E c o es vs Ho Y NE.
  assert (K : forall r, (forall stop, andOr stop vs (VBool (negb stop)) = r) -> yields E c (Node (KLogical o) es) r).
  { intros r H. destruct Ho as [-> | ->].
    - eapply logical_run; [left; eauto|]. rewrite <- (H false). now apply andOr_whole.
    - eapply logical_run; [right; eauto|]. rewrite <- (H true). now apply andOr_whole. }
  assert (NV : vs <> []) by (intros ->; inversion Y; subst; congruence).
  assert (AN : forall stop l res, Forall (eq (VNull NNull)) l -> l <> [] -> andOr stop l res = VNull NNull).
  { intros stop l. induction l as [|x l IH]; intros res F N; [congruence|]. inversion F; subst. cbn [andOr isBadNull orb isBoolV isNull].
    destruct l; [reflexivity|]. apply IH; auto. discriminate. }
  assert (AE : forall stop l res rest, Forall (eq VEmpty) l -> isNull res = false -> andOr stop (l ++ rest) res = andOr stop rest (match l with [] => res | _ => VEmpty end)).
  { intros stop l. induction l as [|x l IH]; intros res rest F N; [reflexivity|]. inversion F; subst. cbn [app andOr isBadNull orb isBoolV isNull isEmpty].
    rewrite N. cbn [negb andb]. rewrite IH by auto. now destruct l. }
  assert (AB : forall stop l rest res, Forall (eq (VNull NNull)) l -> l <> [] -> andOr stop (l ++ VEmpty :: rest) res = VNull NBadType).
  { intros stop l rest. induction l as [|x l IH]; intros res F N; [congruence|]. inversion F; subst. cbn [app andOr isBadNull orb isBoolV isNull].
    destruct l; [reflexivity|]. apply IH; auto. discriminate. }
  assert (RF : forall (x : value) n, Forall (eq x) (repeat x n)) by (intros x n; apply Forall_forall; intros y I; symmetry; apply (repeat_spec _ _ _ I)).
  splits.
  - intros F. apply K. intros. now apply AN.
  - intros F. apply K. intros. rewrite <- (app_nil_r vs), AE by auto. destruct vs; [congruence|reflexivity].
  - intros n m ->. apply K. intros. rewrite AE; auto. apply AN; auto. discriminate.
  - intros n m rest ->. apply K. intros. rewrite AE; auto. apply AB; auto. discriminate.
Qed.
