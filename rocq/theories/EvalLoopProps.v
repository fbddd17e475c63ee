(** Theorems about subscripts, CASE, list predicates, comprehension, reduce and repeated evaluation (C35-C39). *)
From Coq Require Import String List.
From Verif Require Import ValueBase DateModel TimeModel ValueModel ValueProofs GraphModel ExprModel ExprProofs EvalModel EvalSpec EvalProofs EvalProps.
Local Open Scope list_scope.
Local Open Scope Z_scope.

(** * C35 *)
Lemma lenOf_length : forall A (l : list A), lenOf l = Z.of_nat (length l).
Proof. reflexivity. Qed.
Lemma nth_rev : forall A (l : list A) i, (i < length l)%nat -> nth_error (rev l) i = nth_error l (length l - 1 - i).
Proof.
  intros A l i H. destruct l as [|d l]; [cbn in H; lia|]. set (m := d :: l) in *.
  rewrite (nth_error_nth' (rev m) d) by (rewrite rev_length; lia). rewrite (nth_error_nth' m d) by lia.
  f_equal. rewrite rev_nth by lia. f_equal. lia.
Qed.
Theorem C35_subscript : forall E c l r xs i v, yields E c l (VList xs) -> yields E c r (VInt i) -> isElement xs i v ->
  yields E c (Node KSubscript [l; r]) v.
Proof.
  intros E c l r xs i v Yl Yr H. apply run_node with (v := v); auto. intros r0. exists v. cbn [evalNode].
  eapply gives_bind; [eapply gives_child; [reflexivity|exact Yl]|].
  eapply gives_bind; [eapply gives_child; [reflexivity|exact Yr]|]. apply gives_lift.
  unfold subscript, same. rewrite !lenOf_length. unfold isElement in H. rewrite lenOf_length in H. destruct H as [[R N]|[[R N]|[R ->]]].
  - replace ((_ <=? i) || (i <? _)) with false by (symmetry; rewrite orb_false_iff, Z.leb_gt, Z.ltb_ge; lia).
    replace (i <? 0) with false by (symmetry; rewrite Z.ltb_ge; lia). now rewrite N.
  - replace ((_ <=? i) || (i <? _)) with false by (symmetry; rewrite orb_false_iff, Z.leb_gt, Z.ltb_ge; lia).
    replace (i <? 0) with true by (symmetry; rewrite Z.ltb_lt; lia).
    rewrite nth_rev in N by lia. replace (Z.to_nat (i + _)) with (length xs - 1 - Z.to_nat (- i - 1))%nat by lia. now rewrite N.
  - replace ((_ <=? i) || (i <? _)) with true; auto. symmetry. rewrite orb_true_iff, Z.leb_le, Z.ltb_lt. lia.
Qed.
(** For every list and index there is such an element: the subscript is always defined. *)
Theorem C35_subscript_total : forall xs i, exists v, isElement xs i v.
Proof.
  intros xs i. unfold isElement. rewrite lenOf_length. set (n := length xs).
  destruct (Z_lt_ge_dec i (- Z.of_nat n)); [exists (VNull NOutOfRange); right; right; split; auto; lia|].
  destruct (Z_lt_ge_dec i 0).
  - destruct (nth_error (rev xs) (Z.to_nat (- i - 1))) as [v|] eqn:N; [exists v; right; left; split; auto; lia|].
    apply nth_error_None in N. rewrite rev_length in N. unfold n in *. lia.
  - destruct (Z_lt_ge_dec i (Z.of_nat n)); [|exists (VNull NOutOfRange); right; right; split; auto; lia].
    destruct (nth_error xs (Z.to_nat i)) as [v|] eqn:N; [exists v; left; split; auto; lia|].
    apply nth_error_None in N. unfold n in *. lia.
Qed.
Lemma positions_length : forall xs p, length (positions p xs) = length xs.
Proof. induction xs; intros; cbn; auto. Qed.
Lemma positions_between : forall xs p lo hi, p <= lo -> 
  map snd (List.filter (fun q => (lo <=? fst q) && (fst q <? hi)) (positions p xs)) = firstn (Z.to_nat (hi - lo)) (skipn (Z.to_nat (lo - p)) xs).
Proof.
  induction xs as [|x xs IH]; intros p lo hi H; [cbn; now rewrite skipn_nil, firstn_nil|]. cbn [positions List.filter fst].
  destruct (Z.eqb_spec p lo) as [->|N].
  - rewrite Z.leb_refl, Z.sub_diag. change (Z.to_nat 0) with 0%nat. cbn [skipn andb].
    destruct (Z.ltb_spec lo hi).
    + cbn [map snd]. replace (Z.to_nat (hi - lo)) with (S (Z.to_nat (hi - (lo + 1)))) by lia. cbn [firstn]. f_equal.
      clear IH H. assert (K : forall l p, lo <= p -> map snd (List.filter (fun q => (lo <=? fst q) && (fst q <? hi)) (positions p l)) = firstn (Z.to_nat (hi - p)) l).
      { clear. induction l as [|y l IH]; intros p H; [now rewrite firstn_nil|]. cbn [positions List.filter fst].
        rewrite (proj2 (Z.leb_le lo p)) by lia. cbn [andb]. destruct (Z.ltb_spec p hi).
        - cbn [map snd]. rewrite IH by lia. replace (Z.to_nat (hi - p)) with (S (Z.to_nat (hi - (p + 1)))) by lia. reflexivity.
        - rewrite IH by lia. replace (Z.to_nat (hi - (p + 1))) with 0%nat by lia. replace (Z.to_nat (hi - p)) with 0%nat by lia. reflexivity. }
      apply K. lia.
    + replace (Z.to_nat (hi - lo)) with 0%nat by lia. cbn [firstn]. clear IH. 
      assert (K : forall l p, map snd (List.filter (fun q => (lo <=? fst q) && (fst q <? hi)) (positions p l)) = []).
      { intros l. induction l as [|y l IH]; intros p; [reflexivity|]. cbn [positions List.filter fst].
        destruct (Z.leb_spec lo p), (Z.ltb_spec p hi); cbn [andb]; auto. lia. }
      apply K.
  - replace (lo <=? p) with false by (symmetry; rewrite Z.leb_gt; lia). cbn [andb]. rewrite IH by lia.
    replace (Z.to_nat (lo - p)) with (S (Z.to_nat (lo - (p + 1)))) by lia. reflexivity.
Qed.
Lemma between_eq : forall lo hi xs, between lo hi xs = firstn (Z.to_nat (hi - Z.max lo 0)) (skipn (Z.to_nat (Z.max lo 0)) xs).
Proof.
  intros lo hi xs. unfold between. destruct (Z.leb_spec 0 lo).
  - rewrite Z.max_l by lia. rewrite (positions_between xs 0 lo hi) by lia. now rewrite Z.sub_0_r.
  - rewrite Z.max_r by lia. pose proof (positions_between xs 0 0 hi ltac:(lia)) as P. rewrite Z.sub_diag in P. rewrite <- P. clear P. f_equal.
    assert (K : forall l p, 0 <= p -> List.filter (fun q : Z * value => (lo <=? fst q) && (fst q <? hi)) (positions p l) = List.filter (fun q => (0 <=? fst q) && (fst q <? hi)) (positions p l)).
    { clear xs. induction l as [|y l IH]; intros p Hp; [reflexivity|]. cbn [positions List.filter fst].
      rewrite (proj2 (Z.leb_le lo p)), (proj2 (Z.leb_le 0 p)) by lia. now rewrite IH by lia. }
    apply K. lia.
Qed.
Lemma slice_between : forall xs lo hi, slice xs lo hi = Ret (between lo hi xs).
Proof.
  intros xs lo hi. rewrite between_eq. unfold slice. rewrite lenOf_length.
  replace (if lo <? 0 then 0 else lo) with (Z.max lo 0) by (destruct (Z.ltb_spec lo 0); lia).
  assert (0 <= Z.max lo 0) by lia. generalize dependent (Z.max lo 0). clear lo. intros lo H.
  destruct (Z.leb_spec hi lo).
  - replace (Z.to_nat (hi - lo)) with 0%nat by lia. reflexivity.
  - destruct (Z.leb_spec (Z.of_nat (length xs)) lo).
    + rewrite skipn_all2 by lia. now rewrite firstn_nil.
    + destruct (Z.leb_spec (Z.of_nat (length xs)) hi).
      * rewrite (proj2 (Z.leb_le 0 lo)), (proj2 (Z.leb_le lo _)), Z.leb_refl by lia. cbn [andb]. f_equal.
        rewrite !firstn_all2; auto; rewrite skipn_length; lia.
      * rewrite (proj2 (Z.leb_le 0 lo)), (proj2 (Z.leb_le lo hi)), (proj2 (Z.leb_le hi _)) by lia. reflexivity.
Qed.
(** A list in memory has fewer than 2^62 elements. *)
Definition fits (xs : list value) : Prop := lenOf xs < 4611686018427387904.
Lemma wrap64_id : forall z, in_int64 z = true -> wrap64 z = z.
Proof.
  intros z H. unfold in_int64, int64_min, int64_max in H. rewrite andb_true_iff, !Z.leb_le in H.
  unfold wrap64. rewrite Z.mod_small by lia. lia.
Qed.
Lemma bound_position : forall z xs, in_int64 z = true -> fits xs -> bound z (lenOf xs) = position z (lenOf xs).
Proof.
  intros z xs I F. unfold bound, position, fits in *. rewrite lenOf_length in *. destruct (Z.ltb_spec z 0); auto.
  rewrite Z.add_comm. unfold in_int64, int64_min, int64_max in I. rewrite andb_true_iff, !Z.leb_le in I.
  apply wrap64_id. unfold in_int64, int64_min, int64_max. rewrite andb_true_iff, !Z.leb_le. lia.
Qed.
(** list[lo..hi], list[lo..], list[..hi] *)
Definition rangeExpr (l : expr) (lo hi : option expr) : expr :=
  Node (KRange (match lo with Some _ => true | None => false end) (match hi with Some _ => true | None => false end))
       (l :: (match lo with Some e => [e] | None => [] end) ++ (match hi with Some e => [e] | None => [] end)).
Definition boundIs (E : env) (c : ctx) (e : option expr) (z : option Z) : Prop :=
  match e, z with Some e, Some z => yields E c e (VInt z) /\ in_int64 z = true | None, None => True | _, _ => False end.
Theorem C35_slice : forall E c l lo hi xs a b, yields E c l (VList xs) -> fits xs -> boundIs E c lo a -> boundIs E c hi b ->
  yields E c (rangeExpr l lo hi)
    (VList (between (match a with Some z => position z (lenOf xs) | None => 0 end)
                    (match b with Some z => position z (lenOf xs) | None => lenOf xs end) xs)).
Proof.
  intros E c l lo hi xs a b Yl F La Hb.
  destruct lo as [lo|], a as [a|]; try (now elim La); destruct hi as [hi|], b as [b|]; try (now elim Hb).
  all: unfold rangeExpr; (eapply run_node; [|reflexivity]); intros r0; eexists; cbn [evalNode].
  all: eapply gives_bind; [eapply gives_child; [reflexivity|exact Yl]|].
  - destruct La as [Ya Ia], Hb as [Yb Ib].
    eapply gives_bind; [eapply gives_bind; [eapply gives_child; [reflexivity|exact Ya]|apply gives_ret]|]. cbn [app].
    eapply gives_bind; [eapply gives_bind; [eapply gives_child; [reflexivity|exact Yb]|apply gives_ret]|].
    cbv beta iota. rewrite !bound_position by auto. eapply gives_bind; [apply gives_lift; apply slice_between|apply gives_ret].
  - destruct La as [Ya Ia].
    eapply gives_bind; [eapply gives_bind; [eapply gives_child; [reflexivity|exact Ya]|apply gives_ret]|]. cbn [app].
    eapply gives_bind; [apply gives_ret|].
    cbv beta iota. rewrite !bound_position by auto. eapply gives_bind; [apply gives_lift; apply slice_between|apply gives_ret].
  - destruct Hb as [Yb Ib]. eapply gives_bind; [apply gives_ret|]. cbn [app].
    eapply gives_bind; [eapply gives_bind; [eapply gives_child; [reflexivity|exact Yb]|apply gives_ret]|].
    cbv beta iota. rewrite !bound_position by auto. eapply gives_bind; [apply gives_lift; apply slice_between|apply gives_ret].
  - eapply gives_bind; [apply gives_ret|]. cbn [app]. eapply gives_bind; [apply gives_ret|].
    eapply gives_bind; [apply gives_lift; apply slice_between|apply gives_ret].
Qed.
Definition abc : list value := [VInt 10; VInt 11; VInt 12; VInt 13].
Example C35_ex : fits abc /\ isElement abc (-1) (VInt 13) /\ isElement abc 4 (VNull NOutOfRange) /\ isElement abc (-5) (VNull NOutOfRange) /\
  between (position (-3) 4) (position 9 4) abc = [VInt 11; VInt 12; VInt 13] /\ between (position (-9) 4) (position 2 4) abc = [VInt 10; VInt 11] /\
  yields E0 [] (rangeExpr (konst (VList abc)) (Some (konst (VInt (-3)))) None) (VList [VInt 11; VInt 12; VInt 13]).
Proof.
  splits; try reflexivity.
  - right. left. split; [change (lenOf abc) with 4; lia|reflexivity].
  - right. right. split; [change (lenOf abc) with 4; lia|reflexivity].
  - right. right. split; [change (lenOf abc) with 4; lia|reflexivity].
  - caches.
Qed.

(** * C36 *)
Definition whenMiss (E : env) (c : ctx) (cond : option value) (b : expr * expr) : Prop :=
  match cond with
  | Some cv => exists w, yields E c (fst b) w /\ veq (eX E) cv w = false
  | None => yields E c (fst b) (VBool false)
  end.
Definition whenHit (E : env) (c : ctx) (cond : option value) (b : expr * expr) : Prop :=
  match cond with
  | Some cv => exists w, yields E c (fst b) w /\ veq (eX E) cv w = true
  | None => yields E c (fst b) (VBool true)
  end.
Definition condIs (E : env) (c : ctx) (e : option expr) (v : option value) : Prop :=
  match e, v with Some e, Some v => yields E c e v | None, None => True | _, _ => False end.

Lemma cases_skip : forall E c cond miss all n i dflt r0 v c',
  Forall (whenMiss E c cond) miss -> (forall j b, nth_error miss j = Some b -> nth_error all (i + 2 * j) = Some (fst b)) ->
  gives (evalCases E (map (eval E) all) cond n (i + 2 * length miss) dflt r0) c v c' ->
  gives (evalCases E (map (eval E) all) cond (length miss + n) i dflt r0) c v c'.
Proof.
  intros E c cond miss all n. induction miss as [|b miss IH]; intros i dflt r0 v c' F N G.
  - cbn [length Nat.add Nat.mul] in *. now rewrite Nat.add_0_r in G.
  - inversion F as [|? ? H F']; subst. cbn [length Nat.add evalCases].
    assert (Nb : nth_error all i = Some (fst b)) by (specialize (N 0%nat b eq_refl); now rewrite Nat.add_0_r in N).
    assert (K : gives (evalCases E (map (eval E) all) cond (length miss + n) (S (S i)) dflt r0) c v c').
    { apply IH; auto.
      - intros j b' Hj. specialize (N (S j) b' Hj). now replace (S (S i) + 2 * j)%nat with (i + 2 * S j)%nat by lia.
      - now replace (S (S i) + 2 * length miss)%nat with (i + 2 * length (b :: miss))%nat by (cbn [length]; lia). }
    unfold whenMiss in H. destruct cond as [cv|].
    + destruct H as [w [Y W]]. eapply gives_bind; [eapply gives_child; [exact Nb|exact Y]|]. now rewrite W.
    + eapply gives_bind; [eapply gives_child; [exact Nb|exact H]|]. exact K.
Qed.
Lemma flat_length : forall (bs : list (expr * expr)), length (flat_map (fun b => [fst b; snd b]) bs) = (2 * length bs)%nat.
Proof. induction bs; cbn [flat_map length app]; lia. Qed.
Lemma flat_nth : forall bs j b, nth_error bs j = Some b ->
  nth_error (flat_map (fun b : expr * expr => [fst b; snd b]) bs) (2 * j) = Some (fst b) /\
  nth_error (flat_map (fun b : expr * expr => [fst b; snd b]) bs) (S (2 * j)) = Some (snd b).
Proof.
  induction bs as [|b' bs IH]; intros [|j] b H; try discriminate H.
  - injection H as ->. split; reflexivity.
  - cbn [nth_error] in H. destruct (IH j b H) as [A C]. replace (2 * S j)%nat with (S (S (2 * j))) by lia. cbn [flat_map app nth_error]. auto.
Qed.
Section Case.
Variables (E : env) (c : ctx) (g : bool) (cond dflt : option expr) (cv : option value).
Definition opts (cond dflt : option expr) := (match cond with Some e => [e] | None => [] end) ++ (match dflt with Some e => [e] | None => [] end).
Lemma case_run : forall bs v c', condIs E c cond cv ->
  (forall r0, exists r1, gives (evalCases E (map (eval E) (opts cond dflt ++ flat_map (fun b => [fst b; snd b]) bs)) cv (length bs) (length (opts cond dflt))
                     (match dflt with Some _ => let! v := child (map (eval E) (opts cond dflt ++ flat_map (fun b => [fst b; snd b]) bs)) (match cond with Some _ => 1 | None => 0 end) in mret (same v) | None => mret (same kNull) end) r0) c (v, r1) c') ->
  run E (caseExpr g cond dflt bs) c v c'.
Proof.
  intros bs v c' Yc H. unfold caseExpr. rewrite app_assoc. fold (opts cond dflt). eapply run_node; [|reflexivity]. intros r0. destruct (H r0) as [r1 G]. exists r1.
  cbn [evalNode]. rewrite map_length, app_length, flat_length.
  replace ((if match cond with Some _ => true | None => false end then 1 else 0) + (if match dflt with Some _ => true | None => false end then 1 else 0))%nat
    with (length (opts cond dflt)) by (unfold opts; rewrite app_length; destruct cond, dflt; reflexivity).
  replace ((length (opts cond dflt) + 2 * length bs - length (opts cond dflt)) / 2)%nat with (length bs)
    by (rewrite Nat.add_comm, Nat.add_sub, Nat.mul_comm, Nat.div_mul; auto).
  destruct cond as [ce|], cv as [v0|]; try now elim Yc.
  - eapply gives_bind; [eapply gives_child; [reflexivity|exact Yc]|]. destruct dflt; exact G.
  - destruct dflt; exact G.
Qed.
(** The first branch that matches is taken; the branches behind it are arbitrary, they are not evaluated. *)
Theorem C36_first_match : forall miss hit rest v c', condIs E c cond cv ->
  Forall (whenMiss E c cv) miss -> whenHit E c cv hit -> run E (snd hit) c v c' ->
  run E (caseExpr g cond dflt (miss ++ hit :: rest)) c v c'.
Proof.
  intros miss hit rest v c' Yc M H R. apply case_run; auto. intros r0. exists v.
  rewrite app_length. cbn [length]. set (bs := miss ++ hit :: rest). set (all := opts cond dflt ++ _).
  assert (N : forall j b, nth_error bs j = Some b -> nth_error all (length (opts cond dflt) + 2 * j) = Some (fst b) /\
                          nth_error all (S (length (opts cond dflt) + 2 * j)) = Some (snd b)).
  { intros j b Hj. unfold all. rewrite !nth_error_app2 by lia. replace (length (opts cond dflt) + 2 * j - length (opts cond dflt))%nat with (2 * j)%nat by lia.
    replace (S (length (opts cond dflt) + 2 * j) - length (opts cond dflt))%nat with (S (2 * j)) by lia. now apply flat_nth. }
  apply cases_skip; auto.
  - intros j b Hj. apply N. unfold bs. rewrite nth_error_app1; auto. apply nth_error_Some. congruence.
  - destruct (N (length miss) hit) as [N1 N2]. { unfold bs. rewrite nth_error_app2, Nat.sub_diag by lia. reflexivity. }
    cbn [evalCases]. unfold whenHit in H. destruct cv as [cv'|].
    + destruct H as [w [Y W]]. eapply gives_bind; [eapply gives_child; [exact N1|exact Y]|]. rewrite W.
      eapply gives_bind; [eapply gives_child; [exact N2|exact R]|]. apply gives_ret.
    + eapply gives_bind; [eapply gives_child; [exact N1|exact H]|].
      eapply gives_bind; [eapply gives_child; [exact N2|exact R]|]. apply gives_ret.
Qed.
(** No branch matches: the default, or null without one. *)
Theorem C36_default : forall bs v c', condIs E c cond cv -> Forall (whenMiss E c cv) bs ->
  match dflt with Some d => run E d c v c' | None => v = VNull NNull /\ c' = c end ->
  run E (caseExpr g cond dflt bs) c v c'.
Proof.
  intros bs v c' Yc M H. apply case_run; auto. intros r0. exists v. rewrite <- (Nat.add_0_r (length bs)).
  apply cases_skip; auto.
  - intros j b Hj. rewrite nth_error_app2 by lia. replace (length (opts cond dflt) + 2 * j - length (opts cond dflt))%nat with (2 * j)%nat by lia.
    now apply flat_nth.
  - cbn [evalCases]. destruct dflt as [d|].
    + eapply gives_bind; [eapply gives_child; [|exact H]|apply gives_ret]. unfold opts. now destruct cond.
    + destruct H as [-> ->]. apply gives_ret.
Qed.
(** Without an operand, a condition that is reached and is not a Boolean gives the bad-type null. *)
Theorem C36_condition_must_be_boolean : forall miss b rest w, cond = None -> cv = None ->
  Forall (whenMiss E c cv) miss -> yields E c (fst b) w -> isBoolV w = false ->
  yields E c (caseExpr g cond dflt (miss ++ b :: rest)) (VNull NBadType).
Proof.
  intros miss b rest w Ec Ev M Y W. apply case_run; [now rewrite Ec, Ev|]. intros r0. exists r0.
  rewrite app_length. cbn [length]. apply cases_skip; auto.
  - intros j b' Hj. rewrite nth_error_app2 by lia. replace (length (opts cond dflt) + 2 * j - length (opts cond dflt))%nat with (2 * j)%nat by lia.
    apply flat_nth. rewrite nth_error_app1; auto. apply nth_error_Some. congruence.
  - cbn [evalCases]. eapply gives_bind; [eapply gives_child; [|exact Y]|].
    + rewrite nth_error_app2 by lia. replace (length (opts cond dflt) + 2 * length miss - length (opts cond dflt))%nat with (2 * length miss)%nat by lia.
      apply flat_nth. rewrite nth_error_app2, Nat.sub_diag by lia. reflexivity.
    + rewrite Ev. destruct w; try discriminate W; apply gives_ret.
Qed.
End Case.
Example C36_ex : yields E0 [] (caseExpr true (Some (konst (VInt 2))) (Some crash)
                        [(konst (VInt 1), crash); (konst (VFloat (f64ofZ 2)), konst (VStr [97])); (crash, crash)]) (VStr [97]).
Proof.
  apply (C36_first_match E0 [] true (Some (konst (VInt 2))) (Some crash) (Some (VInt 2)) [(konst (VInt 1), crash)] (konst (VFloat (f64ofZ 2)), konst (VStr [97])) [(crash, crash)]).
  - apply konst_yields.
  - constructor; [|constructor]. exists (VInt 1). split; [apply konst_yields|reflexivity].
  - exists (VFloat (f64ofZ 2)). split; [apply konst_yields|reflexivity].
  - apply konst_yields.
Qed.

(** * C37 *)
(** The predicate over the list [l] with filter [flt] and inner variable [iv]. *)
Definition predicate (q : quantifier) (iv : str) (origin : str) (l flt : expr) : expr :=
  Node (KPredicate (match q with QAll => B "all"%string | QAny => B "any"%string | QSingle => B "single"%string | QNone => B "none"%string end) iv origin true) [l; flt].
(** The filter, evaluated with the inner variable set to x, gives f x.  [I] is what the filter needs to know about the
    other variables, and preserves. *)
Definition filterIs (E : env) (I : ctx -> Prop) (iv : str) (flt : expr) (f : value -> value) (x : value) : Prop :=
  forall c, I c -> exists c', run E flt (setVar c iv x) (f x) c' /\ I c'.
(** An implementation of [I] that always works for filters without nested comprehensions: the other variables are as before. *)
Definition others (E : env) (iv : str) (c c' : ctx) : Prop := forall s, s <> iv -> getVar E c' s = getVar E c s.

Definition trueFor (f : value -> value) (x : value) : Prop := f x = VBool true.
(** What the four quantifiers mean. *)
Definition quantified (q : quantifier) (f : value -> value) (xs : list value) : Prop :=
  match q with
  | QAll => forall x, In x xs -> trueFor f x
  | QAny => exists x, In x xs /\ trueFor f x
  | QNone => forall x, In x xs -> ~ trueFor f x
  | QSingle => exists l1 x l2, xs = l1 ++ x :: l2 /\ trueFor f x /\ forall y, In y (l1 ++ l2) -> ~ trueFor f y
  end.

Definition truths (f : value -> value) (xs : list value) : nat := length (List.filter (fun x => isTrue (f x)) xs).
Definition quantVal (q : quantifier) (f : value -> value) (xs : list value) (res : bool) : bool :=
  match q with
  | QAll => forallb (fun x => isTrue (f x)) xs && res
  | QAny => existsb (fun x => isTrue (f x)) xs || res
  | QNone => forallb (fun x => negb (isTrue (f x))) xs && res
  | QSingle => if res then Nat.eqb (truths f xs) 0 else Nat.eqb (truths f xs) 1
  end.
Definition resOk (q : quantifier) (res : bool) : Prop := match q with QAll | QNone => res = true | QAny => res = false | QSingle => True end.
Lemma quant_gives : forall E (I : ctx -> Prop) iv evs flt f q xs c res,
  nth_error evs 1 = Some flt -> I c -> resOk q res ->
  (forall x, In x xs -> boolish (f x) = true /\ filterIs E I iv flt f x) ->
  exists b c' r1, (b = quantVal q f xs res) /\ gives (evalQuant q (child (map (eval E) evs) 1) iv xs res) c (VBool b, r1) c' /\ I c'.
Proof.
  intros E I iv evs flt f q xs. induction xs as [|x xs IH]; intros c res N Hc Hr H.
  - exists res, c. eexists. splits; [|apply gives_ret|auto]. unfold truths. destruct q; cbn in *; subst; auto. now destruct res.
  - destruct (H x (or_introl eq_refl)) as [Bx Fx]. destruct (Fx c Hc) as [c1 [R1 I1]].
    assert (K : forall res', resOk q res' -> exists b c' r1, b = quantVal q f xs res' /\
              gives (evalQuant q (child (map (eval E) evs) 1) iv xs res') c1 (VBool b, r1) c' /\ I c').
    { intros res' Hr'. apply IH; auto. intros y Hy. apply H. now right. }
    assert (P : forall b c' r1, gives (if isTrue (f x) then (match q with QAll => evalQuant q (child (map (eval E) evs) 1) iv xs res
                                 | QAny => mret (same (VBool true)) | QSingle => if res then mret (same (VBool false)) else evalQuant q (child (map (eval E) evs) 1) iv xs true
                                 | QNone => mret (same (VBool false)) end)
                                 else (match q with QAll => mret (same (VBool false)) | _ => evalQuant q (child (map (eval E) evs) 1) iv xs res end)) c1 (VBool b, r1) c' ->
              gives (evalQuant q (child (map (eval E) evs) 1) iv (x :: xs) res) c (VBool b, r1) c').
    { intros b c' r1 G. cbn [evalQuant]. eapply gives_bind; [apply gives_set|]. eapply gives_bind; [eapply gives_child; [exact N|exact R1]|].
      rewrite Bx. cbn [negb]. destruct q, (isTrue (f x)); exact G. }
    destruct q, (isTrue (f x)) eqn:Ex; cbn [resOk] in Hr; try subst res; unfold quantVal, truths in *; cbn [forallb existsb List.filter]; rewrite Ex; cbn [negb andb orb length].
    + destruct (K true eq_refl) as [b [c' [r1 [Q [G' I']]]]]. exists b, c', r1. splits; auto.
    + exists false, c1, (VBool false). splits; auto. apply P. apply gives_ret.
    + exists true, c1, (VBool true). splits; auto. apply P. apply gives_ret.
    + destruct (K false eq_refl) as [b [c' [r1 [Q [G' I']]]]]. exists b, c', r1. splits; auto.
    + destruct res.
      * exists false, c1, (VBool false). splits; auto. apply P. apply gives_ret.
      * destruct (K true Logic.I) as [b [c' [r1 [Q [G' I']]]]]. exists b, c', r1. splits; auto.
    + destruct (K res Logic.I) as [b [c' [r1 [Q [G' I']]]]]. exists b, c', r1. splits; auto.
    + exists false, c1, (VBool false). splits; auto. apply P. apply gives_ret.
    + destruct (K true eq_refl) as [b [c' [r1 [Q [G' I']]]]]. exists b, c', r1. splits; auto.
Qed.
Lemma isTrue_iff : forall v, isTrue v = true <-> v = VBool true.
Proof. intros v. destruct v as [| |[]| | | | | | | | | | | | | ]; cbn; split; intros H; try discriminate H; auto. Qed.
Lemma truths_zero : forall f xs, truths f xs = 0%nat <-> forall x, In x xs -> ~ trueFor f x.
Proof.
  intros f xs. unfold truths, trueFor. induction xs as [|x xs IH]; cbn; [split; auto; tauto|].
  destruct (isTrue (f x)) eqn:T; cbn.
  - split; [discriminate|]. intros H. elim (H x (or_introl eq_refl)). now apply isTrue_iff.
  - rewrite IH. split.
    + intros H y [<-|Hy]; auto. rewrite <- isTrue_iff. congruence.
    + auto.
Qed.
Lemma quant_means : forall q f xs, quantVal q f xs (quantInit q) = true <-> quantified q f xs.
Proof.
  intros q f xs. destruct q; cbn [quantVal quantInit quantified].
  - rewrite andb_true_r, forallb_forall. unfold trueFor. split; intros H x Hx; [apply isTrue_iff|rewrite isTrue_iff]; auto.
  - rewrite orb_false_r, existsb_exists. unfold trueFor. split; intros [x [Hx T]]; exists x; split; auto; now apply isTrue_iff.
  - rewrite Nat.eqb_eq. unfold trueFor. split.
    + unfold truths. induction xs as [|x xs IH]; cbn; intros H; [discriminate H|]. destruct (isTrue (f x)) eqn:T; cbn in H.
      * injection H as H. fold (truths f xs) in H. pose proof (proj1 (truths_zero f xs) H) as H0. exists [], x, xs. splits; auto. now apply isTrue_iff.
      * destruct (IH H) as [l1 [y [l2 [-> [T1 T2]]]]]. exists (x :: l1), y, l2. splits; auto.
        intros z [<-|Hz]; auto. unfold trueFor. rewrite <- isTrue_iff. congruence.
    + intros [l1 [x [l2 [-> [T H]]]]]. unfold truths. rewrite filter_app, app_length. cbn [List.filter].
      apply isTrue_iff in T. rewrite T. cbn [length].
      assert (A : truths f l1 = 0%nat) by (apply truths_zero; intros; apply H, in_or_app; auto).
      assert (A2 : truths f l2 = 0%nat) by (apply truths_zero; intros; apply H, in_or_app; auto). unfold truths in *. lia.
  - rewrite andb_true_r, forallb_forall. unfold trueFor. split; intros H x Hx.
    + specialize (H x Hx). rewrite <- isTrue_iff. destruct (isTrue (f x)); [discriminate H|congruence].
    + specialize (H x Hx). destruct (isTrue (f x)) eqn:T; auto. elim H. now apply isTrue_iff.
Qed.
Lemma quant_node : forall E q iv og l flt c c0 xs v r1 c', run E l c (VList xs) c0 ->
  gives (evalQuant q (child (map (eval E) [l; flt]) 1) iv xs (quantInit q)) c0 (v, r1) c' -> run E (predicate q iv og l flt) c v c'.
Proof.
  intros E q iv og l flt c c0 xs v r1 c' Rl G. unfold predicate. apply run_node with (v := v); auto. intros r0. exists r1.
  destruct q; cbn [evalNode]; 
    match goal with |- context [quantifierOf ?n] => let x := eval vm_compute in (quantifierOf n) in change (quantifierOf n) with x end;
    match goal with |- context [if strEqb ?a ?b then _ else _] => change (strEqb a b) with false end; cbv iota;
    (eapply gives_bind; [eapply gives_child; [reflexivity|exact Rl]|]); exact G.
Qed.
(** The filter gives a Boolean, null or empty for every element: the predicate is the quantifier, where only true counts as true. *)
Theorem C37_quantifiers : forall E (I : ctx -> Prop) q iv og l flt f c c0 xs,
  run E l c (VList xs) c0 -> I c0 -> (forall x, In x xs -> boolish (f x) = true /\ filterIs E I iv flt f x) ->
  exists b c', run E (predicate q iv og l flt) c (VBool b) c' /\ I c' /\ (b = true <-> quantified q f xs).
Proof.
  intros E I q iv og l flt f c c0 xs Rl Hc H.
  destruct (quant_gives E I iv [l; flt] flt f q xs c0 (quantInit q) eq_refl Hc) as [b [c' [r1 [Q [G I']]]]]; auto.
  { destruct q; cbn; auto. }
  exists b, c'. splits; auto.
  - eapply quant_node; eauto.
  - rewrite Q. apply quant_means.
Qed.
(** A filter value that is no truth value, when it is reached, gives the bad-type null; ALL reaches it behind true ones. *)
Theorem C37_filter_must_be_boolean : forall E (I : ctx -> Prop) iv og l flt f c c0 pre x post,
  run E l c (VList (pre ++ x :: post)) c0 -> I c0 -> (forall y, In y pre -> f y = VBool true /\ filterIs E I iv flt f y) ->
  filterIs E I iv flt f x -> boolish (f x) = false ->
  exists c', run E (predicate QAll iv og l flt) c (VNull NBadType) c'.
Proof.
  intros E I iv og l flt f c c0 pre x post Rl Hc Hp Hx Bx.
  assert (K : forall c1, I c1 -> exists c' r1, gives (evalQuant QAll (child (map (eval E) [l; flt]) 1) iv (pre ++ x :: post) true) c1 (VNull NBadType, r1) c').
  { clear Rl Hc c0. induction pre as [|y pre IH]; intros c1 Hc1.
    - destruct (Hx c1 Hc1) as [c2 [R I2]]. exists c2. eexists. cbn [app evalQuant].
      eapply gives_bind; [apply gives_set|]. eapply gives_bind; [eapply gives_child; [reflexivity|exact R]|]. rewrite Bx. apply gives_ret.
    - destruct (Hp y (or_introl eq_refl)) as [Ty Fy]. destruct (Fy c1 Hc1) as [c2 [R I2]].
      destruct (IH (fun z Hz => Hp z (or_intror Hz)) c2 I2) as [c' [r1 G]]. exists c', r1. cbn [app evalQuant].
      eapply gives_bind; [apply gives_set|]. eapply gives_bind; [eapply gives_child; [reflexivity|exact R]|]. rewrite Ty. exact G. }
  destruct (K c0 Hc) as [c' [r1 G]]. exists c'. eapply quant_node; eauto.
Qed.
(** A decided predicate stops: the filter need not be defined behind the deciding element (ALL: a false one, ANY and NONE: a true one). *)
Theorem C37_stops : forall E (I : ctx -> Prop) q (d : bool) iv og l flt f c c0 pre x post,
  (q = QAll /\ d = false) \/ (q = QAny /\ d = true) \/ (q = QNone /\ d = true) ->
  run E l c (VList (pre ++ x :: post)) c0 -> I c0 -> (forall y, In y pre -> f y = VBool (negb d) /\ filterIs E I iv flt f y) ->
  filterIs E I iv flt f x -> f x = VBool d ->
  exists c', run E (predicate q iv og l flt) c (VBool (match q with QAny => true | _ => false end)) c' /\ I c'.
Proof.
  intros E I q d iv og l flt f c c0 pre x post Hq Rl Hc Hp Hx Dx.
  assert (K : forall c1, I c1 -> exists c', gives (evalQuant q (child (map (eval E) [l; flt]) 1) iv (pre ++ x :: post) (quantInit q)) c1
                (VBool (match q with QAny => true | _ => false end), VBool (match q with QAny => true | _ => false end)) c' /\ I c').
  { clear Rl Hc c0. induction pre as [|y pre IH]; intros c1 Hc1.
    - destruct (Hx c1 Hc1) as [c2 [R I2]]. exists c2. split; auto. cbn [app evalQuant].
      eapply gives_bind; [apply gives_set|]. eapply gives_bind; [eapply gives_child; [reflexivity|exact R]|]. rewrite Dx.
      destruct Hq as [[-> ->]|[[-> ->]|[-> ->]]]; apply gives_ret.
    - destruct (Hp y (or_introl eq_refl)) as [Ty Fy]. destruct (Fy c1 Hc1) as [c2 [R I2]].
      destruct (IH (fun z Hz => Hp z (or_intror Hz)) c2 I2) as [c' [G I']]. exists c'. split; auto. cbn [app evalQuant].
      eapply gives_bind; [apply gives_set|]. eapply gives_bind; [eapply gives_child; [reflexivity|exact R]|]. rewrite Ty.
      destruct Hq as [[-> ->]|[[-> ->]|[-> ->]]]; exact G. }
  destruct (K c0 Hc) as [c' [G I']]. exists c'. split; auto. eapply quant_node; eauto.
Qed.
(** x > 2 as a filter. *)
Definition xGt2 : expr := Node (KRel OGT) [Node (KVar [120] true) []; konst (VInt 2)].
Definition gt2 (v : value) : value := match v with VInt z => VBool (2 <? z) | _ => VNull NNull end.
Lemma var_set : forall E c s v, run E (Node (KVar s true) []) (setVar c s v) v (setVar c s v).
Proof. intros E c s v [r ks]. exists (Cache r ks). rewrite eval_eq. unfold evalNode, mbind, mget, getVar, setVar, mret. cbn [lookup fst snd]. now rewrite strEqb_refl. Qed.
Lemma xGt2_filter : forall E c z, filterIs E (others E [120] c) [120] xGt2 gt2 (VInt z).
Proof.
  intros E c z c1 Hc. exists (setVar c1 [120] (VInt z)). split.
  - apply run_node with (v := gt2 (VInt z)); auto. intros r0. eexists. cbn [evalNode].
    eapply gives_bind; [eapply gives_child; [reflexivity|apply var_set]|].
    eapply gives_bind; [eapply gives_child; [reflexivity|apply konst_yields]|].
    eapply gives_bind; [apply gives_lift; reflexivity|]. cbn [vlessThan vequal]. 
    match goal with |- gives (mret (same ?v)) _ (?w, _) _ => replace v with w; [apply gives_ret|] end.
    cbn. destruct (Z.ltb_spec 2 z), (Z.ltb_spec z 2), (Z.eqb_spec z 2); cbn; auto; lia.
  - intros s Hs. unfold getVar, setVar. cbn [lookup]. destruct (strEqb s [120]) eqn:Q; [apply strEqb_eq in Q; congruence|]. now apply Hc.
Qed.
Example C37_ex : exists c', run E0 (predicate QSingle [120] [] (konst (VList [VInt 1; VInt 3; VInt 2])) xGt2) [] (VBool true) c'.
Proof.
  destruct (C37_quantifiers E0 (others E0 [120] []) QSingle [120] [] (konst (VList [VInt 1; VInt 3; VInt 2])) xGt2 gt2 [] [] [VInt 1; VInt 3; VInt 2])
    as [b [c' [R [_ Q]]]].
  - apply konst_yields.
  - intros s Hs. reflexivity.
  - intros x Hx. cbn in Hx. intuition subst; try apply xGt2_filter; reflexivity.
  - exists c'. replace true with b; auto. apply Q. exists [VInt 1], (VInt 3), [VInt 2]. splits; [reflexivity|reflexivity|].
    cbn. intros y Hy. unfold trueFor. intuition subst; discriminate.
Qed.

(** * C38 *)
(** [x IN l WHERE flt | mp]; filter and mapping are optional. *)
Definition comprehension (iv origin : str) (l : expr) (flt mp : option expr) : expr :=
  Node (KListComp iv origin (match flt with Some _ => true | None => false end) (match mp with Some _ => true | None => false end))
       (l :: (match flt with Some e => [e] | None => [] end) ++ (match mp with Some e => [e] | None => [] end)).
(** Evaluated with the inner variable set to x (or left as the filter left the context), the sub-expression gives g x. *)
Definition partIs (E : env) (I : ctx -> Prop) (iv : str) (e : expr) (g : value -> value) (x : value) : Prop :=
  forall c, I c -> getVar E c iv = x -> exists c', run E e c (g x) c' /\ I c' /\ getVar E c' iv = x.
Definition setsInner (I : ctx -> Prop) (iv : str) (xs : list value) : Prop := forall c x, In x xs -> I c -> I (setVar c iv x).
Lemma getVar_set : forall E c s v, getVar E (setVar c s v) s = v.
Proof. intros. unfold getVar, setVar. cbn [lookup]. now rewrite strEqb_refl. Qed.
Lemma getVar_other : forall E c s t v, s <> t -> getVar E (setVar c t v) s = getVar E c s.
Proof. intros E c s t v N. unfold getVar, setVar. cbn [lookup]. destruct (strEqb s t) eqn:Q; auto. apply strEqb_eq in Q. congruence. Qed.

Definition keeps (flt : option expr) (f : value -> value) (x : value) : bool := match flt with Some _ => isTrue (f x) | None => true end.
Definition image (mp : option expr) (g : value -> value) (x : value) : value := match mp with Some _ => g x | None => x end.
Lemma comp_gives : forall E (I : ctx -> Prop) iv f g fm mm flt mp,
  match fm, flt with Some m, Some e => forall x c v c', run E e c v c' -> (x = v -> gives m c x c') | None, None => True | _, _ => False end ->
  match mm, mp with Some m, Some e => forall x c v c', run E e c v c' -> (x = v -> gives m c x c') | None, None => True | _, _ => False end ->
  forall xs c, setsInner I iv xs -> I c ->
  (forall x, In x xs -> match flt with Some e => boolish (f x) = true /\ partIs E I iv e f x | None => True end /\
                        match mp with Some e => keeps flt f x = true -> partIs E I iv e g x | None => True end) ->
  exists c', gives (evalComp fm mm iv xs) c (Some (map (image mp g) (List.filter (keeps flt f) xs))) c' /\ I c'.
Proof.
  intros E I iv f g fm mm flt mp HF HM xs. induction xs as [|x xs IH]; intros c SI Hc H.
  - exists c. split; auto. apply gives_ret.
  - destruct (H x (or_introl eq_refl)) as [Hf Hm].
    assert (Kf : exists c1, gives (match fm with None => mret (Some true) | Some m => let! f := m in mret (if boolish f then Some (isTrue f) else None) end)
                     (setVar c iv x) (Some (keeps flt f x)) c1 /\ I c1 /\ getVar E c1 iv = x).
    { destruct fm as [m|], flt as [e|]; try now elim HF.
      - destruct Hf as [Bx Px]. destruct (Px (setVar c iv x) (SI c x (or_introl eq_refl) Hc) (getVar_set E c iv x)) as [c1 [R [I1 V1]]].
        exists c1. split; auto. eapply gives_bind; [eapply HF; [exact R|reflexivity]|]. rewrite Bx. apply gives_ret.
      - exists (setVar c iv x). splits; auto using getVar_set; [apply gives_ret|]. apply SI; auto. now left. }
    destruct Kf as [c1 [G1 [I1 V1]]]. cbn [evalComp List.filter]. destruct (keeps flt f x) eqn:Kx.
    + assert (Km : exists c2, gives (match mm with None => mret x | Some m => m end) c1 (image mp g x) c2 /\ I c2).
      { destruct mm as [m|], mp as [e|]; try now elim HM.
        - destruct (Hm eq_refl c1 I1 V1) as [c2 [R [I2 _]]]. exists c2. split; auto. eapply HM; [exact R|reflexivity].
        - exists c1. split; auto. apply gives_ret. }
      destruct Km as [c2 [G2 I2]]. destruct (IH c2 (fun c y Hy => SI c y (or_intror Hy)) I2 (fun y Hy => H y (or_intror Hy))) as [c' [G I']]. exists c'. split; auto.
      eapply gives_bind; [apply gives_set|]. eapply gives_bind; [exact G1|]. cbv iota.
      eapply gives_bind; [exact G2|]. eapply gives_bind; [exact G|]. apply gives_ret.
    + destruct (IH c1 (fun c y Hy => SI c y (or_intror Hy)) I1 (fun y Hy => H y (or_intror Hy))) as [c' [G I']]. exists c'. split; auto.
      eapply gives_bind; [apply gives_set|]. eapply gives_bind; [exact G1|]. exact G.
Qed.
(** The result is the images of exactly the elements whose filter is true, in order. *)
Theorem C38_comprehension : forall E (I : ctx -> Prop) iv og l flt mp f g c c0 xs,
  run E l c (VList xs) c0 -> I c0 -> setsInner I iv xs ->
  (forall x, In x xs -> match flt with Some e => boolish (f x) = true /\ partIs E I iv e f x | None => True end /\
                        match mp with Some e => keeps flt f x = true -> partIs E I iv e g x | None => True end) ->
  exists c', run E (comprehension iv og l flt mp) c (VList (map (image mp g) (List.filter (keeps flt f) xs))) c' /\ I c'.
Proof.
  intros E I iv og l flt mp f g c c0 xs Rl Hc SI H. unfold comprehension.
  set (es := l :: _).
  destruct flt as [fe|], mp as [me|].
  - destruct (comp_gives E I iv f g (Some (child (map (eval E) es) 1)) (Some (child (map (eval E) es) 2)) (Some fe) (Some me)) with (xs := xs) (c := c0) as [c' [G I']]; auto.
    { intros x c1 v c2 R ->. eapply gives_child; [|exact R]. reflexivity. }
    { intros x c1 v c2 R ->. eapply gives_child; [|exact R]. reflexivity. }
    exists c'. split; auto. eapply run_node; [|reflexivity]. intros r0. eexists. cbn [evalNode].
    eapply gives_bind; [eapply gives_child; [reflexivity|exact Rl]|]. cbn [isNull isEmpty orb negb andb].
    eapply gives_bind; [exact G|]. apply gives_ret.
  - destruct (comp_gives E I iv f g (Some (child (map (eval E) es) 1)) None (Some fe) None) with (xs := xs) (c := c0) as [c' [G I']]; auto.
    { intros x c1 v c2 R ->. eapply gives_child; [|exact R]. reflexivity. }
    exists c'. split; auto. eapply run_node; [|reflexivity]. intros r0. eexists. cbn [evalNode].
    eapply gives_bind; [eapply gives_child; [reflexivity|exact Rl]|]. cbn [isNull isEmpty orb negb andb].
    eapply gives_bind; [exact G|]. apply gives_ret.
  - destruct (comp_gives E I iv f g None (Some (child (map (eval E) es) 1)) None (Some me)) with (xs := xs) (c := c0) as [c' [G I']]; auto.
    { intros x c1 v c2 R ->. eapply gives_child; [|exact R]. reflexivity. }
    exists c'. split; auto. eapply run_node; [|reflexivity]. intros r0. eexists. cbn [evalNode].
    eapply gives_bind; [eapply gives_child; [reflexivity|exact Rl]|]. cbn [isNull isEmpty orb negb andb].
    eapply gives_bind; [exact G|]. apply gives_ret.
  - exists c0. split; auto. eapply run_node; [|reflexivity]. intros r0. eexists. cbn [evalNode].
    eapply gives_bind; [eapply gives_child; [reflexivity|exact Rl]|]. cbn [isNull isEmpty orb negb andb].
    replace (map (image None g) (List.filter (keeps None f) xs)) with xs; [apply gives_ret|].
    unfold keeps, image. rewrite map_id. clear. induction xs; cbn; congruence.
Qed.
(** reduce(acc = i, iv IN l | mp) is the left fold of the mapping. *)
Definition reduce (acc iv origin : str) (i l mp : expr) : expr := Node (KReduce acc iv origin) [i; l; mp].
Theorem C38_reduce : forall E (I : ctx -> Prop) acc iv og i l mp g c c0 c1 v0 xs, acc <> iv ->
  run E i c v0 c0 -> run E l c0 (VList xs) c1 -> I (setVar c1 acc v0) -> setsInner I iv xs ->
  (forall a x c, In x xs -> I c -> getVar E c acc = a -> getVar E c iv = x -> exists c', run E mp c (g a x) c' /\ I (setVar c' acc (g a x))) ->
  exists c', run E (reduce acc iv og i l mp) c (fold_left g xs v0) c' /\ I c'.
Proof.
  intros E I acc iv og i l mp g c c0 c1 v0 xs Nv Ri Rl Hc SI H.
  assert (K : forall xs c a, setsInner I iv xs -> (forall x, In x xs -> forall a c, I c -> getVar E c acc = a -> getVar E c iv = x -> exists c', run E mp c (g a x) c' /\ I (setVar c' acc (g a x))) ->
              I c -> getVar E c acc = a -> exists c', gives (evalReduce (child (map (eval E) [i; l; mp]) 2) acc iv xs) c tt c' /\ I c' /\ getVar E c' acc = fold_left g xs a).
  { clear xs Rl H Hc SI. induction xs as [|x xs IH]; intros c2 a SI H Hc Ha.
    - exists c2. splits; auto. apply gives_ret.
    - destruct (H x (or_introl eq_refl) a (setVar c2 iv x)) as [c3 [R I3]]; auto using getVar_set.
      { apply SI; auto. now left. }
      { now rewrite getVar_other by auto. }
      destruct (IH (setVar c3 acc (g a x)) (g a x) (fun c y Hy => SI c y (or_intror Hy)) (fun y Hy => H y (or_intror Hy))) as [c' [G [I' F]]]; auto using getVar_set.
      exists c'. splits; auto. cbn [evalReduce]. eapply gives_bind; [apply gives_set|].
      eapply gives_bind; [eapply gives_child; [reflexivity|exact R]|]. eapply gives_bind; [apply gives_set|]. exact G. }
  destruct (K xs (setVar c1 acc v0) v0) as [c' [G [I' F]]]; auto using getVar_set.
  exists c'. split; auto. eapply run_node; [|reflexivity]. intros r0. eexists. cbn [evalNode].
  eapply gives_bind; [eapply gives_child; [reflexivity|exact Ri]|].
  eapply gives_bind; [eapply gives_child; [reflexivity|exact Rl]|]. cbn [isNull isEmpty orb].
  eapply gives_bind; [apply gives_set|]. eapply gives_bind; [exact G|]. eapply gives_bind; [apply gives_get|]. rewrite F. apply gives_ret.
Qed.
(** Null and empty collections are passed through, other values are rejected. *)
Theorem C38_not_a_list : forall E iv og acc l flt mp i c v,
  yields E c l v -> yields E c i (VInt 0) -> (match v with VList _ => False | _ => True end) ->
  yields E c (comprehension iv og l flt mp) (if isNull v || isEmpty v then v else VNull NBadType) /\
  (forall mp', yields E c (reduce acc iv og i l mp') (if isNull v || isEmpty v then v else VNull NBadType)).
Proof.
  intros E iv og acc l flt mp i c v Y Yi N. split; [|intros mp']; destruct v; try (now elim N);
    (eapply run_node; [|reflexivity]); intros r0; eexists; cbn [evalNode].
  1-15: eapply gives_bind; [eapply gives_child; [reflexivity|exact Y]|]; apply gives_ret.
  all: eapply gives_bind; [eapply gives_child; [reflexivity|exact Yi]|].
  all: eapply gives_bind; [eapply gives_child; [reflexivity|exact Y]|]; apply gives_ret.
Qed.
(** a + x as the mapping of a reduce, x > 2 and x as a comprehension *)
Definition aPlusX : expr := Node (KArith OAdd) [Node (KVar [97] true) []; Node (KVar [120] true) []].
Lemma var_run : forall E c s, run E (Node (KVar s true) []) c (getVar E c s) c.
Proof. intros E c s [r ks]. exists (Cache r ks). rewrite eval_eq. reflexivity. Qed.
Example C38_comprehension_ex :
  exists c', run E0 (comprehension [120] [] (konst (VList [VInt 1; VInt 3; VInt 4])) (Some xGt2) None) [] (VList [VInt 3; VInt 4]) c'.
Proof.
  destruct (C38_comprehension E0 (fun _ => True) [120] [] (konst (VList [VInt 1; VInt 3; VInt 4])) (Some xGt2) None gt2 (fun x => x) [] [] [VInt 1; VInt 3; VInt 4]) as [c' [R _]].
  - apply konst_yields.
  - exact Logic.I.
  - intros c x _ _. exact Logic.I.
  - intros x Hx. split; [|exact Logic.I]. assert (exists z, x = VInt z) as [z ->] by (cbn in Hx; intuition (subst; eauto)). split; [reflexivity|].
    intros c _ V. exists c. splits; auto. eapply run_node; [|reflexivity]. intros r0. eexists. cbn [evalNode].
    eapply gives_bind; [eapply gives_child; [reflexivity|apply var_run]|]. rewrite V.
    eapply gives_bind; [eapply gives_child; [reflexivity|apply konst_yields]|].
    eapply gives_bind; [apply gives_lift; reflexivity|].
    match goal with |- gives (mret (same ?v)) _ (?w, _) _ => replace v with w; [apply gives_ret|] end.
    cbn. destruct (Z.ltb_spec 2 z), (Z.ltb_spec z 2), (Z.eqb_spec z 2); cbn; auto; lia.
  - exists c'. exact R.
Qed.
Example C38_reduce_ex :
  exists c', run E0 (reduce [97] [120] [] (konst (VList [])) (konst (VList [VInt 1; VInt 3; VInt 4])) aPlusX) [] (VList [VInt 1; VInt 3; VInt 4]) c'.
Proof.
  destruct (C38_reduce E0 (fun c => exists l, getVar E0 c [97] = VList l) [97] [120] [] (konst (VList [])) (konst (VList [VInt 1; VInt 3; VInt 4])) aPlusX
             (fun a x => match a with VList l => VList (l ++ [x]) | _ => a end) [] [] [] (VList []) [VInt 1; VInt 3; VInt 4]) as [c' [R _]]; auto.
  - discriminate.
  - apply konst_yields.
  - apply konst_yields.
  - exists []. reflexivity.
  - intros c x _ [l H]. exists l. rewrite getVar_other; auto. discriminate.
  - intros a x c Hx [l Hl] Va Vx. exists c. rewrite Hl in Va. subst a. split; [|eexists; apply getVar_set].
    eapply run_node; [|reflexivity]. intros r0. eexists. cbn [evalNode].
    eapply gives_bind; [eapply gives_child; [reflexivity|apply var_run]|].
    eapply gives_bind; [eapply gives_child; [reflexivity|apply var_run]|]. rewrite Hl, Vx.
    assert (exists z, x = VInt z) as [z ->] by (cbn in Hx; intuition (subst; eauto)).
    eapply gives_bind; [apply gives_lift; reflexivity|]. apply gives_ret.
  - exists c'. exact R.
Qed.
Print Assumptions C35_subscript. Print Assumptions C35_slice. Print Assumptions C36_first_match. Print Assumptions C36_default.
Print Assumptions C37_quantifiers. Print Assumptions C37_stops. Print Assumptions C38_comprehension. Print Assumptions C38_reduce.
