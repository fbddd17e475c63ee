(** Proofs for C186. *)
From Coq Require Import String List.
From Verif Require Import Prelude ValueBase DateModel DateSpec DateProofs ValueModel ValueProofs FloatProofs ExprModel ExprSpec ExprProofs CloneSpec EvalModel EvalSpec EvalProofs FuncGuardProps CastProps ValueProps FaultSpec.
Import ListNotations.
Local Open Scope list_scope.
Open Scope Z_scope.

(** * Operators on values *)
Definition ok {A} (o : outcome A) : Prop := exists a, o = Ret a.
Lemma ok_ret A (a : A) : ok (Ret a). Proof. now exists a. Qed.
Lemma addDays_in d n : inCalendar d n -> ok (addDays d n).
Proof. intros [V (s & T & R)]. destruct (addDays_ok d n s V T R) as (d' & H & _). now exists d'. Qed.
Lemma subDays_in d n : inCalendar d (- n) -> ok (subDays d n).
Proof. exact (addDays_in d (- n)). Qed.
Lemma vadd_ok X v w : match v, w with VDate d, VInt n | VInt n, VDate d => inCalendar d n | _, _ => True end -> ok (vadd X v w).
Proof.
  intros H. unfold vadd. destruct (nullOrEmpty v w); [apply ok_ret|].
  destruct v, w; try apply ok_ret; destruct (addDays_in _ _ H) as [d' ->]; apply ok_ret.
Qed.
Lemma vsub_ok v w : match v, w with VDate d, VInt n => inCalendar d (- n) | VDate d, VDate e => inCalendar d 0 /\ inCalendar e 0 | _, _ => True end -> ok (vsub v w).
Proof.
  intros H. unfold vsub. destruct (nullOrEmpty v w); [apply ok_ret|]. destruct v, w; try apply ok_ret.
  - destruct (subDays_in _ _ H) as [d' ->]; apply ok_ret.
  - destruct H as [[_ (a & -> & _)] [_ (b & -> & _)]]. apply ok_ret.
Qed.
Lemma vmul_ok v w : ok (vmul v w).
Proof. unfold vmul. destruct (nullOrEmpty v w); [apply ok_ret|]. destruct v, w; try apply ok_ret. destruct (_ || _); apply ok_ret. Qed.
Lemma quot_in x y : int64 x -> int64 y -> y <> 0 -> ~ (x = - 2 ^ 63 /\ y = -1) -> in_int64 (Z.quot x y) = true.
Proof.
  unfold int64. change (2 ^ 63) with 9223372036854775808. intros Hx Hy N M. unfold in_int64, int64_min, int64_max.
  assert (A : Z.abs (Z.quot x y) <= Z.abs x).
  { rewrite <- Z.quot_abs by exact N. apply Z.quot_le_upper_bound; nia. }
  destruct (Z.eq_dec y (-1)) as [->|Ny].
  - replace (Z.quot x (-1)) with (- x) by (change (-1) with (- (1)); rewrite Z.quot_opp_r, Z.quot_1_r by lia; reflexivity). lia.
  - destruct (Z.eq_dec x (-9223372036854775808)) as [->|Nx]; [|lia].
    destruct (Z.eq_dec y 1) as [->|N1]; [rewrite Z.quot_1_r; lia|].
    assert (Z.abs (Z.quot (-9223372036854775808) y) <= 4611686018427387904).
    { rewrite <- Z.quot_abs by exact N. apply Z.quot_le_upper_bound; lia. }
    lia.
Qed.
Lemma vdiv_ok v w : match v, w with VInt x, VInt y => int64 x /\ int64 y | _, _ => True end -> ok (vdiv v w).
Proof.
  intros H. unfold vdiv. destruct (nullOrEmpty v w); [apply ok_ret|]. destruct v, w; try apply ok_ret.
  all: try (destruct (bigEnough _); apply ok_ret). all: try (destruct (negb _); apply ok_ret).
  destruct H as [Hx Hy]. destruct (z0 =? 0) eqn:Z0; [apply ok_ret|]. destruct (_ && _) eqn:O; [apply ok_ret|].
  unfold cdiv. rewrite Z0, quot_in; auto; [apply ok_ret|lia|]. intros [-> ->]. discriminate O.
Qed.
Lemma vmod_ok X v w : match v, w with VInt x, VInt y => int64 x /\ int64 y /\ ~ (x = - 2 ^ 63 /\ y = -1) | _, _ => True end -> ok (vmod X v w).
Proof.
  intros H. unfold vmod. destruct (nullOrEmpty v w); [apply ok_ret|]. destruct v, w; try apply ok_ret.
  all: try (destruct (bigEnough _); apply ok_ret). 2: destruct (negb _); apply ok_ret.
  destruct H as (Hx & Hy & N). destruct (z0 =? 0) eqn:Z0; [apply ok_ret|]. cbn [negb]. unfold crem. rewrite Z0, quot_in; auto; [apply ok_ret|lia].
Qed.
Lemma vneg_ok v : match v with VInt x => int64 x | _ => True end -> ok (vneg v).
Proof.
  intros H. destruct v; try apply ok_ret. cbn [vneg]. destruct (z =? int64_min) eqn:M; [apply ok_ret|].
  replace (in_int64 (- z)) with true; [apply ok_ret|]. unfold int64 in H. change (2 ^ 63) with 9223372036854775808 in H. unfold in_int64, int64_min, int64_max in *. lia.
Qed.
Lemma vtoInt_ok E v : integral E v -> ok (vtoInt E v).
Proof.
  intros [F S]. destruct v as [| | | |f|s| | | | | | | | | |]; try apply ok_ret; cbn [vtoInt].
  - destruct (F f eq_refl) as [V N]. destruct two63_key as (K1 & K2 & V1 & V2).
    rewrite !leb_ltb by (try exact N; apply f64ofZ_not_nan). rewrite !SFltb_key by (try assumption; apply f64ofZ_not_nan). rewrite K1, K2.
    destruct (Z.ltb_spec (- 2 ^ 1137) (fkey f)) as [L1|L1]; cbn [negb]; [|apply ok_ret].
    destruct (Z.ltb_spec (fkey f) (2 ^ 1137)) as [L2|L2]; cbn [negb]; [|apply ok_ret].
    destruct (proj2 (toInt_spec f) (key_fits f V N (conj L1 L2))) as [z ->]. apply ok_ret.
  - destruct (existsb (fun b => b =? 46) s) eqn:X.
    + apply existsb_exists in X as (b & Hb & Q). apply Z.eqb_eq in Q. subst b. specialize (S s eq_refl Hb).
      destruct (xstrtod _ _) as [d n]. cbn [fst] in S. apply toInt_spec in S as [z ->]. apply ok_ret.
    + destruct (strtoll _) as [[z n] er]. apply ok_ret.
Qed.
Lemma castTo_ok E t v r : (t = 4 -> integral E v) -> ok (castTo E t v r).
Proof.
  intros H. unfold castTo. destruct (t =? 2); [apply ok_ret|]. destruct (t =? 4) eqn:Q; [|destruct (t =? 8); [|destruct (t =? 16)]; apply ok_ret].
  apply Z.eqb_eq in Q. destruct (vtoInt_ok E v (H Q)) as [r' ->]. apply ok_ret.
Qed.
Lemma setContains_ok E s v : canHash v -> ok (setContains E s v).
Proof. intros H. unfold setContains. destruct (canHash_ok (eX E) v H) as [h ->]. apply ok_ret. Qed.
Lemma null_canHash n : canHash (VNull n).
Proof. split; [auto|]. intros x H. inversion H. Qed.
Lemma containment_ok E pos l r : match r with VSet _ => canHash l | _ => True end -> ok (containment E pos l r).
Proof.
  intros H. unfold containment. destruct r; try apply ok_ret.
  - match goal with |- context [match ?x with NNull => _ | _ => _ end] => destruct x end; apply ok_ret.
  - match goal with |- ok (obind (obind (setContains E ?x l) _) _) => destruct (setContains_ok E x l H) as [b ->]; cbn [obind]; destruct b; [apply ok_ret|];
    destruct (setContains_ok E x kNull (null_canHash _)) as [b ->]; apply ok_ret end.
Qed.
Lemma vrel_ok E o l r : match o with OIn | ONotIn => match r with VSet _ => canHash l | _ => True end | _ => True end -> ok (vrel E o l r).
Proof. intros H. destruct o; try apply ok_ret; now apply containment_ok. Qed.
Lemma buildSet_ok E l : Forall canHash l -> forall acc, ok (buildSet E l acc).
Proof.
  induction 1 as [|v l H _ IH]; intros acc; [apply ok_ret|]. cbn [buildSet]. destruct (setContains_ok E acc v H) as [b ->]. apply IH.
Qed.
Lemma subscript_ok l r : ok (subscript l r).
Proof.
  destruct l; try apply ok_ret; destruct r; try apply ok_ret; cbn [subscript]; unfold lenOf;
    match goal with
    | |- ok (if strEqb ?a ?b then _ else _) => destruct (strEqb a b); apply ok_ret
    | |- ok (if underscored ?a then _ else _) => destruct (underscored a); apply ok_ret
    | |- ok (if ?b then _ else _) => destruct b eqn:R; [apply ok_ret|]
    end.
  all: match goal with |- ok (match nth_error ?a ?b with _ => _ end) => destruct (nth_error a b) eqn:N; [apply ok_ret|apply nth_error_None in N] end.
  - exfalso. destruct (z <? 0) eqn:Q; lia.
  - exfalso. lia.
Qed.
Lemma attribute_ok l r r0 : (hasMembers l -> exists s, r = VStr s) -> ok (attribute l r r0).
Proof. intros H. destruct l; try apply ok_ret; destruct (H I) as [s ->]; apply ok_ret. Qed.
Lemma slice_ok l a b : ok (slice l a b).
Proof.
  unfold slice, lenOf. destruct (a <? 0) eqn:A; (destruct (b <=? _) eqn:Q1; [apply ok_ret|]; destruct (_ <=? _) eqn:Q2 at 1; [apply ok_ret|]).
  all: match goal with |- ok (if ?c then _ else _) => replace c with true; [apply ok_ret|] end; destruct (_ <=? b) eqn:Q3; lia.
Qed.

(** * Computations that return *)
Section Ends.
Variable E : env.
Variables K P : value -> Prop.
Context (K0 : K VEmpty).
Definition inv (s : list cache * ctx) : Prop := Forall (kept K) (fst s) /\ holds P (snd s).
Definition ends {A} (m : M A) (Q : A -> Prop) : Prop := forall s, inv s -> exists a s', m s = Ret (a, s') /\ Q a /\ inv s'.
Lemma kept_fresh : kept K noCache.
Proof. constructor; [exact K0|constructor]. Qed.
Lemma kept_at i ks : Forall (kept K) ks -> kept K (nth i ks noCache).
Proof. intros F. revert i. induction F as [|k ks H _ IH]; intros [|i]; cbn; auto using kept_fresh. Qed.
Lemma kept_put i k : kept K k -> forall ks, Forall (kept K) ks -> Forall (kept K) (setNth i k ks).
Proof. intros H. induction i as [|i IH]; intros ks F; inversion F; subst; cbn; constructor; auto using kept_fresh. Qed.
Definition any {A} (_ : A) : Prop := True.
Lemma ends_ret A (a : A) (Q : A -> Prop) : Q a -> ends (mret a) Q.
Proof. intros H s I0. now exists a, s. Qed.
Lemma ends_bind A C (m : M A) (f : A -> M C) R Q : ends m R -> (forall a, R a -> ends (f a) Q) -> ends (mbind m f) Q.
Proof. intros H H' s I0. destruct (H s I0) as (a & s' & Ra & Pa & I1). destruct (H' a Pa s' I1) as (b & s2 & R2 & Qb). exists b, s2. unfold mbind. now rewrite Ra. Qed.
Lemma ends_lift A (o : outcome A) (Q : A -> Prop) : (exists a, o = Ret a /\ Q a) -> ends (mlift o) Q.
Proof. intros (a & -> & H) s I0. now exists a, s. Qed.
Lemma ends_ok A (o : outcome A) : ok o -> ends (mlift o) any.
Proof. intros [a ->] s I0. now exists a, s. Qed.
Lemma ends_get x : ends (mget E x) any.
Proof. intros s I0. eexists _, _. split; [reflexivity|split; [exact I|exact I0]]. Qed.
Lemma ends_set x v : P v -> ends (mset x v) any.
Proof. intros H s [I1 I2]. eexists _, _. split; [reflexivity|split; [exact I|]]. split; [exact I1|]. cbn [snd]. unfold setVar, holds. constructor; assumption. Qed.
Lemma ends_child es i e : Forall (returns E K P) es -> nth_error es i = Some e -> ends (child (map (eval E) es) i) (canGive E K P e).
Proof.
  intros F N [ks c] [I1 I2]. cbn [fst snd] in I1, I2. unfold child. rewrite nth_error_map, N. cbn [option_map fst snd].
  rewrite Forall_forall in F. destruct (F e (nth_error_In _ _ N) (nth i ks noCache) c (kept_at i ks I1) I2) as (v & k' & c' & R & K1 & K2). rewrite R.
  eexists _, _. split; [reflexivity|]. split; [exists (nth i ks noCache), c, k', c'; auto using kept_at|]. split; [exact (kept_put i k' K1 ks I1)|exact K2].
Qed.
Lemma ends_within es i : Forall (returns E K P) es -> (i < List.length es)%nat -> ends (child (map (eval E) es) i) (fun v => exists e, In e es /\ canGive E K P e v).
Proof.
  intros F L s I0. destruct (nth_error es i) as [e|] eqn:N; [|apply nth_error_None in N; lia].
  destruct (ends_child es i e F N s I0) as (v & s' & R & G & K'). exists v, s'. split; [exact R|]. split; [|exact K']. exists e. split; [exact (nth_error_In _ _ N)|exact G].
Qed.
Lemma ends_some es i : Forall (returns E K P) es -> (i < List.length es)%nat -> ends (child (map (eval E) es) i) any.
Proof. intros F L s I0. destruct (ends_within es i F L s I0) as (v & s' & R & _ & K'). now exists v, s'. Qed.
Lemma ends_grand es i : Forall (returns E K P) es -> (i < List.length es)%nat -> ends (grandchild (map (eval E) es) i) any.
Proof.
  intros F L [ks c] [I1 I2]. cbn [fst snd] in I1, I2. unfold grandchild. cbn [fst snd]. pose proof (kept_at 0 ks I1) as Kn. destruct (nth 0 ks noCache) as [r1 k1]. inversion Kn as [? ? Kr Kk]; subst.
  destruct (ends_some es i F L (k1, c) (conj Kk I2)) as (v & [k2 c2] & -> & _ & K1 & K2). eexists _, _. split; [reflexivity|]. split; [exact I|]. split; [|exact K2].
  refine (kept_put 0 (Cache r1 k2) _ ks I1). constructor; [exact Kr|exact K1].
Qed.
Ltac step := eapply ends_bind; [|intros ? ?].
Ltac ret := apply ends_ret; exact I.
Lemma ends_all es : Forall (returns E K P) es -> ends (allChildren (map (eval E) es)) (Forall2 (canGive E K P) es).
Proof.
  intros F. unfold allChildren. rewrite map_length.
  match goal with |- ends (?g _ _) _ => assert (Go : forall n i, (i + n = List.length es)%nat -> ends (g n i) (Forall2 (canGive E K P) (skipn i es))) end; [|apply (Go _ 0%nat); reflexivity].
  induction n as [|n IH]; intros i L.
  - apply ends_ret. rewrite skipn_all2 by lia. constructor.
  - destruct (skipn i es) as [|e r] eqn:Q; [apply (f_equal (@List.length _)) in Q; rewrite skipn_length in Q; cbn in Q; lia|].
    apply nth_drop in Q as [N Q]. step; [exact (ends_child es i e F N)|]. step; [apply IH; lia|]. rewrite Q in H0. apply ends_ret. now constructor.
Qed.
Lemma ends_andOr es stop n : Forall (returns E K P) es -> forall i res, (i + n <= List.length es)%nat -> ends (evalAndOr (map (eval E) es) stop n i res) any.
Proof.
  intros F. induction n as [|n IH]; intros i res L; cbn [evalAndOr]; [ret|]. step; [apply ends_some; auto; lia|].
  destruct (_ || _); [ret|]. destruct (isBoolV a); [apply IH; lia|]. destruct (isNull a); [apply IH; lia|]. destruct (_ && _); [apply IH; lia|ret].
Qed.
Lemma ends_xor es n : Forall (returns E K P) es -> forall i he fi res, (i + n <= List.length es)%nat -> xorState he fi res -> ends (evalXor (map (eval E) es) n i he fi res) any.
Proof.
  intros F. induction n as [|n IH]; intros i he fi res L X; cbn [evalXor]; [ret|]. step; [apply ends_some; auto; lia|].
  destruct (isNull a); [ret|]. destruct a; try ret.
  - apply IH; [lia|]. now left.
  - destruct he; [apply IH; [lia|now left]|]. destruct fi; [apply IH; [lia|right; now right]|].
    destruct X as [X|[X|X]]; try discriminate X. destruct res; try discriminate X. apply IH; [lia|right; now right].
Qed.
Lemma ends_cases es cond n d r : Forall (returns E K P) es -> ends d any -> forall i, (i + 2 * n <= List.length es)%nat -> ends (evalCases E (map (eval E) es) cond n i d r) any.
Proof.
  intros F D. induction n as [|n IH]; intros i L; cbn [evalCases]; auto. step; [apply ends_some; auto; lia|]. destruct cond as [cv|].
  - destruct (veq _ cv a); [|apply IH; lia]. step; [apply ends_some; auto; lia|]. ret.
  - destruct a as [| |[]| | | | | | | | | | | | | ]; try ret; try (apply IH; lia). step; [apply ends_some; auto; lia|]. ret.
Qed.
Lemma ends_quant q m iv l : Forall P l -> ends m any -> forall res, ends (evalQuant q m iv l res) any.
Proof.
  intros L F. induction L as [|v l Hv L IH]; intros res; cbn [evalQuant]; [ret|]. step; [exact (ends_set iv v Hv)|]. step; [exact F|]. destruct (negb _); [ret|].
  destruct q, (isTrue a0); try ret; try apply IH. destruct res; [ret|apply IH].
Qed.
Lemma ends_comp f m iv l : Forall P l -> match f with Some x => ends x any | None => True end -> match m with Some x => ends x any | None => True end -> ends (evalComp f m iv l) any.
Proof.
  intros L Hf Hm. induction L as [|v l Hv L IH]; cbn [evalComp]; [ret|]. step; [exact (ends_set iv v Hv)|].
  eapply ends_bind with (R := any); [destruct f; [step; [exact Hf|]|]; ret|]. intros keep _.
  destruct keep as [[]|]; [|exact IH|ret]. eapply ends_bind with (R := any); [destruct m; [exact Hm|ret]|]. intros x _. step; [exact IH|]. ret.
Qed.
Lemma ends_reduce m acc iv l : Forall P l -> ends m P -> ends (evalReduce m acc iv l) any.
Proof.
  intros L H. induction L as [|v l Hv L IH]; cbn [evalReduce]; [ret|]. step; [exact (ends_set iv v Hv)|]. step; [exact H|]. step; [apply ends_set; assumption|]. exact IH.
Qed.
Lemma ends_path es n : Forall (returns E K P) es -> forall i st, (i + n <= List.length es)%nat -> ends (evalPath E (map (eval E) es) n i st) any.
Proof. intros F. induction n as [|n IH]; intros i st L; cbn [evalPath]; [ret|]. step; [apply ends_some; auto; lia|]. destruct (pathItem _ _ _ _); [apply IH; lia|ret]. Qed.

Lemma two es : List.length es = 2%nat -> exists l r : expr, es = [l; r].
Proof. destruct es as [|l [|r [|]]]; try discriminate. eauto. Qed.
Lemma one_of es : List.length es = 1%nat -> exists e : expr, es = [e].
Proof. destruct es as [|e [|]]; try discriminate. eauto. Qed.
Lemma quantifier_named n q : quantifierOf n = Some q -> isQuantifierName n.
Proof.
  unfold quantifierOf, isQuantifierName. intros H.
  destruct (strEqb n (B "all")) eqn:Q1; [apply strEqb_eq in Q1; subst; left; reflexivity|].
  destruct (strEqb n (B "any")) eqn:Q2; [apply strEqb_eq in Q2; subst; right; left; reflexivity|].
  destruct (strEqb n (B "single")) eqn:Q3; [apply strEqb_eq in Q3; subst; right; right; left; reflexivity|].
  destruct (strEqb n (B "none")) eqn:Q4; [apply strEqb_eq in Q4; subst; right; right; right; left; reflexivity|discriminate].
Qed.

Lemma ends_node k cs r : completeNode k cs -> harmless E K P k cs -> binds E K P k cs -> Forall (returns E K P) cs ->
  (forall kd gs rest, cs = Node kd gs :: rest -> Forall (returns E K P) gs) ->
  ends (evalNode E k r (map (eval E) cs) (match cs with Node _ gs :: _ => map (eval E) gs | [] => [] end) (map kindOf cs)) any.
Proof.
  intros Bt Hm Hb F G.
  assert (CH : forall i, (i < List.length cs)%nat -> ends (child (map (eval E) cs) i) any) by (intros; now apply ends_some).
  destruct k; cbn [evalNode]; cbn [completeNode builtNode harmless binds] in Bt, Hm, Hb; try ret; try contradiction.
  - destruct (two _ Bt) as (l & w & ->). step; [exact (ends_child [l; w] 0 l F eq_refl)|]. step; [exact (ends_child [l; w] 1 w F eq_refl)|].
    step; [apply ends_ok|ret]. destruct o; cbn [varith].
    + apply vadd_ok. exact (Hm l w _ _ eq_refl H H0).
    + apply vsub_ok. exact (Hm l w _ _ eq_refl H H0).
    + apply vmul_ok.
    + apply vdiv_ok. exact (Hm l w _ _ eq_refl H H0).
    + apply vmod_ok. exact (Hm l w _ _ eq_refl H H0).
  - destruct (one_of _ Bt) as [e ->]. pose proof (ends_child [e] 0 e F eq_refl) as C0. cbn [map] in C0 |- *.
    destruct o; try (step; [exact C0|]; ret).
    + step; [exact C0|]. step; [apply ends_ok, vneg_ok; exact (Hm e _ (or_introl eq_refl) H)|]. ret.
    + destruct Hm as [Hm Hv]. destruct (kindOf e) eqn:Kd; try ret; [|destruct (Hv name hasVersion); cbn [map]; now rewrite Kd].
      step; [exact C0|]. assert (O1 : ok (vadd (eX E) a one)) by (apply vadd_ok; pose proof (Hm e _ (or_introl eq_refl) H) as Q; destruct a; auto; exact I).
      step; [apply ends_lift; destruct O1 as [w O1]; exists w; split; [exact O1|exact (Hb e a eq_refl H w O1)]|]. step; [apply ends_set; assumption|]. ret.
    + destruct Hm as [Hm Hv]. destruct (kindOf e) eqn:Kd; try ret; [|destruct (Hv name hasVersion); cbn [map]; now rewrite Kd].
      step; [exact C0|]. assert (O1 : ok (vsub a one)) by (apply vsub_ok; pose proof (Hm e _ (or_introl eq_refl) H) as Q; destruct a; auto; exact I).
      step; [apply ends_lift; destruct O1 as [w O1]; exists w; split; [exact O1|exact (Hb e a eq_refl H w O1)]|]. step; [apply ends_set; assumption|]. ret.
  - destruct (two _ Bt) as (l & w & ->). step; [exact (ends_child [l; w] 0 l F eq_refl)|]. step; [exact (ends_child [l; w] 1 w F eq_refl)|].
    step; [apply ends_ok, vrel_ok|ret]. destruct o; try exact I; exact (Hm l w _ _ eq_refl H H0).
  - step; [apply CH; lia|]. step; [apply CH; lia|]. apply ends_ok, subscript_ok.
  - step; [apply CH; lia|]. destruct a; try ret.
    eapply ends_bind with (R := any); [destruct hasLo; [step; [apply CH; cbn [bit] in Bt; lia|]|]; ret|]. intros lo _.
    match goal with |- ends (match ?x with _ => _ end) _ => destruct x as [[?|]|]; try ret end.
    eapply ends_bind with (R := any); [destruct hasHi; [step; [apply CH; destruct hasLo; cbn [bit] in Bt; lia|]|]; ret|]. intros hi _.
    match goal with |- ends (match ?x with _ => _ end) _ => destruct x as [[]|]; try ret end.
    all: step; [apply ends_ok, slice_ok|]; ret.
  - destruct (two _ Bt) as (l & w & ->). step; [exact (ends_child [l; w] 0 l F eq_refl)|]. step; [exact (ends_child [l; w] 1 w F eq_refl)|].
    apply ends_ok, attribute_ok. exact (Hm l w _ _ eq_refl H H0).
  - rewrite map_length. destruct o; (step; [first [apply ends_andOr; auto; lia|apply ends_xor; [assumption|lia|right; now left]]|]; ret).
  - destruct (one_of _ Bt) as [e ->]. step; [exact (ends_child [e] 0 e F eq_refl)|]. apply ends_ok, castTo_ok. intros Q. exact (Hm Q e _ (or_introl eq_refl) H).
  - step; [now apply ends_all|]. step; [apply ends_ok; exact (Hm _ H)|]. ret.
  - destruct p; try ret. intros s I0. eexists _, _. split; [reflexivity|split; [exact I|exact I0]].
  - step; [apply ends_get|]. ret.
  - destruct Bt as [-> Bt]. step; [apply CH; lia|]. destruct a; try ret. intros s I0. eexists _, _. split; [reflexivity|split; [exact I|exact I0]].
  - step; [now apply ends_all|]. ret.
  - step; [now apply ends_all|]. step; [apply ends_ok, buildSet_ok|ret]. clear - Hm H. revert Hm. induction H as [|e v cs vs H _ IH]; intros Hm; constructor.
    + exact (Hm e v (or_introl eq_refl) H).
    + apply IH. intros e' v' Hin. apply Hm. now right.
  - step; [now apply ends_all|]. ret.
  - rewrite map_length.
    assert (D : ends (if hasDefault then let! v := child (map (eval E) cs) (if hasCond then 1 else 0) in mret (same v) else mret (same kNull)) any).
    { destruct hasDefault; [step; [apply CH; destruct hasCond; cbn [bit] in Hm; lia|]|]; ret. }
    pose proof (Nat.div_mod (List.length cs - ((if hasCond then 1 else 0) + (if hasDefault then 1 else 0))) 2 ltac:(lia)) as DM.
    set (n := ((List.length cs - _) / 2)%nat) in *.
    destruct hasCond; [step; [apply CH; cbn [bit] in Hm; lia|]|]; apply ends_cases; auto; cbn [bit] in Hm; destruct hasDefault; cbn [bit] in Hm; lia.
  - destruct Hm as [H1 H2]. destruct (strEqb name (B "exists")) eqn:Q.
    + apply strEqb_eq in Q. specialize (H1 Q). destruct cs as [|[kd gs] rest]; [contradiction|]. pose proof (G kd gs rest eq_refl) as Gs.
      step; [apply ends_grand; auto; lia|]. step; [apply ends_grand; auto; lia|]. ret.
    + destruct (quantifierOf name) as [q|] eqn:Qn; [|ret]. rewrite (H2 (quantifier_named _ _ Qn)) in *. cbn [bit] in Bt.
      destruct cs as [|e0 cs]; [discriminate Bt|]. step; [exact (ends_child (e0 :: cs) 0 e0 F eq_refl)|].
      destruct (_ || _); [ret|]. destruct a; try ret. apply ends_quant; [exact (Hb e0 _ eq_refl H)|apply CH; lia].
  - destruct cs as [|e0 cs]; [discriminate Bt|]. step; [exact (ends_child (e0 :: cs) 0 e0 F eq_refl)|]. destruct (_ || _); [ret|]. destruct a; try ret. destruct (_ && _); [ret|].
    step; [apply ends_comp; [exact (Hb e0 _ eq_refl H)|destruct hasFilter|destruct hasMapping]; auto; apply CH; [|destruct hasFilter]; cbn [bit] in Bt; lia|]. ret.
  - destruct Hb as (H1 & H2 & H3). destruct cs as [|e0 [|e1 [|e2 [|]]]]; try discriminate Bt.
    step; [exact (ends_child [e0; e1; e2] 0 e0 F eq_refl)|]. step; [exact (ends_child [e0; e1; e2] 1 e1 F eq_refl)|]. destruct (_ || _); [ret|]. destruct a0; try ret.
    step; [exact (ends_set _ _ (H1 _ _ eq_refl H))|]. step; [apply ends_reduce; [exact (H2 _ _ eq_refl H0)|]|].
    { intros s I0. destruct (ends_child [e0; e1; e2] 2 e2 F eq_refl s I0) as (v & s' & R & Gv & K'). exists v, s'. split; [exact R|]. split; [exact (H3 _ _ eq_refl Gv)|exact K']. } step; [apply ends_get|]. ret.
  - destruct cs as [|e cs]; [ret|]. change (map (eval E) (e :: cs)) with (eval E e :: map (eval E) cs) at 1. cbv iota.
    step; [apply CH; cbn; lia|]. destruct (vertexOf a); [|ret]. step; [apply ends_path; auto; rewrite map_length; cbn; lia|]. ret.
Qed.
Lemma returns_all e : complete e -> allNodes (harmless E K P) e -> allNodes (binds E K P) e -> allNodes (remembers E K P) e -> returns E K P e /\ Forall (returns E K P) (childrenOf e).
Proof.
  induction e as [k cs IH] using expr_ind'. unfold complete. cbn [allNodes childrenOf]. rewrite !fold_and_Forall. intros [Bk Bc] [Hk Hc] [Dk Dc] [Rk Rc].
  rewrite Forall_forall in IH, Bc, Hc, Dc, Rc.
  assert (F : Forall (returns E K P) cs) by (apply Forall_forall; intros x Hx; apply IH; auto; apply Bc, Hx).
  split; [|exact F]. intros [r ks] c Kk Kc. inversion Kk as [? ? Kr Ks]; subst.
  destruct (ends_node k cs r Bk Hk Dk F) with (s := (ks, c)) as ([v r1] & [ks' c'] & R & _ & _ & K').
  - intros kd gs rest ->. destruct (IH _ (or_introl eq_refl) (Bc _ (or_introl eq_refl)) (Hc _ (or_introl eq_refl)) (Dc _ (or_introl eq_refl)) (Rc _ (or_introl eq_refl))) as [_ Q]. exact Q.
  - split; assumption.
  - assert (Ev : eval E (Node k cs) (Cache r ks) c = Ret (v, Cache r1 ks', c')) by (rewrite eval_eq, R; reflexivity).
    exists v, (Cache r1 ks'), c'. split; [exact Ev|]. split; [exact (Rk _ _ _ _ _ Kk Kc Ev)|exact K'].
Qed.
End Ends.
