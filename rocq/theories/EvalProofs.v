(** Proofs about evaluation: independence of old results, and the running of the operands. *)
From Verif Require Import ValueBase ValueModel ValueProofs GraphModel ExprModel ExprProofs EvalModel EvalSpec.
Local Open Scope list_scope.
Local Open Scope Z_scope.

Section WithE.
Variable E : env.

(** ** Monadic runs *)
Definition gives {A} (m : M A) (c : ctx) (a : A) (c' : ctx) : Prop := forall ks, exists ks', m (ks, c) = Ret (a, (ks', c')).

Lemma gives_ret : forall A (a : A) c, gives (mret a) c a c.
Proof. intros A a c ks. now exists ks. Qed.
Lemma gives_bind : forall A C (m : M A) (f : A -> M C) c a c1 b c2,
  gives m c a c1 -> gives (f a) c1 b c2 -> gives (mbind m f) c b c2.
Proof.
  intros A C m f c a c1 b c2 H1 H2 ks. unfold mbind. destruct (H1 ks) as [ks1 ->]. apply H2.
Qed.
Lemma gives_lift : forall A (o : outcome A) c a, o = Ret a -> gives (mlift o) c a c.
Proof. intros A o c a -> ks. now exists ks. Qed.
Lemma gives_get : forall s c, gives (mget E s) c (getVar E c s) c.
Proof. intros s c ks. now exists ks. Qed.
Lemma gives_set : forall s v c, gives (mset s v) c tt (setVar c s v).
Proof. intros s v c ks. now exists ks. Qed.
Lemma gives_child : forall es i e c v c', nth_error es i = Some e -> run E e c v c' -> gives (child (map (eval E) es) i) c v c'.
Proof.
  intros es i e c v c' N R ks. unfold child. rewrite nth_error_map, N. cbn [option_map fst snd].
  destruct (R (nth i ks noCache)) as [k' ->]. now exists (setNth i k' ks).
Qed.
Lemma eval_eq : forall kd cs r0 ks c, eval E (Node kd cs) (Cache r0 ks) c =
  match evalNode E kd r0 (map (eval E) cs) (match cs with Node _ gs :: _ => map (eval E) gs | [] => [] end) (map kindOf cs) (ks, c) with
  | Ret ((v, r1), (ks', c')) => Ret (v, Cache r1 ks', c')
  | Fatal => Fatal | UB => UB | Diverge => Diverge
  end.
Proof. reflexivity. Qed.
Lemma run_node : forall kd cs c v r c',
  (forall r0, exists r1, gives (evalNode E kd r0 (map (eval E) cs) (match cs with Node _ gs :: _ => map (eval E) gs | [] => [] end) (map kindOf cs)) c (v, r1) c') ->
  r = v -> run E (Node kd cs) c r c'.
Proof.
  intros kd cs c v r c' H -> [r0 ks]. destruct (H r0) as [r1 G]. destruct (G ks) as [ks' G']. rewrite eval_eq, G'.
  now exists (Cache r1 ks').
Qed.

(** ** Logical operators *)
Lemma nth_drop : forall A (l : list A) i x r, skipn i l = x :: r -> nth_error l i = Some x /\ skipn (S i) l = r.
Proof.
  induction l as [|a l IH]; intros [|i] x r H; try discriminate H.
  - injection H as -> ->. split; auto.
  - cbn in H. apply IH in H. destruct H. split; auto.
Qed.

(** what the loop computes from the values of the operands it reaches *)
Fixpoint andOr (stop : bool) (vs : list value) (res : value) : value :=
  match vs with
  | [] => res
  | v :: l => if isBadNull v || (match v with VBool b => Bool.eqb b stop | _ => false end) then v
              else if isBoolV v then andOr stop l res
              else if isNull v then andOr stop l v
              else if isEmpty v && negb (isNull res) then andOr stop l v
              else kBadType
  end.
Definition goesOn (stop : bool) (v : value) : Prop := v = VBool (negb stop) \/ v = VNull NNull.

Lemma gives_andOr : forall es stop c vs n i res,
  Forall2 (yields E c) (firstn n (skipn i es)) vs -> (n <= length (skipn i es))%nat ->
  gives (evalAndOr (map (eval E) es) stop n i res) c (andOr stop vs res) c.
Proof.
  intros es stop c vs n. revert vs. induction n as [|n IH]; intros vs i res F L.
  - cbn [firstn] in F. inversion F; subst. apply gives_ret.
  - destruct (skipn i es) as [|e r] eqn:S; [cbn in L; lia|]. cbn [firstn] in F. inversion F as [|? v ? vs' Y F']; subst.
    apply nth_drop in S as [N S]. cbn [evalAndOr andOr].
    eapply gives_bind; [eapply gives_child; [exact N|exact Y]|].
    assert (G : forall res', gives (evalAndOr (map (eval E) es) stop n (Datatypes.S i) res') c (andOr stop vs' res') c)
      by (intros; apply IH; rewrite S; [exact F'|cbn in L; lia]).
    destruct (isBadNull v || _); [apply gives_ret|]. destruct (isBoolV v); [apply G|]. destruct (isNull v); [apply G|].
    destruct (isEmpty v && _); [apply G|apply gives_ret].
Qed.
(** operands that do not decide: the evaluation continues behind them *)
Lemma gives_andOr_prefix : forall es stop c vs r c' n i res,
  Forall2 (yields E c) (firstn (length vs) (skipn i es)) vs -> Forall (goesOn stop) vs ->
  gives (evalAndOr (map (eval E) es) stop n (i + length vs) (andOr stop vs res)) c r c' ->
  gives (evalAndOr (map (eval E) es) stop (length vs + n) i res) c r c'.
Proof.
  intros es stop c vs r c' n. induction vs as [|w vs IH]; intros i res F Go Fin.
  - cbn [length andOr] in *. rewrite Nat.add_0_r in Fin. exact Fin.
  - cbn [length firstn] in F. destruct (skipn i es) as [|e t] eqn:S; [inversion F|].
    inversion F as [|? ? ? ? Yw F']; subst. apply nth_drop in S as [N S].
    inversion Go as [|? ? Gw Go']; subst. cbn [length Nat.add evalAndOr].
    eapply gives_bind; [eapply gives_child; [exact N|exact Yw]|].
    cbn [length andOr] in Fin. rewrite Nat.add_succ_r in Fin.
    destruct Gw as [-> | ->]; cbn [isBadNull orb isBoolV isNull] in *.
    + replace (Bool.eqb (negb stop) stop) with false in * by (now destruct stop). apply IH; auto; now rewrite S.
    + apply IH; auto; now rewrite S.
Qed.

Fixpoint xorOf (vs : list value) (hasEmpty first : bool) (res : value) : value :=
  match vs with
  | [] => res
  | v :: l => if isNull v then v
              else match v with
                   | VBool b => if hasEmpty then xorOf l hasEmpty first res
                                else if first then xorOf l hasEmpty false (VBool b)
                                else match res with VBool a => xorOf l hasEmpty false (VBool (xorb a b)) | _ => kNull end
                   | VEmpty => xorOf l true first v
                   | _ => kBadType
                   end
  end.
Definition xorState (hasEmpty first : bool) (res : value) : Prop := hasEmpty = true \/ first = true \/ isBoolV res = true.
Lemma gives_xor : forall es c vs n i he fi res, xorState he fi res ->
  Forall2 (yields E c) (firstn n (skipn i es)) vs -> (n <= length (skipn i es))%nat ->
  gives (evalXor (map (eval E) es) n i he fi res) c (xorOf vs he fi res) c.
Proof.
  intros es c vs n. revert vs. induction n as [|n IH]; intros vs i he fi res X F L.
  - cbn [firstn] in F. inversion F; subst. apply gives_ret.
  - destruct (skipn i es) as [|e r] eqn:S; [cbn in L; lia|]. cbn [firstn] in F. inversion F as [|? v ? vs' Y F']; subst.
    apply nth_drop in S as [N S]. cbn [evalXor xorOf].
    eapply gives_bind; [eapply gives_child; [exact N|exact Y]|].
    assert (G : forall he' fi' res', xorState he' fi' res' ->
              gives (evalXor (map (eval E) es) n (Datatypes.S i) he' fi' res') c (xorOf vs' he' fi' res') c)
      by (intros; apply IH; auto; rewrite S; [exact F'|cbn in L; lia]).
    destruct (isNull v); [apply gives_ret|]. unfold xorState in *.
    destruct v; try apply gives_ret; try (apply G; auto).
    destruct he; [apply G; auto|]. destruct fi; [apply G; cbn; auto|].
    destruct res; try (exfalso; cbn in X; intuition congruence). apply G. cbn. auto.
Qed.
End WithE.
