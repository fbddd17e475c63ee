(** Theorems about the variables an expression reads and sets (C182). *)
From Coq Require Import String.
From Verif Require Import ValueBase ValueModel ValueProofs ExprModel ExprProofs EvalModel EvalSpec EvalProofs EvalProps MemoryProps ScopeSpec ScopeProofs.
Local Open Scope list_scope.
Local Open Scope Z_scope.

(** A variable that the expression does not set has the same values after the evaluation, all of them. *)
Theorem C182_frame : forall E e k c v k' c' s, eval E e k c = Ret (v, k', c') -> ~ In s (sets e) ->
  history c' s = history c s /\ getVar E c' s = getVar E c s.
Proof.
  intros E e k c v k' c' s H N. assert (K : history c' s = history c s) by exact (proj1 (keeps_eval E s e N) k c v k' c' H).
  split; auto. now rewrite !getVar_history, K.
Qed.

(** Nothing matters but what is asked: contexts, and rows, that answer alike to the questions of the expression give the same
    outcome; what they agreed on stays agreed. *)
Theorem C182_depends : forall E E' e k c c' ns,
  eX E = eX E' -> eRegex E = eRegex E' -> eFun E = eFun E' -> nodes (alike E E') e ->
  incl (needs e) ns -> agree E c E' c' ns ->
  match eval E e k c, eval E' e k c' with
  | Ret (v, k1, d), Ret (v', k1', d') => v = v' /\ k1 = k1' /\ agree E d E' d' ns
  | Fatal, Fatal | UB, UB | Diverge, Diverge => True
  | _, _ => False
  end.
Proof.
  intros [] [] e k c c' ns. cbn. intros <- <- <- N I A. exact (proj1 (sim_eval _ _ _ _ _ _ _ _ _ _ _ _ _ _ _ _ _ _ _ _ _ _ _ _ _ e N) ns I k c c' A).
Qed.

(** No question to the row: no property, column, vertex, edge or earlier version of a variable. *)
Definition asksRow (k : kind) : bool := match k with KColumn _ | KVertex | KEdge | KProp _ _ _ _ | KVersioned _ true => true | _ => false end.
Lemma noRow_alike : forall E E' e, nodes (fun k => asksRow k = false) e -> nodes (alike E E') e.
Proof.
  intros E E'. induction e as [k cs IH] using expr_ind'. intros [H K]. split.
  - destruct k; try exact I; try discriminate H. destruct hasVersion; [discriminate H|exact I].
  - clear H. induction cs as [|x cs IHc]; [exact I|]. inversion IH; subst. destruct K. split; auto.
Qed.
(** An expression without questions is a constant: it may be evaluated once, in any context, for all rows. *)
Theorem C182_constant : forall E E' e k c c',
  eX E = eX E' -> eRegex E = eRegex E' -> eFun E = eFun E' -> nodes (fun k => asksRow k = false) e -> needs e = [] ->
  match eval E e k c, eval E' e k c' with
  | Ret (v, k1, _), Ret (v', k1', _) => v = v' /\ k1 = k1'
  | Fatal, Fatal | UB, UB | Diverge, Diverge => True
  | _, _ => False
  end.
Proof.
  intros E E' e k c c' HX HR HF N Q. assert (A : agree E c E' c' []) by (intros h s []).
  pose proof (C182_depends E E' e k c c' [] HX HR HF (noRow_alike E E' e N) ltac:(rewrite Q; apply incl_refl) A) as H.
  destruct (eval E e k c) as [[[v k1] d]| | |], (eval E' e k c') as [[[v' k1'] d']| | |]; auto. tauto.
Qed.

(** Two expressions of which neither sets what the other reads or sets may be evaluated in either order. *)
Lemma agree_frame : forall E e k c v k' c' ns, eval E e k c = Ret (v, k', c') -> (forall h s, In (h, s) ns -> ~ In s (sets e)) -> agree E c E c' ns.
Proof. intros E e k c v k' c' ns H D h s I. destruct (C182_frame E e k c v k' c' s H (D h s I)) as [H1 H2]. rewrite H1, H2. auto. Qed.
Lemma agree_sym : forall E c c' ns, agree E c E c' ns -> agree E c' E c ns.
Proof. intros E c c' ns A h s I. destruct (A h s I) as [A1 A2]. split; [congruence|]. intros T. symmetry. auto. Qed.
Theorem C182_order : forall E e1 e2 k1 k2 c a b k1' k2' c1 c12,
  nodes (alike E E) e1 -> nodes (alike E E) e2 ->
  (forall h s, In (h, s) (needs e1) -> ~ In s (sets e2)) -> (forall h s, In (h, s) (needs e2) -> ~ In s (sets e1)) ->
  (forall s, In s (sets e1) -> ~ In s (sets e2)) ->
  eval E e1 k1 c = Ret (a, k1', c1) -> eval E e2 k2 c1 = Ret (b, k2', c12) ->
  exists c2 c21, eval E e2 k2 c = Ret (b, k2', c2) /\ eval E e1 k1 c2 = Ret (a, k1', c21) /\ forall s, history c21 s = history c12 s.
Proof.
  intros E e1 e2 k1 k2 c a b k1' k2' c1 c12 N1 N2 D1 D2 D H1 H2.
  (* e2 in c and in c1 *)
  assert (P2 : forall l, (forall s, In s l -> ~ In s (sets e1)) -> exists c2, eval E e2 k2 c = Ret (b, k2', c2) /\ forall s, In s l -> history c2 s = history c12 s).
  { intros l Hl. pose (ns := needs e2 ++ map (fun s => (true, s)) l).
    assert (Hn : forall h s, In (h, s) ns -> ~ In s (sets e1)).
    { intros h s J. apply in_app_or in J as [J|J]; [exact (D2 h s J)|]. apply in_map_iff in J as [x [Q J]]. injection Q as <- <-. auto. }
    pose proof (C182_depends E E e2 k2 c c1 ns eq_refl eq_refl eq_refl N2 (incl_appl _ (incl_refl _)) (agree_frame E e1 k1 c a k1' c1 ns H1 Hn)) as H. rewrite H2 in H.
    destruct (eval E e2 k2 c) as [[[v k3] d]| | |]; try contradiction. destruct H as (-> & -> & A). exists d. split; auto.
    intros s J. apply (A true s); auto. apply in_or_app. right. apply in_map_iff. eauto. }
  destruct (P2 [] ltac:(intros s [])) as [c2 [E2 _]].
  assert (P1 : forall l, (forall s, In s l -> ~ In s (sets e2)) -> exists c21, eval E e1 k1 c2 = Ret (a, k1', c21) /\ forall s, In s l -> history c21 s = history c1 s).
  { intros l Hl. pose (ns := needs e1 ++ map (fun s => (true, s)) l).
    assert (Hn : forall h s, In (h, s) ns -> ~ In s (sets e2)).
    { intros h s J. apply in_app_or in J as [J|J]; [exact (D1 h s J)|]. apply in_map_iff in J as [x [Q J]]. injection Q as <- <-. auto. }
    pose proof (C182_depends E E e1 k1 c2 c ns eq_refl eq_refl eq_refl N1 (incl_appl _ (incl_refl _)) (agree_sym _ _ _ _ (agree_frame E e2 k2 c b k2' c2 ns E2 Hn))) as H. rewrite H1 in H.
    destruct (eval E e1 k1 c2) as [[[v k3] d]| | |]; try contradiction. destruct H as (-> & -> & A). exists d. split; auto.
    intros s J. apply (A true s); auto. apply in_or_app. right. apply in_map_iff. eauto. }
  destruct (P1 [] ltac:(intros s [])) as [c21 [E1 _]].
  exists c2, c21. splits; auto. intros s. destruct (in_dec (list_eq_dec Z.eq_dec) s (sets e2)) as [I2|I2].
  - assert (I1 : ~ In s (sets e1)) by (intros Q; exact (D s Q I2)).
    destruct (P2 [s] ltac:(intros x [<-|[]]; exact I1)) as [d [Ed Hd]]. rewrite E2 in Ed. injection Ed as <-.
    rewrite (proj1 (C182_frame E e1 k1 c2 a k1' c21 s E1 I1)). apply Hd. now left.
  - destruct (P1 [s] ltac:(intros x [<-|[]]; exact I2)) as [d [Ed Hd]]. rewrite E1 in Ed. injection Ed as <-.
    rewrite (proj1 (C182_frame E e2 k2 c1 b k2' c12 s H2 I2)). apply Hd. now left.
Qed.

(** The variable of a loop is not the loop's own: it overwrites the variable of the same name outside, so that the parts of a
    condition do not commute. *)
Definition anyIs (x : str) : expr := Node (KPredicate (B "any") x [] true) [Node (KConst (VList [VInt 5])) []; Node (KConst (VBool true)) []].
Definition isOne (x : str) : expr := Node (KRel OEQ) [Node (KVar x false) []; Node (KConst (VInt 1)) []].
Definition plain (k : kind) : Prop := match k with KUnary OIncr | KUnary ODecr => False | _ => True end.
Definition both2 (a b : expr) : expr := Node (KLogical OAnd) [a; b].
Lemma once_run : forall E e c v k' c', memoryless e = true -> eval E e noCache c = Ret (v, k', c') -> run E e c v c'.
Proof.
  intros E e c v k' c' M H k. pose proof (C39_memoryless E e noCache k c M) as K. rewrite H in K.
  destruct (eval E e k c) as [[[w k1] d]| | |]; try contradiction. destruct K as [-> ->]. eauto.
Qed.
Theorem C182_leak_refuted : ~ (forall E c e1 e2 b1 b2 c1 c2, nodes plain e1 -> nodes plain e2 ->
  run E (both2 e1 e2) c (VBool b1) c1 -> run E (both2 e2 e1) c (VBool b2) c2 -> b1 = b2).
Proof.
  intros H. assert (Q : true = false).
  { apply (H E0 [(B "x", VInt 1)] (isOne (B "x")) (anyIs (B "x")) true false [(B "x", VInt 5); (B "x", VInt 1)] [(B "x", VInt 5); (B "x", VInt 1)]).
    - cbn. tauto.
    - cbn. tauto.
    - eapply once_run; vm_compute; reflexivity.
    - eapply once_run; vm_compute; reflexivity. }
  discriminate Q.
Qed.

(** x + 1 > 2 wants x alone; [y IN l WHERE y > x | y] wants l and x, not y, and sets y; the two commute. *)
Definition exTest : expr := Node (KRel OGT) [Node (KArith OAdd) [Node (KVar (B "x") false) []; Node (KConst (VInt 1)) []]; Node (KConst (VInt 2)) []].
Definition exComp : expr :=
  Node (KListComp (B "y") [] true true)
    [Node (KVar (B "l") false) []; Node (KRel OGT) [Node (KVar (B "y") true) []; Node (KVar (B "x") false) []]; Node (KVar (B "y") true) []].
Example C182_ex : forall E, let c := [(B "x", VInt 4); (B "l", VList [VInt 3; VInt 7; VInt 5])] in
  needs exTest = [(false, B "x")] /\ sets exTest = [] /\ needs exComp = [(false, B "l"); (false, B "x")] /\ sets exComp = [B "y"] /\
  nodes (alike E E) exTest /\ nodes (alike E E) exComp /\
  (exists k1 c1, eval E exTest noCache c = Ret (VBool true, k1, c1)) /\
  (exists k1 c1, eval E exComp noCache c = Ret (VList [VInt 7; VInt 5], k1, c1) /\ history c1 (B "y") = [VInt 5; VInt 7; VInt 3]) /\
  needs (both2 exTest exTest) <> [] /\ needs (anyIs (B "x")) = [] /\ nodes (fun k => asksRow k = false) (anyIs (B "x")).
Proof. intros E c. splits; try (vm_compute; reflexivity); try (cbn; tauto); try (repeat eexists; vm_compute; reflexivity). discriminate. Qed.
Print Assumptions C182_frame.
Print Assumptions C182_depends.
Print Assumptions C182_constant.
Print Assumptions C182_order.
Print Assumptions C182_leak_refuted.
