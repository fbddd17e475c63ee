(** Theorems about repeated evaluation of one expression object (C39). *)
From Verif Require Import ValueBase DateModel TimeModel ValueModel ValueProofs GraphModel ExprModel ExprProofs EvalModel EvalSpec EvalProofs EvalProps.
Local Open Scope list_scope.
Local Open Scope Z_scope.

(** ** Two runs that start with different old results *)
Section Blind.
Variable E : env.
Definition eqOut {A} (R : A -> A -> Prop) (o1 o2 : outcome (A * (list cache * ctx))) : Prop :=
  match o1, o2 with
  | Ret (a, (_, c)), Ret (b, (_, d)) => R a b /\ c = d
  | Fatal, Fatal | UB, UB | Diverge, Diverge => True
  | _, _ => False
  end.
Definition sim {A} (R : A -> A -> Prop) (m1 m2 : M A) : Prop := forall ks ks' c, eqOut R (m1 (ks, c)) (m2 (ks', c)).
Definition blind (ev : evfn) : Prop := forall k k' c,
  match ev k c, ev k' c with
  | Ret (a, _, c1), Ret (b, _, d1) => a = b /\ c1 = d1
  | Fatal, Fatal | UB, UB | Diverge, Diverge => True
  | _, _ => False
  end.
Lemma sim_ret : forall A (R : A -> A -> Prop) a b, R a b -> sim R (mret a) (mret b).
Proof. intros A R a b H ks ks' c. cbn. auto. Qed.
Lemma sim_bind : forall A C (R : A -> A -> Prop) (S : C -> C -> Prop) m1 m2 f g,
  sim R m1 m2 -> (forall a b, R a b -> sim S (f a) (g b)) -> sim S (mbind m1 f) (mbind m2 g).
Proof.
  intros A C R S m1 m2 f g H K ks ks' c. unfold mbind. specialize (H ks ks' c).
  destruct (m1 (ks, c)) as [[a [k1 c1]]| | |], (m2 (ks', c)) as [[b [k2 c2]]| | |]; try contradiction; auto.
  destruct H as [Hr ->]. now apply K.
Qed.
Lemma sim_lift : forall A (R : A -> A -> Prop) o1 o2,
  match o1, o2 with Ret a, Ret b => R a b | Fatal, Fatal | UB, UB | Diverge, Diverge => True | _, _ => False end -> sim R (mlift o1) (mlift o2).
Proof. intros A R [a| | |] [b| | |] H ks ks' c; cbn; auto. Qed.
Lemma sim_lift_same : forall A (o : outcome A), sim eq (mlift o) (mlift o).
Proof. intros A o. apply sim_lift. now destruct o. Qed.
Lemma sim_get : forall s, sim eq (mget E s) (mget E s).
Proof. intros s ks ks' c. cbn. auto. Qed.
Lemma sim_set : forall s v, sim eq (mset s v) (mset s v).
Proof. intros s v ks ks' c. cbn. auto. Qed.
Lemma sim_child : forall evs i, Forall blind evs -> sim eq (child evs i) (child evs i).
Proof.
  intros evs i F ks ks' c. unfold child. destruct (nth_error evs i) as [ev|] eqn:N; [|exact Logic.I].
  rewrite Forall_forall in F. pose proof (F ev (nth_error_In _ _ N) (nth i ks noCache) (nth i ks' noCache) c) as H. cbn [fst snd].
  destruct (ev (nth i ks noCache) c) as [[[a k1] c1]| | |], (ev (nth i ks' noCache) c) as [[[b k2] c2]| | |]; try contradiction; cbn; auto.
Qed.
Lemma sim_grandchild : forall evs i, Forall blind evs -> sim eq (grandchild evs i) (grandchild evs i).
Proof.
  intros evs i F ks ks' c. unfold grandchild. cbn [fst snd].
  destruct (nth 0 ks noCache) as [r1 k1], (nth 0 ks' noCache) as [r2 k2]. pose proof (sim_child evs i F k1 k2 c) as H.
  destruct (child evs i (k1, c)) as [[a [k3 c3]]| | |], (child evs i (k2, c)) as [[b [k4 c4]]| | |]; try contradiction; cbn in *; auto.
Qed.
Ltac step := eapply (sim_bind _ _ eq); [|intros ? ? <-].
Lemma sim_all : forall evs, Forall blind evs -> sim eq (allChildren evs) (allChildren evs).
Proof.
  intros evs F. unfold allChildren. match goal with |- sim eq (?g _ _) _ => assert (K : forall n i, sim eq (g n i) (g n i)) end; [|apply K].
  induction n as [|n IH]; intros i; [now apply sim_ret|].
  step; [now apply sim_child|]. step; [apply IH|]. now apply sim_ret.
Qed.
Lemma sim_andOr : forall evs stop n i res, Forall blind evs -> sim eq (evalAndOr evs stop n i res) (evalAndOr evs stop n i res).
Proof.
  intros evs stop n. induction n as [|n IH]; intros i res F; cbn [evalAndOr]; [now apply sim_ret|].
  step; [now apply sim_child|]. destruct (_ || _); [now apply sim_ret|]. destruct (isBoolV a); [now apply IH|].
  destruct (isNull a); [now apply IH|]. destruct (_ && _); [now apply IH|now apply sim_ret].
Qed.
Lemma sim_xor : forall evs n i he fi res res', Forall blind evs -> (fi = false \/ he = true -> res = res') -> (fi = true -> he = false -> n <> 0%nat) ->
  sim eq (evalXor evs n i he fi res) (evalXor evs n i he fi res').
Proof.
  intros evs n. induction n as [|n IH]; intros i he fi res res' F H N; cbn [evalXor].
  - apply sim_ret. apply H. destruct fi; auto. destruct he; auto. now elim N.
  - step; [now apply sim_child|]. destruct (isNull a); [now apply sim_ret|]. destruct a; try now apply sim_ret.
    + apply IH; auto. discriminate.
    + destruct he; [apply IH; auto; discriminate|]. destruct fi; [apply IH; auto; discriminate|].
      rewrite H by auto. destruct res'; try apply sim_lift_same. apply IH; auto; discriminate.
Qed.
Definition fstEq (p q : value * value) : Prop := fst p = fst q.
Lemma sim_cases : forall evs cond n i d d' r r', Forall blind evs -> sim fstEq d d' ->
  sim fstEq (evalCases E evs cond n i d r) (evalCases E evs cond n i d' r').
Proof.
  intros evs cond n. induction n as [|n IH]; intros i d d' r r' F D; cbn [evalCases]; auto.
  step; [now apply sim_child|]. destruct cond as [cv|].
  - destruct (veq _ cv a); [|now apply IH]. step; [now apply sim_child|]. now apply sim_ret.
  - destruct a as [| |[]| | | | | | | | | | | | | ]; try (now apply sim_ret); try (now apply IH).
    step; [now apply sim_child|]. now apply sim_ret.
Qed.
Lemma sim_quant : forall q m iv l res, sim eq m m -> sim fstEq (evalQuant q m iv l res) (evalQuant q m iv l res).
Proof.
  intros q m iv l. induction l as [|v l IH]; intros res F; cbn [evalQuant]; [now apply sim_ret|].
  step; [apply sim_set|]. step; [exact F|]. destruct (negb _); [now apply sim_ret|].
  destruct q, (isTrue a0); try (now apply sim_ret); try (now apply IH). destruct res; [now apply sim_ret|now apply IH].
Qed.
Lemma sim_comp : forall f m iv l, match f with Some x => sim eq x x | None => True end -> match m with Some x => sim eq x x | None => True end ->
  sim eq (evalComp f m iv l) (evalComp f m iv l).
Proof.
  intros f m iv l Hf Hm. induction l as [|v l IH]; cbn [evalComp]; [now apply sim_ret|].
  step; [apply sim_set|]. step; [destruct f; [step; [exact Hf|]|]; now apply sim_ret|].
  destruct a0 as [[]|]; [|exact IH|now apply sim_ret]. step; [destruct m; [exact Hm|now apply sim_ret]|]. step; [exact IH|]. now apply sim_ret.
Qed.
Lemma sim_reduce : forall m acc iv l, sim eq m m -> sim eq (evalReduce m acc iv l) (evalReduce m acc iv l).
Proof.
  intros m acc iv l H. induction l as [|v l IH]; cbn [evalReduce]; [now apply sim_ret|].
  step; [apply sim_set|]. step; [exact H|]. step; [apply sim_set|]. exact IH.
Qed.
Lemma sim_path : forall evs n i steps, Forall blind evs -> sim eq (evalPath E evs n i steps) (evalPath E evs n i steps).
Proof.
  intros evs n. induction n as [|n IH]; intros i steps F; cbn [evalPath]; [now apply sim_ret|].
  step; [now apply sim_child|]. destruct (pathItem _ _ _ _); [now apply IH|now apply sim_ret].
Qed.
Definition freshKind (k : kind) (evs : list evfn) : bool :=
  match k with KAttr | KUUID _ => false | KLogical OXor => match evs with [] => false | _ => true end | _ => true end.
Lemma sim_pair_lift : forall (o : outcome (value * value)), sim fstEq (mlift o) (mlift o).
Proof. intros o. apply sim_lift. destruct o; auto. reflexivity. Qed.
Lemma sim_node : forall k r r' evs grands kinds, Forall blind evs -> Forall blind grands -> freshKind k evs = true ->
  sim fstEq (evalNode E k r evs grands kinds) (evalNode E k r' evs grands kinds).
Proof.
  intros k r r' evs grands kinds F G N.
  assert (CH : forall i, sim eq (child evs i) (child evs i)) by (intros; now apply sim_child).
  destruct k; try discriminate N; cbn [evalNode]; try (now apply sim_ret); try apply sim_pair_lift.
  - step; [apply CH|]. step; [apply CH|]. step; [apply sim_lift_same|]. now apply sim_ret.
  - destruct o; try (step; [apply CH|]; try (step; [apply sim_lift_same|]); now apply sim_ret).
    all: destruct kinds as [|[] ?]; try (now apply sim_ret); try apply sim_pair_lift.
    all: step; [apply CH|]; first [apply sim_pair_lift|step; [apply sim_lift_same|]; step; [apply sim_set|]; now apply sim_ret].
  - step; [apply CH|]. step; [apply CH|]. step; [apply sim_lift_same|]. now apply sim_ret.
  - step; [apply CH|]. step; [apply CH|]. apply sim_pair_lift.
  - step; [apply CH|]. destruct a; try now apply sim_ret.
    step; [destruct hasLo; [step; [apply CH|]|]; now apply sim_ret|].
    match goal with |- sim _ (match ?x with _ => _ end) _ => destruct x as [[?|]|]; try now apply sim_ret end.
    step; [destruct hasHi; [step; [apply CH|]|]; now apply sim_ret|].
    match goal with |- sim _ (match ?x with _ => _ end) _ => destruct x as [[]|]; try now apply sim_ret end.
    all: step; [apply sim_lift_same|]; now apply sim_ret.
  - destruct o.
    + step; [now apply sim_andOr|]. now apply sim_ret.
    + step; [now apply sim_andOr|]. now apply sim_ret.
    + step; [apply sim_xor; auto|now apply sim_ret].
      * intros [H|H]; discriminate H.
      * intros _ _ L. destruct evs; [discriminate N|discriminate L].
  - step; [apply CH|]. apply sim_lift. unfold castTo. repeat match goal with |- context [if ?b then _ else _] => destruct b end; try reflexivity.
    destruct (vtoInt E a); cbn; auto. reflexivity.
  - step; [now apply sim_all|]. step; [apply sim_lift_same|]. now apply sim_ret.
  - destruct p; try (now apply sim_ret). intros ks ks' c. cbn. split; reflexivity.
  - step; [apply sim_get|]. now apply sim_ret.
  - destruct hasVersion.
    + step; [apply CH|]. destruct a; try (now apply sim_ret). intros ks ks' c. cbn. split; reflexivity.
    + step; [apply sim_get|]. now apply sim_ret.
  - step; [now apply sim_all|]. now apply sim_ret.
  - step; [now apply sim_all|]. step; [apply sim_lift_same|]. now apply sim_ret.
  - step; [now apply sim_all|]. now apply sim_ret.
  - assert (D : sim fstEq (if hasDefault then let! v := child evs (if hasCond then 1 else 0) in mret (same v) else mret (same kNull))
                          (if hasDefault then let! v := child evs (if hasCond then 1 else 0) in mret (same v) else mret (same kNull))).
    { destruct hasDefault; [step; [apply CH|]|]; now apply sim_ret. }
    destruct hasCond; [step; [apply CH|]|]; now apply sim_cases.
  - destruct (strEqb _ _).
    + step; [now apply sim_grandchild|]. step; [now apply sim_grandchild|]. now apply sim_ret.
    + destruct (quantifierOf _); [|now apply sim_ret]. step; [apply CH|]. destruct (_ || _); [now apply sim_ret|].
      destruct a; try now apply sim_ret. apply sim_quant. destruct hasFilter; [apply CH|apply sim_lift_same].
  - step; [apply CH|]. destruct (_ || _); [now apply sim_ret|]. destruct a; try now apply sim_ret. destruct (_ && _); [now apply sim_ret|].
    step; [apply sim_comp; [destruct hasFilter|destruct hasMapping]; auto|]. apply sim_ret. destruct a; reflexivity.
  - step; [apply CH|]. step; [apply CH|]. destruct (_ || _); [now apply sim_ret|]. destruct a0; try now apply sim_ret.
    step; [apply sim_set|]. step; [apply sim_reduce; apply CH|]. step; [apply sim_get|]. now apply sim_ret.
  - destruct evs as [|e evs]; [now apply sim_ret|]. step; [apply CH|]. destruct (vertexOf a); [|now apply sim_ret].
    step; [now apply sim_path|]. apply sim_ret. destruct a0; reflexivity.
Qed.
Lemma memoryless_blind' : forall e, memoryless e = true -> blind (eval E e) /\ Forall (fun g => blind (eval E g)) (childrenOf e).
Proof.
  induction e as [k cs IH] using expr_ind'. intros H.
  cbn [memoryless] in H. apply andb_true_iff in H as [Hk Hc]. rewrite forallb_forall in Hc. rewrite Forall_forall in IH.
  split; [|apply Forall_forall; intros x Hx; apply IH; auto].
  intros [r ks] [r' ks'] c. rewrite !eval_eq.
  assert (F : Forall blind (map (eval E) cs)).
  { apply Forall_forall. intros ev He. apply in_map_iff in He as [x [<- Hx]]. apply IH; auto. }
  assert (G : Forall blind (match cs with Node _ gs :: _ => map (eval E) gs | [] => [] end)).
  { destruct cs as [|[k0 gs] cs]; [constructor|]. destruct (IH _ (or_introl eq_refl)) as [_ K]; [apply Hc; now left|].
    cbn [childrenOf] in K. rewrite Forall_forall in K. apply Forall_forall. intros ev He. apply in_map_iff in He as [x [<- Hx]]. auto. }
  assert (N : freshKind k (map (eval E) cs) = true).
  { unfold freshKind. destruct k; auto. destruct o; auto. destruct cs; auto. }
  pose proof (sim_node k r r' _ _ (map kindOf cs) F G N ks ks' c) as S. unfold eqOut, fstEq in S.
  destruct (evalNode E k r _ _ _ (ks, c)) as [[[a r1] [k1 c1]]| | |], (evalNode E k r' _ _ _ (ks', c)) as [[[b r2] [k2 c2]]| | |]; try contradiction; auto.
Qed.
End Blind.

(** * C39 *)
(** Without attribute, UUID and operand-less XOR nodes, the outcome does not depend on what was evaluated before. *)
Theorem C39_memoryless : forall E e k k' c, memoryless e = true ->
  match eval E e k c, eval E e k' c with
  | Ret (v, _, c1), Ret (v', _, c1') => v = v' /\ c1 = c1'
  | Fatal, Fatal | UB, UB | Diverge, Diverge => True
  | _, _ => False
  end.
Proof. intros E e k k' c H. exact (proj1 (memoryless_blind' E e H) k k' c). Qed.
(** The attribute of every operand but an edge with an unknown name starting with '_' depends on the operands only. *)
Definition attributeOf (l : value) (k : str) : value :=
  match l with
  | VMap m => match lookup k m with Some v => v | None => VNull NUnknownProp end
  | VVertex x => if strEqb k kVid then vvid x else match tagsProp (vtags x) k with Some v => v | None => VNull NUnknownProp end
  | VEdge e => if underscored k
               then (if strEqb k kSrc then esrc e else if strEqb k kDst then edst e else if strEqb k kRank then VInt (erank e) else VStr (ename e))
               else match lookup k (eprops e) with Some v => v | None => VNull NUnknownProp end
  | VDate d => dateAttr d k
  | VTime t => timeAttr t k
  | VDateTime t => datetimeAttr t k
  | _ => VNull NBadType
  end.
Definition unknownMember (l : value) (k : str) : Prop :=
  match l with VEdge _ => underscored k = true /\ ~ In k [kSrc; kDst; kRank; kType] | _ => False end.
Theorem C39_attribute : forall E c c1 c2 l r lv k, run E l c lv c1 -> run E r c1 (VStr k) c2 -> ~ unknownMember lv k ->
  run E (Node KAttr [l; r]) c (attributeOf lv k) c2.
Proof.
  intros E c c1 c2 l r lv k Rl Rr N.
  apply run_node with (v := attributeOf lv k); auto. intros r0. cbn [evalNode].
  assert (K : exists r1, attribute lv (VStr k) r0 = Ret (attributeOf lv k, r1)).
  { destruct lv; try (eexists; reflexivity); cbn [attribute attributeOf].
    - destruct (strEqb k kVid); eexists; reflexivity.
    - cbn [unknownMember] in N. destruct (underscored k); [|eexists; reflexivity]. unfold edgeMember.
      destruct (strEqb k kSrc) eqn:K1; [eexists; reflexivity|]. destruct (strEqb k kDst) eqn:K2; [eexists; reflexivity|].
      destruct (strEqb k kRank) eqn:K3; [eexists; reflexivity|]. destruct (strEqb k kType) eqn:K4; [eexists; reflexivity|].
      elim N. split; auto. intros I. cbn [In] in I.
      destruct I as [<-|[<-|[<-|[<-|[]]]]]; [now rewrite strEqb_refl in K1|now rewrite strEqb_refl in K2|now rewrite strEqb_refl in K3|now rewrite strEqb_refl in K4]. }
  destruct K as [r1 K]. exists r1.
  eapply gives_bind; [eapply gives_child; [reflexivity|exact Rl]|].
  eapply gives_bind; [eapply gives_child; [reflexivity|exact Rr]|]. apply gives_lift. exact K.
Qed.
Definition rowAttr : expr := Node KAttr [Node (KColumn 0) []; Node (KColumn 1) []].
Definition row (e : value) (k : str) : env := exEnv (fun i => if i =? 0 then e else VStr k).
Definition edgeAB : value := VEdge (mkEdge (VStr [97]) (VStr [98]) 1 [] 0 []).
(** Two rows read through one attribute expression: for the unknown member _x of the second row it gives the source of
    the first row's edge, while a fresh expression gives the empty value. *)
Theorem C39_attribute_refuted : exists e1 k1 e2 k2 v1, v1 <> VEmpty /\ forall c k, exists k' k'' k3,
  eval (row e1 k1) rowAttr k c = Ret (v1, k', c) /\ eval (row e2 k2) rowAttr k' c = Ret (v1, k'', c) /\
  eval (row e2 k2) rowAttr noCache c = Ret (VEmpty, k3, c).
Proof.
  exists edgeAB, kSrc, (VEdge (mkEdge (VInt 5) (VInt 6) 1 [] 0 [])), [95; 120], (VStr [97]). split; [discriminate|].
  intros c [r [|[? ?] [|[? ?] ?]]]; do 3 eexists; (split; [reflexivity|split; reflexivity]).
Qed.
Example C39_ex : memoryless (Node (KArith OAdd) [Node (KVar [120] true) []; konst (VInt 1)]) = true /\
  ~ unknownMember edgeAB kSrc /\ attributeOf edgeAB kSrc = VStr [97].
Proof. splits; auto. intros [_ H]. apply H. cbn. auto. Qed.
Print Assumptions C39_memoryless. Print Assumptions C39_attribute. Print Assumptions C39_attribute_refuted.
