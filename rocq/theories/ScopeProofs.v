(** Proofs for C182. *)
From Coq Require Import String.
From Verif Require Import ValueBase ValueModel ValueProofs ExprModel ExprProofs EvalModel EvalSpec EvalProofs ScopeSpec.
Local Open Scope list_scope.
Local Open Scope Z_scope.

Lemma getVar_history E c s : getVar E c s = match history c s with v :: _ => v | [] => eNoVar E s end.
Proof.
  unfold getVar, history. induction c as [|[k v] c IH]; cbn; auto. destruct (strEqb s k) eqn:Q; cbn; auto.
Qed.
Lemma strEqb_sym a b : strEqb a b = strEqb b a.
Proof. destruct (strEqb a b) eqn:H, (strEqb b a) eqn:K; auto; [apply strEqb_eq in H|apply strEqb_eq in K]; subst; rewrite ?(proj2 (strEqb_eq _ _) eq_refl) in *; congruence. Qed.

(** * What is not set stays *)
Section Frame.
Variable E : env.
Variable s : str.
Definition keeps {A} (m : M A) : Prop := forall ks c a ks' c', m (ks, c) = Ret (a, (ks', c')) -> history c' s = history c s.
Definition keepsEv (ev : evfn) : Prop := forall k c v k' c', ev k c = Ret (v, k', c') -> history c' s = history c s.
Lemma keeps_ret A (a : A) : keeps (mret a).
Proof. intros ks c a' ks' c' H. injection H as _ _ <-. reflexivity. Qed.
Lemma keeps_bind A C (m : M A) (f : A -> M C) : keeps m -> (forall a, keeps (f a)) -> keeps (mbind m f).
Proof.
  intros H K ks c b ks' c' R. unfold mbind in R. destruct (m (ks, c)) as [[a [k1 c1]]| | |] eqn:Q; try discriminate R.
  rewrite <- (H _ _ _ _ _ Q). exact (K a _ _ _ _ _ R).
Qed.
Lemma keeps_lift A (o : outcome A) : keeps (mlift o).
Proof. intros ks c a ks' c' H. destruct o; try discriminate H. injection H as _ _ <-. reflexivity. Qed.
Lemma keeps_get x : keeps (mget E x).
Proof. intros ks c a ks' c' H. injection H as _ _ <-. reflexivity. Qed.
Lemma keeps_set x v : s <> x -> keeps (mset x v).
Proof.
  intros N ks c a ks' c' H. injection H as _ _ <-. unfold setVar, history. cbn. destruct (strEqb s x) eqn:Q; [apply strEqb_eq in Q; contradiction|reflexivity].
Qed.
Lemma keeps_child evs i : Forall keepsEv evs -> keeps (child evs i).
Proof.
  intros F ks c a ks' c' H. unfold child in H. destruct (nth_error evs i) as [ev|] eqn:N; [|discriminate H].
  rewrite Forall_forall in F. pose proof (F ev (nth_error_In _ _ N)) as K. cbn [fst snd] in H.
  destruct (ev _ c) as [[[v k1] c1]| | |] eqn:Q; try discriminate H. injection H as _ _ <-. exact (K _ _ _ _ _ Q).
Qed.
Lemma keeps_grandchild evs i : Forall keepsEv evs -> keeps (grandchild evs i).
Proof.
  intros F ks c a ks' c' H. unfold grandchild in H. cbn [fst snd] in H. destruct (nth 0 ks noCache) as [r1 k1].
  destruct (child evs i (k1, c)) as [[v [k2 c2]]| | |] eqn:Q; try discriminate H. injection H as _ _ <-. exact (keeps_child evs i F _ _ _ _ _ Q).
Qed.
Ltac step := apply keeps_bind; [|intros ?].
Ltac ret := now apply keeps_ret.
Lemma keeps_all evs : Forall keepsEv evs -> keeps (allChildren evs).
Proof.
  intros F. unfold allChildren. match goal with |- keeps (?g _ _) => assert (K : forall n i, keeps (g n i)) end; [|apply K].
  induction n as [|n IH]; intros i; [ret|]. step; [now apply keeps_child|]. step; [apply IH|]. ret.
Qed.
Lemma keeps_andOr evs stop n : Forall keepsEv evs -> forall i res, keeps (evalAndOr evs stop n i res).
Proof.
  intros F. induction n as [|n IH]; intros i res; cbn [evalAndOr]; [ret|]. step; [now apply keeps_child|].
  destruct (_ || _); [ret|]. destruct (isBoolV a); [apply IH|]. destruct (isNull a); [apply IH|]. destruct (_ && _); [apply IH|ret].
Qed.
Lemma keeps_xor evs n : Forall keepsEv evs -> forall i he fi res, keeps (evalXor evs n i he fi res).
Proof.
  intros F. induction n as [|n IH]; intros i he fi res; cbn [evalXor]; [ret|]. step; [now apply keeps_child|].
  destruct (isNull a); [ret|]. destruct a; try ret; [apply IH|]. destruct he; [apply IH|]. destruct fi; [apply IH|]. destruct res; try apply keeps_lift. apply IH.
Qed.
Lemma keeps_cases evs cond n d r : Forall keepsEv evs -> keeps d -> forall i, keeps (evalCases E evs cond n i d r).
Proof.
  intros F D. induction n as [|n IH]; intros i; cbn [evalCases]; auto. step; [now apply keeps_child|]. destruct cond as [cv|].
  - destruct (veq _ cv a); [|apply IH]. step; [now apply keeps_child|]. ret.
  - destruct a as [| |[]| | | | | | | | | | | | | ]; try ret; try apply IH. step; [now apply keeps_child|]. ret.
Qed.
Lemma keeps_quant q m iv l : s <> iv -> keeps m -> forall res, keeps (evalQuant q m iv l res).
Proof.
  intros N F. induction l as [|v l IH]; intros res; cbn [evalQuant]; [ret|]. step; [now apply keeps_set|]. step; [exact F|]. destruct (negb _); [ret|].
  destruct q, (isTrue a0); try ret; try apply IH. destruct res; [ret|apply IH].
Qed.
Lemma keeps_comp f m iv l : s <> iv -> match f with Some x => keeps x | None => True end -> match m with Some x => keeps x | None => True end -> keeps (evalComp f m iv l).
Proof.
  intros N Hf Hm. induction l as [|v l IH]; cbn [evalComp]; [ret|]. step; [now apply keeps_set|]. step; [destruct f; [step; [exact Hf|]|]; ret|].
  destruct a0 as [[]|]; [|exact IH|ret]. step; [destruct m; [exact Hm|ret]|]. step; [exact IH|]. ret.
Qed.
Lemma keeps_reduce m acc iv l : s <> acc -> s <> iv -> keeps m -> keeps (evalReduce m acc iv l).
Proof.
  intros N N' H. induction l as [|v l IH]; cbn [evalReduce]; [ret|]. step; [now apply keeps_set|]. step; [exact H|]. step; [now apply keeps_set|]. exact IH.
Qed.
Lemma keeps_path evs n : Forall keepsEv evs -> forall i st, keeps (evalPath E evs n i st).
Proof. intros F. induction n as [|n IH]; intros i st; cbn [evalPath]; [ret|]. step; [now apply keeps_child|]. destruct (pathItem _ _ _ _); [apply IH|ret]. Qed.
(** the variables set by the node itself *)
Definition own (k : kind) (kinds : list kind) : list str :=
  match k with
  | KUnary OIncr | KUnary ODecr => match kinds with KVar x _ :: _ => [x] | _ => [] end
  | KPredicate _ iv _ _ => [iv]
  | KListComp iv _ _ _ => [iv]
  | KReduce acc iv _ => [acc; iv]
  | _ => []
  end.
Lemma keeps_node k r evs grands kinds : Forall keepsEv evs -> Forall keepsEv grands -> ~ In s (own k kinds) -> keeps (evalNode E k r evs grands kinds).
Proof.
  intros F G N. assert (CH : forall i, keeps (child evs i)) by (intros; now apply keeps_child).
  destruct k; cbn [evalNode]; cbn [own] in N; try ret; try apply keeps_lift.
  - step; [apply CH|]. step; [apply CH|]. step; [apply keeps_lift|]. ret.
  - destruct o; try (step; [apply CH|]; try (step; [apply keeps_lift|]); ret).
    all: destruct kinds as [|[] ?]; try ret; try apply keeps_lift.
    all: step; [apply CH|]; first [apply keeps_lift|step; [apply keeps_lift|]; step; [apply keeps_set; intros ->; apply N; left; reflexivity|]; ret].
  - step; [apply CH|]. step; [apply CH|]. step; [apply keeps_lift|]. ret.
  - step; [apply CH|]. step; [apply CH|]. apply keeps_lift.
  - step; [apply CH|]. destruct a; try ret. step; [destruct hasLo; [step; [apply CH|]|]; ret|].
    match goal with |- keeps (match ?x with _ => _ end) => destruct x as [[?|]|]; try ret end.
    step; [destruct hasHi; [step; [apply CH|]|]; ret|].
    match goal with |- keeps (match ?x with _ => _ end) => destruct x as [[]|]; try ret end.
    all: step; [apply keeps_lift|]; ret.
  - step; [apply CH|]. step; [apply CH|]. apply keeps_lift.
  - destruct o; (step; [first [now apply keeps_andOr|now apply keeps_xor]|]; ret).
  - step; [apply CH|]. apply keeps_lift.
  - step; [now apply keeps_all|]. step; [apply keeps_lift|]. ret.
  - destruct p; try ret. intros ks c a ks' c' H. injection H as _ _ <-. reflexivity.
  - step; [apply keeps_get|]. ret.
  - destruct hasVersion; [|step; [apply keeps_get|]; ret]. step; [apply CH|]. destruct a; try ret. intros ks c a ks' c' H. injection H as _ _ <-. reflexivity.
  - step; [now apply keeps_all|]. ret.
  - step; [now apply keeps_all|]. step; [apply keeps_lift|]. ret.
  - step; [now apply keeps_all|]. ret.
  - assert (D : keeps (if hasDefault then let! v := child evs (if hasCond then 1 else 0) in mret (same v) else mret (same kNull))) by (destruct hasDefault; [step; [apply CH|]|]; ret).
    destruct hasCond; [step; [apply CH|]|]; now apply keeps_cases.
  - assert (s <> innerVar) by (intros ->; apply N; left; reflexivity). destruct (strEqb _ _).
    + step; [now apply keeps_grandchild|]. step; [now apply keeps_grandchild|]. ret.
    + destruct (quantifierOf _); [|ret]. step; [apply CH|]. destruct (_ || _); [ret|]. destruct a; try ret. apply keeps_quant; auto. destruct hasFilter; [apply CH|apply keeps_lift].
  - assert (s <> innerVar) by (intros ->; apply N; left; reflexivity). step; [apply CH|]. destruct (_ || _); [ret|]. destruct a; try ret. destruct (_ && _); [ret|].
    step; [apply keeps_comp; auto; [destruct hasFilter|destruct hasMapping]; auto|]. ret.
  - assert (s <> acc) by (intros ->; apply N; left; reflexivity). assert (s <> innerVar) by (intros ->; apply N; right; left; reflexivity).
    step; [apply CH|]. step; [apply CH|]. destruct (_ || _); [ret|]. destruct a0; try ret.
    step; [now apply keeps_set|]. step; [now apply keeps_reduce|]. step; [apply keeps_get|]. ret.
  - destruct evs as [|e evs]; [ret|]. step; [apply CH|]. destruct (vertexOf a); [|ret]. step; [now apply keeps_path|]. ret.
Qed.
Lemma keeps_eval e : ~ In s (sets e) -> keepsEv (eval E e) /\ Forall (fun g => keepsEv (eval E g)) (childrenOf e).
Proof.
  induction e as [k cs IH] using expr_ind'. intros H. rewrite Forall_forall in IH.
  assert (Hc : forall x, In x cs -> ~ In s (sets x)).
  { intros x Hx Q. apply H. cbn [sets]. apply in_or_app. right. apply in_flat_map. eauto. }
  split; [|apply Forall_forall; intros x Hx; apply IH; auto].
  intros [r ks] c v k' c' R. rewrite eval_eq in R.
  destruct (evalNode E k r _ _ _ (ks, c)) as [[[a r1] [k1 c1]]| | |] eqn:Q; try discriminate R. injection R as _ _ <-.
  refine (keeps_node k r _ _ _ _ _ _ _ _ _ _ _ Q).
  - apply Forall_forall. intros ev He. apply in_map_iff in He as [x [<- Hx]]. apply IH; auto.
  - destruct cs as [|[k0 gs] cs]; [constructor|]. destruct (IH _ (or_introl eq_refl)) as [_ K]; [apply Hc; now left|].
    cbn [childrenOf] in K. rewrite Forall_forall in K. apply Forall_forall. intros ev He. apply in_map_iff in He as [x [<- Hx]]. auto.
  - intros I. apply H. cbn [sets]. apply in_or_app. left. destruct k; auto.
    destruct o; auto; (destruct cs as [|[k0 gs] cs]; [exact I|]; cbn in I; destruct k0; exact I).
Qed.
End Frame.

(** * Only what is wanted matters *)
Section Depends.
Variable X : externals.
Variable R : str -> str -> option bool.
Variable F : str -> list value -> outcome value.
Variables (n1 n2 : str -> value) (v1 v2 : ctx -> str -> Z -> value) (p1 p2 : ctx -> str -> str -> value).
Variables (e1 e2 t1 t2 s1 s2 d1 d2 : str -> str -> value) (i1 i2 : str -> value) (c1 c2 : Z -> value) (x1 x2 y1 y2 : value).
Let E := mkEnv X R F n1 v1 p1 e1 t1 s1 d1 i1 c1 x1 y1.
Let E' := mkEnv X R F n2 v2 p2 e2 t2 s2 d2 i2 c2 x2 y2.
Definition wants := list (bool * str).
Definition agr (P : wants) (c c' : ctx) : Prop := agree E c E' c' P.
Lemma agr_incl P Q c c' : incl Q P -> agr P c c' -> agr Q c c'.
Proof. intros I A h s H. apply A, I, H. Qed.
Lemma agr_set P x v c c' : agr P c c' -> agr ((false, x) :: P) (setVar c x v) (setVar c' x v).
Proof.
  intros A h s [H|H].
  - injection H as <- <-. split; [|discriminate]. unfold getVar, setVar. cbn. rewrite (proj2 (strEqb_eq _ _) eq_refl). reflexivity.
  - destruct (A h s H) as [A1 A2]. split.
    + unfold getVar, setVar in *. cbn [lookup] in *. destruct (strEqb s x); [reflexivity|exact A1].
    + intros T. specialize (A2 T). unfold history, setVar in *. cbn. destruct (strEqb s x); cbn; congruence.
Qed.
Definition both {A} (P : wants) (o1 o2 : outcome (A * (list cache * ctx))) : Prop :=
  match o1, o2 with
  | Ret (a, (k, c)), Ret (b, (l, d)) => a = b /\ k = l /\ agr P c d
  | Fatal, Fatal | UB, UB | Diverge, Diverge => True
  | _, _ => False
  end.
Definition sim {A} (P Q : wants) (m1 m2 : M A) : Prop := forall ks c c', agr P c c' -> both Q (m1 (ks, c)) (m2 (ks, c')).
Definition simEv (P : wants) (e : expr) : Prop := forall k c c', agr P c c' ->
  match eval E e k c, eval E' e k c' with
  | Ret (a, l, d), Ret (b, l', d') => a = b /\ l = l' /\ agr P d d'
  | Fatal, Fatal | UB, UB | Diverge, Diverge => True
  | _, _ => False
  end.
Lemma sim_ret A P (a b : A) : a = b -> sim P P (mret a) (mret b).
Proof. intros H ks c c' G. cbn. auto. Qed.
Lemma sim_weaken A P P' Q Q' (m1 m2 : M A) : incl P P' -> incl Q' Q -> sim P Q m1 m2 -> sim P' Q' m1 m2.
Proof.
  intros I J H ks c c' G. specialize (H ks c c' (agr_incl _ _ _ _ I G)). unfold both in *.
  destruct (m1 (ks, c)) as [[a [k3 c3]]| | |], (m2 (ks, c')) as [[b [k4 c4]]| | |]; auto. destruct H as (H1 & H2 & H3). splits; auto. exact (agr_incl _ _ _ _ J H3).
Qed.
Lemma sim_bind A C P Q S (m1 m2 : M A) (f g : A -> M C) : sim P Q m1 m2 -> (forall a, sim Q S (f a) (g a)) -> sim P S (mbind m1 f) (mbind m2 g).
Proof.
  intros H K ks c c' G. unfold mbind. specialize (H ks c c' G). unfold both in H.
  destruct (m1 (ks, c)) as [[a [k3 c3]]| | |], (m2 (ks, c')) as [[b [k4 c4]]| | |]; try contradiction; try exact Logic.I.
  destruct H as (-> & -> & H). now apply K.
Qed.
Lemma sim_lift A P (o1 o2 : outcome A) : o1 = o2 -> sim P P (mlift o1) (mlift o2).
Proof. intros <- ks c c' G. destruct o1; cbn; auto. Qed.
Lemma sim_get P s : In (false, s) P \/ In (true, s) P -> sim P P (mget E s) (mget E' s).
Proof. intros I ks c c' G. cbn. splits; auto. destruct I as [I|I]; exact (proj1 (G _ _ I)). Qed.
Lemma sim_set P s v : sim P ((false, s) :: P) (mset s v) (mset s v).
Proof. intros ks c c' G. cbn. splits; auto. now apply agr_set. Qed.
Lemma sim_child P cs i : (forall x, nth_error cs i = Some x -> simEv P x) -> sim P P (child (map (eval E) cs) i) (child (map (eval E') cs) i).
Proof.
  intros H ks c c' G. unfold child. rewrite !nth_error_map. destruct (nth_error cs i) as [e|]; [|exact Logic.I]. cbn [option_map fst snd].
  specialize (H e eq_refl (nth i ks noCache) c c' G).
  destruct (eval E e _ c) as [[[a k3] c3]| | |], (eval E' e _ c') as [[[b k4] c4]| | |]; try contradiction; try exact Logic.I.
  destruct H as (-> & -> & H). cbn. auto.
Qed.
Lemma sim_grandchild P cs i : (forall x, nth_error cs i = Some x -> simEv P x) -> sim P P (grandchild (map (eval E) cs) i) (grandchild (map (eval E') cs) i).
Proof.
  intros H ks c c' G. unfold grandchild. cbn [fst snd]. destruct (nth 0 ks noCache) as [r1 k1]. pose proof (sim_child P cs i H k1 c c' G) as K. unfold both in K.
  destruct (child (map (eval E) cs) i (k1, c)) as [[a [k3 c3]]| | |], (child (map (eval E') cs) i (k1, c')) as [[b [k4 c4]]| | |]; try contradiction; try exact Logic.I.
  destruct K as (-> & -> & K). cbn. auto.
Qed.
Ltac step := eapply sim_bind; [|intros ?].
Ltac ret := now apply sim_ret.
Section Kids.
Variable cs : list expr.
Variable P : wants.
Hypothesis CH : forall i, sim P P (child (map (eval E) cs) i) (child (map (eval E') cs) i).
Lemma sim_all : sim P P (allChildren (map (eval E) cs)) (allChildren (map (eval E') cs)).
Proof.
  unfold allChildren. rewrite !map_length. match goal with |- sim _ _ (?g _ _) (?h _ _) => assert (K : forall n i, sim P P (g n i) (h n i)) end; [|apply K].
  induction n as [|n IH]; intros i; [ret|]. step; [apply CH|]. step; [apply IH|]. ret.
Qed.
Lemma sim_andOr stop n : forall i res, sim P P (evalAndOr (map (eval E) cs) stop n i res) (evalAndOr (map (eval E') cs) stop n i res).
Proof.
  induction n as [|n IH]; intros i res; cbn [evalAndOr]; [ret|]. step; [apply CH|].
  destruct (_ || _); [ret|]. destruct (isBoolV a); [apply IH|]. destruct (isNull a); [apply IH|]. destruct (_ && _); [apply IH|ret].
Qed.
Lemma sim_xor n : forall i he fi res, sim P P (evalXor (map (eval E) cs) n i he fi res) (evalXor (map (eval E') cs) n i he fi res).
Proof.
  induction n as [|n IH]; intros i he fi res; cbn [evalXor]; [ret|]. step; [apply CH|].
  destruct (isNull a); [ret|]. destruct a; try ret; [apply IH|]. destruct he; [apply IH|]. destruct fi; [apply IH|]. destruct res; try now apply sim_lift. apply IH.
Qed.
Lemma sim_cases cond n d d' r : sim P P d d' -> forall i, sim P P (evalCases E (map (eval E) cs) cond n i d r) (evalCases E' (map (eval E') cs) cond n i d' r).
Proof.
  intros D. induction n as [|n IH]; intros i; cbn [evalCases]; auto. step; [apply CH|]. destruct cond as [cv|].
  - change (eX E') with (eX E). destruct (veq _ cv a); [|apply IH]. step; [apply CH|]. ret.
  - destruct a as [| |[]| | | | | | | | | | | | | ]; try ret; try apply IH. step; [apply CH|]. ret.
Qed.
Lemma sim_path n : forall i st, sim P P (evalPath E (map (eval E) cs) n i st) (evalPath E' (map (eval E') cs) n i st).
Proof.
  induction n as [|n IH]; intros i st; cbn [evalPath]; [ret|]. step; [apply CH|]. change (pathItem E') with (pathItem E).
  destruct (pathItem _ _ _ _); [apply IH|ret].
Qed.
End Kids.
Lemma sim_drop A P x (m1 m2 : M A) : sim P P m1 m2 -> sim (x :: P) P m1 m2.
Proof. apply sim_weaken; [apply incl_tl|]; apply incl_refl. Qed.
Lemma sim_dropped A P Q x (m1 m2 : M A) : sim P (x :: Q) m1 m2 -> sim P Q m1 m2.
Proof. apply sim_weaken; [|apply incl_tl]; apply incl_refl. Qed.
Lemma sim_quant P q m m' iv l : sim ((false, iv) :: P) ((false, iv) :: P) m m' -> forall res, sim P P (evalQuant q m iv l res) (evalQuant q m' iv l res).
Proof.
  intros H. induction l as [|v l IH]; intros res; cbn [evalQuant]; [ret|]. step; [apply sim_set|]. step; [apply H|]. apply sim_drop. destruct (negb _); [ret|].
  destruct q, (isTrue a0); try ret; try apply IH. destruct res; [ret|apply IH].
Qed.
Lemma sim_comp P f f' m m' iv l :
  match f, f' with Some x, Some y => sim ((false, iv) :: P) ((false, iv) :: P) x y | None, None => True | _, _ => False end ->
  match m, m' with Some x, Some y => sim ((false, iv) :: P) ((false, iv) :: P) x y | None, None => True | _, _ => False end ->
  sim P P (evalComp f m iv l) (evalComp f' m' iv l).
Proof.
  intros Hf Hm. induction l as [|v l IH]; cbn [evalComp]; [ret|]. step; [apply sim_set|].
  step; [destruct f, f'; try contradiction; [step; [apply Hf|]|]; ret|].
  destruct a0 as [[]|]; [|now apply sim_drop|apply sim_drop; ret].
  step; [destruct m, m'; try contradiction; [apply Hm|ret]|]. apply sim_drop. step; [apply IH|]. ret.
Qed.
Lemma sim_reduce P m m' acc iv l : sim ((false, iv) :: (false, acc) :: P) ((false, iv) :: (false, acc) :: P) m m' ->
  sim ((false, acc) :: P) ((false, acc) :: P) (evalReduce m acc iv l) (evalReduce m' acc iv l).
Proof.
  intros H. induction l as [|v l IH]; cbn [evalReduce]; [ret|]. step; [apply sim_set|]. step; [apply H|]. step; [apply sim_set|].
  revert IH. apply sim_weaken; [|apply incl_refl]. intros x [K|K]; [now left|right; right; right; exact K].
Qed.
Lemma hide_in s b x l : In (b, x) l -> In (b, x) (hide s l) \/ (b, x) = (false, s).
Proof.
  intros I. destruct b; [left; apply filter_In; auto|]. destruct (strEqb x s) eqn:Q; [right; f_equal; now apply strEqb_eq|left; apply filter_In; cbn; rewrite Q; auto].
Qed.
Lemma nodes_all Q k cs : nodes Q (Node k cs) -> Q k /\ forall x, In x cs -> nodes Q x.
Proof.
  intros [H K]. split; auto. clear H. induction cs as [|y cs IH]; intros x [].
  - subst. apply K.
  - apply IH; auto. apply K.
Qed.
(** what the children of a node may want *)
Definition kidsWant (P : wants) (k : kind) (i : nat) : wants :=
  match k with
  | KPredicate _ iv _ _ => match i with O => P | _ => (false, iv) :: P end
  | KListComp iv _ _ _ => match i with O => P | _ => (false, iv) :: P end
  | KReduce acc iv _ => match i with 0%nat | 1%nat => P | _ => (false, iv) :: (false, acc) :: P end
  | _ => P
  end.
Definition whole (k : kind) : bool :=
  match k with KPredicate _ _ _ _ | KListComp _ _ _ _ | KReduce _ _ _ | KVar _ _ | KProp _ _ _ _ => false | KVersioned _ b => b | _ => true end.
Definition isExists (k : kind) : bool := match k with KPredicate name _ _ _ => strEqb name (B "exists") | _ => false end.
Lemma nth_tl A (l : list A) x i y : nth_error (x :: l) (S i) = Some y -> In y l.
Proof. cbn. apply nth_error_In. Qed.
Lemma kids_incl P k cs : incl (needs (Node k cs)) P -> isExists k = false -> (whole k = false -> match k with KVar _ _ | KProp _ _ _ _ | KVersioned _ _ => False | _ => True end) ->
  forall i x, nth_error cs i = Some x -> incl (needs x) (kidsWant P k i).
Proof.
  intros I NE W i x N.
  assert (D : incl (flat_map needs cs) P -> incl (needs x) P).
  { intros J y Hy. apply J, in_flat_map. exists x. split; auto. now apply nth_error_In in N. }
  destruct k; cbn [kidsWant needs] in *; try (apply D; exact I); try (elim (W eq_refl)).
  - destruct hasVersion; [|elim (W eq_refl)]. apply D. intros y Hy. apply I. now right.
  - cbn [isExists] in NE. rewrite NE in I. destruct cs as [|y cs]; [destruct i; discriminate N|]. cbn [map] in I. destruct i as [|i].
    + injection N as <-. intros z Hz. apply I, in_or_app. now left.
    + apply nth_tl in N. intros [b z] Hz. assert (Q : In (b, z) (concat (map needs cs))) by (apply in_concat; exists (needs x); split; auto; now apply in_map).
      destruct (hide_in innerVar _ _ _ Q) as [Q'|Q']; [right; apply I, in_or_app; now right|left; congruence].
  - destruct cs as [|y cs]; [destruct i; discriminate N|]. cbn [map] in I. destruct i as [|i].
    + injection N as <-. intros z Hz. apply I, in_or_app. now left.
    + apply nth_tl in N. intros [b z] Hz. assert (Q : In (b, z) (concat (map needs cs))) by (apply in_concat; exists (needs x); split; auto; now apply in_map).
      destruct (hide_in innerVar _ _ _ Q) as [Q'|Q']; [right; apply I, in_or_app; now right|left; congruence].
  - destruct cs as [|y [|y' cs]]; cbn [map] in I; [destruct i; discriminate N| |].
    + destruct i as [|[|i]]; try discriminate N. injection N as <-. intros z Hz. apply I. cbn. rewrite app_nil_r. exact Hz.
    + destruct i as [|[|i]].
      * injection N as <-. intros z Hz. apply I, in_or_app. now left.
      * injection N as <-. intros z Hz. apply I, in_or_app. right. apply in_or_app. now left.
      * cbn in N. apply nth_error_In in N. intros [b z] Hz. assert (Q : In (b, z) (concat (map needs cs))) by (apply in_concat; exists (needs x); split; auto; now apply in_map).
        destruct (hide_in innerVar _ _ _ Q) as [Q'|Q']; [|left; congruence].
        destruct (hide_in acc _ _ _ Q') as [Q2|Q2]; [right; right; apply I, in_or_app; right; apply in_or_app; now right|right; left; congruence].
Qed.
Lemma sim_node P k r cs : (isExists k = false -> whole k = true \/ match k with KVar _ _ | KProp _ _ _ _ | KVersioned _ _ => False | _ => True end ->
    forall i x, nth_error cs i = Some x -> simEv (kidsWant P k i) x) ->
  (isExists k = true -> match cs with Node _ gs :: _ => forall x, In x gs -> simEv P x | [] => True end) ->
  incl (needs (Node k cs)) P -> alike E E' k ->
  sim P P (evalNode E k r (map (eval E) cs) (match cs with Node _ gs :: _ => map (eval E) gs | [] => [] end) (map kindOf cs))
          (evalNode E' k r (map (eval E') cs) (match cs with Node _ gs :: _ => map (eval E') gs | [] => [] end) (map kindOf cs)).
Proof.
  intros K G I L.
  assert (CH : isExists k = false -> whole k = true \/ match k with KVar _ _ | KProp _ _ _ _ | KVersioned _ _ => False | _ => True end ->
    forall i, sim (kidsWant P k i) (kidsWant P k i) (child (map (eval E) cs) i) (child (map (eval E') cs) i)).
  { intros H1 H2 i. apply sim_child. now apply K. }
  clear K. destruct k; cbn [evalNode] in *; cbn [isExists whole kidsWant alike] in *;
    try (specialize (CH eq_refl (or_introl eq_refl))); try (specialize (CH eq_refl (or_intror Logic.I))); try ret; try (now apply sim_lift).
  - step; [apply CH|]. step; [apply CH|]. step; [now apply sim_lift|]. ret.
  - destruct o; try (step; [apply CH|]; try (step; [now apply sim_lift|]); ret).
    all: destruct (map kindOf cs) as [|[] ?]; try ret; try (now apply sim_lift).
    all: step; [apply CH|]; first [now apply sim_lift|step; [now apply sim_lift|]; step; [apply sim_set|]; apply sim_drop; ret].
  - step; [apply CH|]. step; [apply CH|]. step; [now apply sim_lift|]. ret.
  - step; [apply CH|]. step; [apply CH|]. now apply sim_lift.
  - step; [apply CH|]. destruct a; try ret. step; [destruct hasLo; [step; [apply CH|]|]; ret|].
    match goal with |- sim _ _ (match ?x with _ => _ end) _ => destruct x as [[?|]|]; try ret end.
    step; [destruct hasHi; [step; [apply CH|]|]; ret|].
    match goal with |- sim _ _ (match ?x with _ => _ end) _ => destruct x as [[]|]; try ret end.
    all: step; [now apply sim_lift|]; ret.
  - step; [apply CH|]. step; [apply CH|]. now apply sim_lift.
  - apply sim_ret. now rewrite L.
  - rewrite !map_length. destruct o; (step; [first [now apply sim_andOr|now apply sim_xor]|]; ret).
  - step; [apply CH|]. now apply sim_lift.
  - step; [now apply sim_all|]. step; [now apply sim_lift|]. ret.
  - destruct p; try (apply sim_ret; now rewrite L). intros ks c c' A. cbn. splits; auto. f_equal.
    apply L. apply (A true sym); auto. apply I. cbn. auto.
  - apply sim_ret. cbn in *. now rewrite L.
  - apply sim_ret. cbn in *. now rewrite L.
  - step; [apply sim_get; left; apply I; cbn; auto|]. ret.
  - destruct hasVersion; [|step; [apply sim_get; left; apply I; cbn; auto|]; ret].
    step; [apply (CH eq_refl (or_introl eq_refl))|]. destruct a; try ret. intros ks c c' A. cbn. splits; auto. f_equal.
    apply L. apply (A true name); auto. apply I. cbn. auto.
  - step; [now apply sim_all|]. ret.
  - step; [now apply sim_all|]. step; [now apply sim_lift|]. ret.
  - step; [now apply sim_all|]. ret.
  - rewrite !map_length.
    assert (D : sim P P (if hasDefault then let! v := child (map (eval E) cs) (if hasCond then 1 else 0) in mret (same v) else mret (same kNull))
                        (if hasDefault then let! v := child (map (eval E') cs) (if hasCond then 1 else 0) in mret (same v) else mret (same kNull)))
      by (destruct hasDefault; [step; [apply CH|]|]; ret).
    destruct hasCond; [step; [apply CH|]|]; now apply sim_cases.
  - destruct (strEqb name (B "exists")) eqn:Q.
    + specialize (G eq_refl). destruct cs as [|[k0 gs] cs].
      * intros ks c c' A. unfold mbind, grandchild. cbn [fst snd]. destruct (nth 0 ks noCache). exact Logic.I.
      * assert (GC : forall i, sim P P (grandchild (map (eval E) gs) i) (grandchild (map (eval E') gs) i)) by (intros i; apply sim_grandchild; intros x Hx; apply G; now apply nth_error_In in Hx).
        step; [apply GC|]. step; [apply GC|]. ret.
    + specialize (CH eq_refl (or_intror Logic.I)). destruct (quantifierOf _); [|ret]. step; [apply (CH 0%nat)|]. destruct (_ || _); [ret|]. destruct a; try ret.
      apply sim_quant. destruct hasFilter; [apply (CH 1%nat)|now apply sim_lift].
  - step; [apply (CH 0%nat)|]. destruct (_ || _); [ret|]. destruct a; try ret. destruct (_ && _); [ret|].
    step; [apply sim_comp; [destruct hasFilter; [apply (CH 1%nat)|exact Logic.I]|destruct hasMapping; [|exact Logic.I]; destruct hasFilter; [apply (CH 2%nat)|apply (CH 1%nat)]]|]. ret.
  - step; [apply (CH 0%nat)|]. step; [apply (CH 1%nat)|]. destruct (_ || _); [ret|]. destruct a0; try ret.
    step; [apply sim_set|]. step; [apply sim_reduce; apply (CH 2%nat)|]. step; [apply sim_get; left; now left|]. apply sim_drop. ret.
  - destruct cs as [|e cs]; [ret|]. cbn [map]. step; [apply CH|]. destruct (vertexOf a); [|ret]. change (eval E e :: map (eval E) cs) with (map (eval E) (e :: cs)).
    change (eval E' e :: map (eval E') cs) with (map (eval E') (e :: cs)). rewrite !map_length. step; [now apply sim_path|]. ret.
Qed.
Lemma sim_eval e : nodes (alike E E') e ->
  (forall P, incl (needs e) P -> simEv P e) /\ Forall (fun g => forall P, incl (needs g) P -> simEv P g) (childrenOf e).
Proof.
  induction e as [k cs IH] using expr_ind'. intros H. apply nodes_all in H as [Hk Hc]. rewrite Forall_forall in IH.
  split; [|apply Forall_forall; intros x Hx; apply IH; auto].
  intros P I [r ks] c c' A. rewrite !eval_eq.
  assert (S : sim P P (evalNode E k r (map (eval E) cs) (match cs with Node _ gs :: _ => map (eval E) gs | [] => [] end) (map kindOf cs))
          (evalNode E' k r (map (eval E') cs) (match cs with Node _ gs :: _ => map (eval E') gs | [] => [] end) (map kindOf cs))).
  { apply sim_node; auto.
    - intros NE W i x N. assert (Hx : In x cs) by (now apply nth_error_In in N). apply IH; auto. apply (kids_incl P k cs); auto.
      intros Q. destruct W as [W|W]; [congruence|exact W].
    - intros Ex. destruct cs as [|[k0 gs] cs]; [exact Logic.I|]. intros x Hx. destruct (IH _ (or_introl eq_refl)) as [_ K]; [apply Hc; now left|].
      cbn [childrenOf] in K. rewrite Forall_forall in K. apply K; auto. destruct k; try discriminate Ex. cbn [isExists] in Ex. cbn [needs] in I. rewrite Ex in I.
      intros y Hy. apply I, in_flat_map. eauto. }
  specialize (S ks c c' A). unfold both in S.
  destruct (evalNode E k r _ _ _ (ks, c)) as [[[a r1] [k3 c3]]| | |], (evalNode E' k r _ _ _ (ks, c')) as [[[b r2] [k4 c4]]| | |]; try contradiction; try exact Logic.I.
  destruct S as (S1 & -> & S2). injection S1 as -> ->. auto.
Qed.
End Depends.
