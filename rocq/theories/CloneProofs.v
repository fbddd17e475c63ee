(** Lemmas about comparing and copying expression trees. *)
From Verif Require Import Prelude ValueBase DateModel TimeModel ValueModel ValueProofs GraphModel ExprModel ExprSpec ExprProofs EvalModel EvalProofs CloneModel CloneSpec.
From Coq Require Import Lia.
Local Open Scope list_scope.
Local Open Scope Z_scope.

(** * Constants *)
Lemma dateEq_eq a b : dateEq a b = true <-> a = b.
Proof. unfold dateEq. destruct a as [y m d], b as [y' m' d']. cbn. rewrite !andb_true_iff, !Z.eqb_eq. split; [intros [[-> ->] ->]; reflexivity|]. intros H. injection H as -> -> ->. auto. Qed.
Lemma timeEq_eq a b : timeEq a b = true <-> a = b.
Proof. unfold timeEq. destruct a, b. cbn. rewrite !andb_true_iff, !Z.eqb_eq. split; [intros [[[-> ->] ->] ->]; reflexivity|]. intros H. injection H as -> -> -> ->. auto. Qed.
Lemma dtEq_eq a b : dtEq a b = true <-> a = b.
Proof. unfold dtEq. destruct a, b. cbn. rewrite !andb_true_iff, !Z.eqb_eq. split; [intros [[[[[[-> ->] ->] ->] ->] ->] ->]; reflexivity|]. intros H. injection H as -> -> -> -> -> -> ->. repeat split; reflexivity. Qed.
Lemma listEq_eq {A} (f : A -> A -> bool) x y : (forall a b, In a x -> In b y -> f a b = true <-> a = b) -> listEq f x y = true <-> x = y.
Proof.
  revert y. induction x as [|a x IH]; intros [|b y] H; cbn; try (split; congruence).
  rewrite andb_true_iff, (H a b), IH by (cbn; auto; intros; apply H; cbn; auto). split; [intros [-> ->]; reflexivity|]. intros E. injection E as -> ->. auto.
Qed.
Lemma veq_exact X a : forall b, exactValue a = true -> exactValue b = true -> veq X a b = true <-> a = b.
Proof.
  induction a as [a IH] using value_sub_ind. intros b Ha Hb.
  destruct a as [|n|x|x|x|x|x|x|x|x|x|x|x|x|x|x]; try discriminate Ha; destruct b as [|n'|y|y|y|y|y|y|y|y|y|y|y|y|y|y]; try discriminate Hb;
    try (destruct n; try discriminate Ha); try (destruct n'; try discriminate Hb); try (cbn; split; congruence).
  - cbn. destruct x, y; cbn; split; congruence.
  - cbn. rewrite Z.eqb_eq. split; congruence.
  - cbn. rewrite strEqb_eq. split; congruence.
  - cbn. rewrite dateEq_eq. split; congruence.
  - cbn. rewrite timeEq_eq. split; congruence.
  - cbn. rewrite dtEq_eq. split; congruence.
  - change (listEq (veq X) x y = true <-> VList x = VList y). cbn in Ha, Hb. rewrite forallb_forall in Ha, Hb. rewrite (listEq_eq (veq X)); [split; congruence|].
    intros c d Hc Hd. apply IH; [exact Hc|apply Ha, Hc|apply Hb, Hd].
Qed.

(** * Comparing *)
Lemma zipEq_spec (ev : expr -> expr -> outcome bool) : forall l cs,
  (forall a b, In a l -> In b cs -> exists r, ev a b = Ret r /\ (r = true <-> erase a = erase b)) -> List.length l = List.length cs ->
  exists r, zipEq (map ev l) cs = Ret r /\ (r = true <-> map erase l = map erase cs).
Proof.
  induction l as [|a l IH]; intros [|c cs] H L; try discriminate L.
  - exists true. split; [reflexivity|]. split; reflexivity.
  - destruct (H a c (or_introl eq_refl) (or_introl eq_refl)) as (r & E & Hr). cbn [map zipEq]. rewrite E. cbn [obind]. destruct r.
    + destruct (IH cs) as (q & E' & Hq); [intros x y Hx Hy; apply H; right; assumption|cbn in L; lia|].
      exists q. split; [exact E'|]. rewrite Hq. cbn [map]. rewrite (proj1 Hr eq_refl). split; congruence.
    + exists false. split; [reflexivity|]. split; [discriminate|]. intros G. apply Hr. cbn in G. congruence.
Qed.
Lemma sizedEq_spec (ev : expr -> expr -> outcome bool) l cs :
  (forall a b, In a l -> In b cs -> exists r, ev a b = Ret r /\ (r = true <-> erase a = erase b)) ->
  exists r, sizedEq (map ev l) cs = Ret r /\ (r = true <-> map erase l = map erase cs).
Proof.
  intros H. unfold sizedEq. rewrite map_length. destruct (Nat.eqb_spec (List.length l) (List.length cs)) as [L|L].
  - apply zipEq_spec; assumption.
  - exists false. split; [reflexivity|]. split; [discriminate|]. intros G. apply (f_equal (@List.length _)) in G. rewrite !map_length in G. contradiction.
Qed.
Lemma no_erase l cs : List.length l = List.length cs -> List.length l = O -> map erase l = map erase cs.
Proof. intros L Z. destruct l; [|discriminate]. destruct cs; [reflexivity|discriminate]. Qed.
Lemma strEqb_iff a b : strEqb a b = true <-> a = b.
Proof. apply strEqb_eq. Qed.

(** A decision under a test that must also hold *)
Lemma guarded (t : bool) (o : outcome bool) (P Q R : Prop) : (t = true <-> P) -> (P -> exists r, o = Ret r /\ (r = true <-> Q)) -> (R <-> P /\ Q) ->
  exists r, (if t then o else Ret false) = Ret r /\ (r = true <-> R).
Proof.
  intros T O E. destruct t.
  - destruct O as (r & -> & Hr); [now apply T|]. exists r. split; [reflexivity|]. rewrite Hr, E. split; [intros q; split; [now apply T|exact q]|tauto].
  - exists false. split; [reflexivity|]. split; [discriminate|]. rewrite E. intros [p _]. now apply T.
Qed.
Lemma tested (t : bool) (P : Prop) : (t = true <-> P) -> exists r, Ret t = Ret r /\ (r = true <-> P).
Proof. intros T. exists t. split; [reflexivity|exact T]. Qed.

Ltac beq := rewrite ?andb_true_iff, ?strEqb_iff, ?Z.eqb_eq, ?Bool.eqb_true_iff; split; [intros; repeat match goal with H : _ /\ _ |- _ => destruct H end; congruence|let E := fresh in intros E; injection E; intros; subst; auto].
Lemma always (o : outcome bool) (P Q : Prop) : P -> (exists r, o = Ret r /\ (r = true <-> Q)) -> exists r, o = Ret r /\ (r = true <-> P /\ Q).
Proof. intros p (r & E & H). exists r. split; [exact E|]. rewrite H. tauto. Qed.

Lemma exprEq_spec X a : forall b, built a -> built b -> exactConsts a -> exactConsts b -> exists r, exprEq X a b = Ret r /\ (r = true <-> erase a = erase b).
Proof.
  induction a as [k cs IH] using expr_ind'. intros [k' cs'] [Bk Bc] [Bk' Bc'] [Ek Ec] [Ek' Ec']. rewrite fold_and_Forall in *. rewrite Forall_forall in *.
  assert (K : forall a b, In a cs -> In b cs' -> exists r, exprEq X a b = Ret r /\ (r = true <-> erase a = erase b)).
  { intros x y Hx Hy. apply IH; [exact Hx|apply Bc; exact Hx|apply Bc'; exact Hy|apply Ec; exact Hx|apply Ec'; exact Hy]. }
  assert (S := sizedEq_spec (exprEq X) cs cs' K).
  assert (Zq := zipEq_spec (exprEq X) cs cs' K).
  assert (N : forall P : Prop, List.length cs = O -> List.length cs' = O -> (P <-> P /\ map erase cs = map erase cs')).
  { intros P L L'. rewrite (no_erase cs cs') by congruence. tauto. }
  assert (NK : forall kk kk', (Node kk (map erase cs) = Node kk' (map erase cs') <-> kk = kk' /\ map erase cs = map erase cs')).
  { intros. split; [intros E; injection E as -> ->; auto|intros [-> ->]; reflexivity]. }
  cbn [exprEq erase]. unfold nodeEq. setoid_rewrite NK.
  destruct (kindNo k =? kindNo k') eqn:EN; cbn [negb].
  2:{ apply tested. split; [discriminate|]. intros [E _]. apply Z.eqb_neq in EN. elim EN. destruct k, k'; cbn [bare] in E; try discriminate E; try (injection E; intros; subst; reflexivity); reflexivity. }
  apply Z.eqb_eq in EN. clear IH Bc Bc' Ec Ec' K NK.
  assert (NN : forall P (t : bool), (t = true <-> P) -> List.length cs = O -> List.length cs' = O -> exists r, Ret t = Ret r /\ (r = true <-> P /\ map erase cs = map erase cs')).
  { intros P t T L L'. apply tested. rewrite T. apply N; assumption. }
  destruct k; cbn [builtNode] in Bk; try contradiction; destruct k'; cbn [builtNode] in Bk'; try contradiction; cbn [kindNo] in EN; try discriminate EN;
    try (destruct o; discriminate EN); try (destruct o0; discriminate EN); try (destruct p; discriminate EN); try (destruct p0; discriminate EN);
    try (destruct o, o0; discriminate EN); try (destruct p, o; discriminate EN); try (destruct o, p; discriminate EN); clear N; cbn [bare].
  - apply NN; [|assumption..]. rewrite (veq_exact X v v0 Ek Ek'). split; congruence.
  - apply always; [destruct o, o0; first [discriminate EN | reflexivity]|apply Zq; congruence].
  - apply always; [destruct o, o0; first [discriminate EN | reflexivity]|apply Zq; congruence].
  - apply always; [destruct o, o0; first [discriminate EN | reflexivity]|apply Zq; congruence].
  - apply always; [reflexivity|apply Zq; congruence].
  - eapply guarded; [|intros E; apply Zq|reflexivity]; [beq|]. injection E as -> ->. congruence.
  - apply always; [reflexivity|apply Zq; congruence].
  - apply always; [reflexivity|apply Zq; congruence].
  - apply NN; [|assumption..]. beq.
  - apply always; [destruct o, o0; first [discriminate EN | reflexivity]|exact S].
  - eapply guarded; [|intros E; apply Zq|reflexivity]; [beq|]. congruence.
  - eapply guarded; [|intros E; exact S|reflexivity]. beq.
  - apply NN; [|tauto..]. assert (p = p0) as -> by (destruct p, p0; first [discriminate EN | reflexivity]). beq.
  - apply NN; [tauto|assumption..].
  - apply NN; [tauto|assumption..].
  - apply NN; [|assumption..]. beq.
  - apply NN; [|assumption..]. beq.
  - destruct Bk as [-> L], Bk' as [-> L']. cbn [andb]. eapply guarded; [|intros E; apply Zq|reflexivity]; [beq|]. congruence.
  - apply always; [reflexivity|exact S].
  - apply always; [reflexivity|exact S].
  - eapply guarded; [|intros E; exact S|reflexivity]. rewrite (listEq_eq strEqb); [split; congruence|]. intros; apply strEqb_iff.
  - apply NN; [|assumption..]. beq.
  - eapply guarded; [|intros E; exact S|reflexivity]. beq.
  - eapply guarded; [|intros E; apply Zq|reflexivity]; [beq|]. injection E as -> -> ->. congruence.
  - eapply guarded; [|intros E; apply Zq|reflexivity]; [beq|]. injection E as -> -> ->. congruence.
  - eapply guarded; [|intros E; apply Zq|reflexivity]; [beq|]. congruence.
  - apply always; [reflexivity|exact S].
  - destruct cs as [|c0 cs]; [discriminate Bk|]. destruct cs' as [|c0' cs']; [discriminate Bk'|]. change (map (exprEq X) (c0 :: cs)) with (exprEq X c0 :: map (exprEq X) cs) at 1. cbv iota.
    eapply guarded; [|intros E; apply Zq|reflexivity]; [beq|]. congruence.
Qed.

(** * Evaluation depends on the sub-expressions only through what they evaluate to *)
Lemma Forall2_len {A C} (R : A -> C -> Prop) l l' : Forall2 R l l' -> List.length l = List.length l'.
Proof. induction 1; cbn; congruence. Qed.
Section Cong.
Variable E : env.
Definition like {A} (m1 m2 : M A) : Prop := forall s, m1 s = m2 s.
Definition same_ev (f g : evfn) : Prop := forall k c, f k c = g k c.
Lemma like_ret : forall A (a : A), like (mret a) (mret a).
Proof. intros A a s. reflexivity. Qed.
Lemma like_refl : forall A (m : M A), like m m.
Proof. intros A m s. reflexivity. Qed.
Lemma like_bind : forall A C (m1 m2 : M A) (f g : A -> M C), like m1 m2 -> (forall a, like (f a) (g a)) -> like (mbind m1 f) (mbind m2 g).
Proof. intros A C m1 m2 f g H K s. unfold mbind. rewrite H. destruct (m2 s) as [[a s']| | |]; auto. apply K. Qed.
Lemma nth_same : forall evs evs', Forall2 same_ev evs evs' -> forall i, match nth_error evs i, nth_error evs' i with Some f, Some g => same_ev f g | None, None => True | _, _ => False end.
Proof. intros evs evs' F. induction F as [|f g evs evs' H _ IH]; intros [|i]; cbn; auto. apply IH. Qed.
Lemma like_child : forall evs evs' i, Forall2 same_ev evs evs' -> like (child evs i) (child evs' i).
Proof.
  intros evs evs' i F s. unfold child. assert (N := nth_same evs evs' F i).
  destruct (nth_error evs i), (nth_error evs' i); try contradiction; [|reflexivity]. rewrite N. reflexivity.
Qed.
Lemma like_grandchild : forall evs evs' i, Forall2 same_ev evs evs' -> like (grandchild evs i) (grandchild evs' i).
Proof. intros evs evs' i F s. unfold grandchild. destruct (nth 0 (fst s) noCache) as [r0 ks0]. rewrite (like_child evs evs' i F). reflexivity. Qed.
Ltac go := apply like_bind; [|intros ?].
Lemma like_all : forall evs evs', Forall2 same_ev evs evs' -> like (allChildren evs) (allChildren evs').
Proof.
  intros evs evs' F. unfold allChildren. rewrite <- (Forall2_len _ _ _ F). generalize (List.length evs). intros n.
  match goal with |- like (?g _ _) (?h _ _) => assert (K : forall n i, like (g n i) (h n i)) end; [|apply K].
  clear n. induction n as [|n IH]; intros i; [apply like_ret|]. go; [now apply like_child|]. go; [apply IH|apply like_ret].
Qed.
Lemma like_andOr : forall evs evs' stop n i res, Forall2 same_ev evs evs' -> like (evalAndOr evs stop n i res) (evalAndOr evs' stop n i res).
Proof.
  intros evs evs' stop n. induction n as [|n IH]; intros i res F; cbn [evalAndOr]; [apply like_ret|].
  go; [now apply like_child|]. destruct (_ || _); [apply like_ret|]. destruct (isBoolV a); [now apply IH|].
  destruct (isNull a); [now apply IH|]. destruct (_ && _); [now apply IH|apply like_ret].
Qed.
Lemma like_xor : forall evs evs' n i he fi res, Forall2 same_ev evs evs' -> like (evalXor evs n i he fi res) (evalXor evs' n i he fi res).
Proof.
  intros evs evs' n. induction n as [|n IH]; intros i he fi res F; cbn [evalXor]; [apply like_ret|].
  go; [now apply like_child|]. destruct (isNull a); [apply like_ret|]. destruct a; try apply like_ret; [now apply IH|].
  destruct he; [now apply IH|]. destruct fi; [now apply IH|]. destruct res; try apply like_refl. now apply IH.
Qed.
Lemma like_cases : forall evs evs' cond n i d d' r, Forall2 same_ev evs evs' -> like d d' -> like (evalCases E evs cond n i d r) (evalCases E evs' cond n i d' r).
Proof.
  intros evs evs' cond n. induction n as [|n IH]; intros i d d' r F D; cbn [evalCases]; [exact D|].
  go; [now apply like_child|]. destruct cond as [cv|].
  - destruct (veq _ cv a); [|now apply IH]. go; [now apply like_child|]. apply like_ret.
  - destruct a as [| |[]| | | | | | | | | | | | | ]; try (apply like_ret); try (now apply IH). go; [now apply like_child|]. apply like_ret.
Qed.
Lemma like_quant : forall q m m' iv l res, like m m' -> like (evalQuant q m iv l res) (evalQuant q m' iv l res).
Proof.
  intros q m m' iv l. induction l as [|v l IH]; intros res F; cbn [evalQuant]; [apply like_ret|].
  go; [apply like_refl|]. go; [exact F|]. destruct (negb _); [apply like_ret|].
  destruct q, (isTrue a0); try (apply like_ret); try (now apply IH). destruct res; [apply like_ret|now apply IH].
Qed.
Definition likeOpt (f f' : option (M value)) : Prop := match f, f' with Some x, Some y => like x y | None, None => True | _, _ => False end.
Lemma like_comp : forall f f' m m' iv l, likeOpt f f' -> likeOpt m m' -> like (evalComp f m iv l) (evalComp f' m' iv l).
Proof.
  intros f f' m m' iv l Hf Hm. induction l as [|v l IH]; cbn [evalComp]; [apply like_ret|].
  go; [apply like_refl|]. go. { destruct f, f'; try contradiction Hf; [go; [exact Hf|]|]; apply like_ret. }
  destruct a0 as [[]|]; [|exact IH|apply like_ret]. go. { destruct m, m'; try contradiction Hm; [exact Hm|apply like_ret]. } go; [exact IH|]. apply like_ret.
Qed.
Lemma like_reduce : forall m m' acc iv l, like m m' -> like (evalReduce m acc iv l) (evalReduce m' acc iv l).
Proof.
  intros m m' acc iv l H. induction l as [|v l IH]; cbn [evalReduce]; [apply like_ret|].
  go; [apply like_refl|]. go; [exact H|]. go; [apply like_refl|]. exact IH.
Qed.
Lemma like_path : forall evs evs' n i steps, Forall2 same_ev evs evs' -> like (evalPath E evs n i steps) (evalPath E evs' n i steps).
Proof.
  intros evs evs' n. induction n as [|n IH]; intros i steps F; cbn [evalPath]; [apply like_ret|].
  go; [now apply like_child|]. destruct (pathItem _ _ _ _); [now apply IH|apply like_ret].
Qed.
Lemma like_node : forall k r evs evs' grands grands' kinds, Forall2 same_ev evs evs' -> Forall2 same_ev grands grands' ->
  like (evalNode E (bare k) r evs grands (map bare kinds)) (evalNode E k r evs' grands' kinds).
Proof.
  intros k r evs evs' grands grands' kinds F G.
  assert (CH : forall i, like (child evs i) (child evs' i)) by (intros; now apply like_child).
  destruct k; cbn [bare evalNode]; try apply like_refl.
  - go; [apply CH|]. go; [apply CH|]. apply like_refl.
  - destruct o; try (go; [apply CH|]; apply like_refl).
    all: destruct kinds as [|[] ?]; cbn [map bare]; try apply like_refl; (go; [apply CH|]; apply like_refl).
  - go; [apply CH|]. go; [apply CH|]. apply like_refl.
  - go; [apply CH|]. go; [apply CH|]. apply like_refl.
  - go; [apply CH|]. destruct a; try apply like_ret.
    go; [destruct hasLo; [go; [apply CH|]|]; apply like_ret|].
    match goal with |- like (match ?x with _ => _ end) _ => destruct x as [[?|]|]; try apply like_ret end.
    go; [destruct hasHi; [go; [apply CH|]|]; apply like_ret|]. apply like_refl.
  - go; [apply CH|]. go; [apply CH|]. apply like_refl.
  - rewrite (Forall2_len _ _ _ F). destruct o; go; try apply like_refl; first [now apply like_andOr|now apply like_xor].
  - go; [apply CH|]. apply like_refl.
  - go; [now apply like_all|]. apply like_refl.
  - destruct hasVersion; [|apply like_refl]. go; [apply CH|]. apply like_refl.
  - go; [now apply like_all|]. apply like_refl.
  - go; [now apply like_all|]. apply like_refl.
  - go; [now apply like_all|]. apply like_refl.
  - rewrite (Forall2_len _ _ _ F). assert (D : like (if hasDefault then let! v := child evs (if hasCond then 1 else 0) in mret (same v) else mret (same kNull))
                          (if hasDefault then let! v := child evs' (if hasCond then 1 else 0) in mret (same v) else mret (same kNull))).
    { destruct hasDefault; [go; [apply CH|]|]; apply like_ret. }
    destruct hasCond; [go; [apply CH|]|]; now apply like_cases.
  - destruct (strEqb _ _).
    + go; [now apply like_grandchild|]. go; [now apply like_grandchild|]. apply like_ret.
    + destruct (quantifierOf _); [|apply like_ret]. go; [apply CH|]. destruct (_ || _); [apply like_ret|].
      destruct a; try apply like_ret. apply like_quant. destruct hasFilter; [apply CH|apply like_refl].
  - go; [apply CH|]. destruct (_ || _); [apply like_ret|]. destruct a; try apply like_ret. destruct (_ && _); [apply like_ret|].
    go; [apply like_comp; [destruct hasFilter|destruct hasMapping]; cbn; auto|]. apply like_ret.
  - go; [apply CH|]. go; [apply CH|]. destruct (_ || _); [apply like_ret|]. destruct a0; try apply like_ret.
    go; [apply like_refl|]. go; [apply like_reduce; apply CH|]. apply like_refl.
  - inversion F; subst; [apply like_ret|]. rewrite <- (Forall2_len _ _ _ F). go; [apply CH|]. destruct (vertexOf a); [|apply like_ret].
    go; [now apply like_path|]. apply like_ret.
Qed.
Lemma same_map : forall cs, Forall (fun e => same_ev (eval E (erase e)) (eval E e)) cs -> Forall2 same_ev (map (eval E) (map erase cs)) (map (eval E) cs).
Proof. intros cs F. induction F; cbn; constructor; auto. Qed.
Lemma eval_erase' : forall e, same_ev (eval E (erase e)) (eval E e) /\ Forall (fun g => same_ev (eval E (erase g)) (eval E g)) (childrenOf e).
Proof.
  induction e as [k cs IH] using expr_ind'. 
  assert (F : Forall (fun e => same_ev (eval E (erase e)) (eval E e)) cs) by (eapply Forall_impl; [|exact IH]; cbn; tauto).
  split; [|exact F]. intros [r ks] c. change (erase (Node k cs)) with (Node (bare k) (map erase cs)). rewrite !eval_eq.
  assert (G : Forall2 same_ev (match map erase cs with Node _ gs :: _ => map (eval E) gs | [] => [] end) (match cs with Node _ gs :: _ => map (eval E) gs | [] => [] end)).
  { destruct IH as [|[k0 gs] cs' [_ H] _]; cbn [map erase]; [constructor|]. apply same_map. exact H. }
  assert (KK : map kindOf (map erase cs) = map bare (map kindOf cs)) by (rewrite !map_map; apply map_ext; intros [? ?]; reflexivity).
  rewrite KK, (like_node k r _ _ _ _ (map kindOf cs) (same_map cs F) G (ks, c)). reflexivity.
Qed.
Lemma eval_erase : forall e k c, eval E (erase e) k c = eval E e k c.
Proof. intros e k c. apply eval_erase'. Qed.
End Cong.

(** * Copies *)
Lemma clone_built : forall e, built e -> clone e = Ret e.
Proof.
  induction e as [k cs IH] using expr_ind'. intros [Bk Bc]. rewrite fold_and_Forall in Bc.
  assert (L : obindList (map clone cs) = Ret cs).
  { clear Bk. induction IH as [|c cs Hc _ IHl]; [reflexivity|]. inversion Bc; subst. cbn [map obindList]. rewrite Hc by assumption. cbn [obind]. rewrite IHl by assumption. reflexivity. }
  cbn [clone]. rewrite L. cbn [obind].
  destruct k; cbn [builtNode] in Bk; cbn [cloneNode]; try contradiction; try reflexivity;
    try (destruct cs; [reflexivity|discriminate Bk]).
  - destruct Bk as [P L0]. destruct cs; [|discriminate L0]. unfold fixedMembers in P. destruct p; cbn [madeProp]; repeat match goal with H : _ /\ _ |- _ => destruct H end; subst; reflexivity.
  - destruct Bk as [-> L0]. destruct cs as [|x [|? ?]]; try discriminate L0. reflexivity.
  - destruct cs as [|x [|? ?]]; try discriminate Bk. reflexivity.
Qed.
