(** Theorems about expressions that build paths, lists, sets and maps, and about ++ and -- (C142-C144). *)
From Coq Require Import String.
From Verif Require Import ValueBase FloatProofs ValueModel ValueProofs ValueProps GraphModel ExprModel EvalModel EvalSpec EvalProofs EvalProps.
Local Open Scope list_scope.
Local Open Scope Z_scope.

(** * Specification *)
(** The expressions run one after the other, each in the context the one before leaves. *)
Inductive runAll (E : env) : list expr -> ctx -> list value -> ctx -> Prop :=
  | runNil c : runAll E [] c [] c
  | runCons e es c v c1 vs c2 : run E e c v c1 -> runAll E es c1 vs c2 -> runAll E (e :: es) c (v :: vs) c2.
(** Edges and the vertices they are said to lead to; a step of the path for each *)
Definition itemsOf (l : list (edge * vertex)) : list value := flat_map (fun p => [VEdge (fst p); VVertex (snd p)]) l.
Definition stepOf (p : edge * vertex) : step := mkStep (snd p) (etype (fst p)) (ename (fst p)) (erank (fst p)) (eprops (fst p)).
(** Each edge leads to the vertex after it and starts, except for the first one, at the vertex before it. *)
Definition linked (X : externals) (l : list (edge * vertex)) : Prop :=
  (forall e x, In (e, x) l -> veq X (edst e) (vvid x) = true) /\
  (forall l1 e x f y l2, l = l1 ++ (e, x) :: (f, y) :: l2 -> veq X (vvid x) (esrc f) = true).

(** * Proofs *)
Lemma gives_all E es : forall c vs c' n i, runAll E (firstn n (skipn i es)) c vs c' -> (n <= length (skipn i es))%nat ->
  gives ((fix go (n : nat) (i : nat) : M (list value) :=
     match n with O => mret [] | S n' => mbind (child (map (eval E) es) i) (fun v => mbind (go n' (S i)) (fun l => mret (v :: l))) end) n i) c vs c'.
Proof.
  intros c vs c' n. revert c vs c'. induction n as [|n IH]; intros c vs c' i R L.
  - cbn [firstn] in R. inversion R; subst. apply gives_ret.
  - destruct (skipn i es) as [|e t] eqn:S; [cbn in L; lia|]. cbn [firstn] in R. inversion R as [|? ? ? v c1 vs' ? R1 R2]; subst. apply nth_drop in S as [N S].
    eapply gives_bind; [eapply gives_child; [exact N|exact R1]|]. eapply gives_bind; [apply IH; rewrite S; [exact R2|cbn in L; lia]|]. apply gives_ret.
Qed.
Lemma gives_children E es c vs c' : runAll E es c vs c' -> gives (allChildren (map (eval E) es)) c vs c'.
Proof. intros R. unfold allChildren. rewrite map_length. apply gives_all; cbn [skipn]; [rewrite firstn_all; exact R|apply Nat.le_refl]. Qed.
Lemma runAll_konsts E c vs : runAll E (map konst vs) c vs c.
Proof. induction vs; cbn; [constructor|econstructor; [apply konst_yields|exact IHvs]]. Qed.

Fixpoint pathFold (X : env) (i : nat) (vs : list value) (steps : list step) : option (list step) :=
  match vs with
  | [] => Some steps
  | v :: l => match pathItem X (Nat.odd i) steps v with Some s => pathFold X (S i) l s | None => None end
  end.
(** the whole expression, from the values of its items *)
Definition pathOf (E : env) (vs : list value) : value :=
  match vs with
  | [] => VNull NNull
  | v :: l => match vertexOf v with
              | None => VNull NBadType
              | Some src => match pathFold E 1 l (match v with VPath p => psteps p | _ => [] end) with
                            | Some steps => VPath (mkPath src steps) | None => VNull NBadData end
              end
  end.
Lemma path_yields E es c vs : Forall2 (yields E c) es vs -> yields E c (Node KPathBuild es) (pathOf E vs).
Proof.
  intros F.
  destruct F as [|e v es vs Y F].
  - apply run_node with (v := VNull NNull); [|reflexivity]. intros r0. exists r0. apply gives_ret.
  - cbn [pathOf]. destruct (vertexOf v) as [src|] eqn:V.
    + assert (G : gives (evalPath E (map (eval E) (e :: es)) (length es) 1 (match v with VPath p => psteps p | _ => [] end)) c
                   (pathFold E 1 vs (match v with VPath p => psteps p | _ => [] end)) c).
      { assert (GG : forall n vs i steps, Forall2 (yields E c) (firstn n (skipn i (e :: es))) vs -> (n <= length (skipn i (e :: es)))%nat ->
          gives (evalPath E (map (eval E) (e :: es)) n i steps) c (pathFold E i vs steps) c).
        { clear. induction n as [|n IH]; intros vs i steps F L; [cbn [firstn] in F; inversion F; subst; apply gives_ret|].
          destruct (skipn i (e :: es)) as [|e' t] eqn:S; [cbn in L; lia|]. cbn [firstn] in F. inversion F as [|? v ? vs' R1 R2]; subst. apply nth_drop in S as [N S]. cbn [evalPath pathFold].
          eapply gives_bind; [eapply gives_child; [exact N|exact R1]|]. cbv beta.
          destruct (pathItem E (Nat.odd i) steps v) as [s|]; [apply IH; rewrite S; [exact R2|cbn in L; lia]|apply gives_ret]. }
        apply GG; cbn [skipn]; [rewrite firstn_all; exact F|apply Nat.le_refl]. }
      eapply run_node; [|reflexivity]. intros r0. destruct (pathFold E 1 vs _) as [steps|] eqn:P; eexists; cbn [evalNode map length];
        (eapply gives_bind; [apply (gives_child E (e :: es)) with (e := e); [reflexivity|exact Y]|]; cbv beta; rewrite V; rewrite Nat.sub_succ, Nat.sub_0_r, map_length;
         eapply gives_bind; [exact G|]; apply gives_ret).
    + eapply run_node; [|reflexivity]. intros r0. exists r0. cbn [evalNode map].
      eapply gives_bind; [apply (gives_child E (e :: es)) with (e := e); [reflexivity|exact Y]|]. cbv beta. rewrite V. apply gives_ret.
Qed.
Lemma path_konsts E c vs r : pathOf E vs = r -> yields E c (Node KPathBuild (map konst vs)) r.
Proof. intros <-. apply path_yields, konsts_yield. Qed.
Lemma lastDst_app l s : lastDstVid (l ++ [s]) = Some (vvid (sdst s)).
Proof. unfold lastDstVid. rewrite rev_app_distr. reflexivity. Qed.
Lemma setLast_app l s d : setLastDst (l ++ [s]) d = l ++ [mkStep d (stype s) (sname s) (srank s) (sprops s)].
Proof. unfold setLastDst. rewrite rev_app_distr. cbn [rev app]. rewrite rev_involutive. reflexivity. Qed.
Fixpoint linkedb (X : externals) (from : option value) (l : list (edge * vertex)) : bool :=
  match l with
  | [] => true
  | (e, x) :: l' => (match from with Some d => veq X d (esrc e) | None => true end) && veq X (edst e) (vvid x) && linkedb X (Some (vvid x)) l'
  end.
Lemma fold_walk E l : forall i steps, pathFold E i (itemsOf l) steps = if linkedb (eX E) (lastDstVid steps) l then Some (steps ++ map stepOf l) else None.
Proof.
  induction l as [|[e x] l IH]; intros i steps; [cbn; rewrite app_nil_r; reflexivity|].
  cbn [itemsOf flat_map fst snd app pathFold linkedb]. cbn [pathItem].
  assert (G : forall i, match pathItem E (Nat.odd i) (steps ++ [mkStep (mkVertex (edst e) []) (etype e) (ename e) (erank e) (eprops e)]) (VVertex x) with
            | Some s => pathFold E (S i) (itemsOf l) s | None => None end =
            if veq (eX E) (edst e) (vvid x) && linkedb (eX E) (Some (vvid x)) l then Some (steps ++ map stepOf ((e, x) :: l)) else None).
  { clear i. intros i. cbn [pathItem]. rewrite lastDst_app. cbn [sdst vvid]. destruct (veq (eX E) (edst e) (vvid x)); [|reflexivity]. cbn [andb].
    rewrite setLast_app. cbn [stype sname srank sprops]. rewrite IH, lastDst_app. cbn [sdst map]. rewrite <- app_assoc. reflexivity. }
  destruct (lastDstVid steps) as [d|].
  - destruct (veq (eX E) d (esrc e)); [|reflexivity]. cbn [andb]. apply G.
  - cbn [andb]. apply G.
Qed.
Lemma linkedb_spec X l : forall from, linkedb X from l = true <-> linked X l /\ (forall d e x l', from = Some d -> l = (e, x) :: l' -> veq X d (esrc e) = true).
Proof.
  induction l as [|[e x] l IH]; intros from; cbn [linkedb].
  - split; [intros _; split; [split; [intros ? ? []|intros l1 ? ? ? ? ? H; destruct l1; discriminate]|intros; discriminate]|reflexivity].
  - rewrite !andb_true_iff, IH. split.
    + intros [[H1 H2] [[H3 H4] H5]]. split; [split|].
      * intros e' x' [[= <- <-]|I]; [exact H2|apply H3, I].
      * intros l1 e1 x1 f y l2 H. destruct l1 as [|p l1]; [injection H as <- <- H; exact (H5 _ _ _ _ eq_refl H)|injection H as <- H; apply (H4 l1 _ _ _ _ _ H)].
      * intros d e' x' l' -> [= <- <- <-]. exact H1.
    + intros [[H1 H2] H3]. split; [split|split; [split|]].
      * destruct from as [d|]; [|reflexivity]. exact (H3 _ _ _ _ eq_refl eq_refl).
      * apply H1. left. reflexivity.
      * intros e' x' I. apply H1. right. exact I.
      * intros l1 e1 x1 f y l2 ->. apply (H2 ((e, x) :: l1) e1 x1 f y l2). reflexivity.
      * intros d f y l' [= <-] ->. apply (H2 [] e x f y l'). reflexivity.
Qed.

(** * C142 *)
(** Vertex, edge, vertex, edge, ... : the path has exactly these steps when they are linked, and there is none otherwise. *)
Theorem C142_walk : forall E c es v l, Forall2 (yields E c) es (VVertex v :: itemsOf l) ->
  (linked (eX E) l -> yields E c (Node KPathBuild es) (VPath (mkPath v (map stepOf l)))) /\
  (~ linked (eX E) l -> yields E c (Node KPathBuild es) (VNull NBadData)).
Proof.
  intros E c es v l F. apply path_yields in F. cbn [pathOf vertexOf] in F. rewrite fold_walk in F. pose proof (linkedb_spec (eX E) l None) as S. cbn [lastDstVid rev app] in F.
  destruct (linkedb (eX E) None l).
  - split; [intros _; exact F|]. intros N. destruct N. apply S. reflexivity.
  - split; [|intros _; exact F]. intros K. assert (false = true) by (apply S; split; [exact K|intros; discriminate]). discriminate.
Qed.
Definition vx (n : Z) : vertex := mkVertex (VInt n) [].
Definition ed (a b : Z) : edge := mkEdge (VInt a) (VInt b) 1 (B "e") 0 [].
Example C142_walk_ex : forall E c, yields E c (Node KPathBuild (map konst [VVertex (vx 1); VEdge (ed 1 2); VVertex (vx 2); VEdge (ed 2 3); VVertex (vx 3)]))
    (VPath (mkPath (vx 1) [mkStep (vx 2) 1 (B "e") 0 []; mkStep (vx 3) 1 (B "e") 0 []])) /\
  linked (eX E) [(ed 1 2, vx 2); (ed 2 3, vx 3)] /\
  yields E c (Node KPathBuild (map konst [VVertex (vx 1); VEdge (ed 1 2); VVertex (vx 2); VEdge (ed 7 3); VVertex (vx 3)])) (VNull NBadData).
Proof.
  intros E c. splits.
  - apply path_konsts; reflexivity.
  - assert (H : linkedb (eX E) None [(ed 1 2, vx 2); (ed 2 3, vx 3)] = true) by reflexivity. apply linkedb_spec in H. apply H.
  - apply path_konsts; reflexivity.
Qed.
(** The first edge need not start at the first vertex, an id after an edge replaces its destination, and a path behind a vertex need not start there. *)
Theorem C142_connected_refuted : forall E c,
  (exists v e x, veq (eX E) (vvid v) (esrc e) = false /\
     yields E c (Node KPathBuild (map konst [VVertex v; VEdge e; VVertex x])) (VPath (mkPath v [stepOf (e, x)]))) /\
  (exists v e n, veq (eX E) (edst e) (VInt n) = false /\
     yields E c (Node KPathBuild (map konst [VVertex v; VEdge e; VInt n])) (VPath (mkPath v [stepOf (e, vx n)]))) /\
  (exists v p, veq (eX E) (vvid v) (vvid (psrc p)) = false /\ psteps p <> [] /\
     yields E c (Node KPathBuild (map konst [VVertex v; VPath p])) (VPath (mkPath v (psteps p)))).
Proof.
  intros E c. splits.
  - exists (vx 1), (ed 5 2), (vx 2). split; [reflexivity|]. apply path_konsts; reflexivity.
  - exists (vx 1), (ed 1 2), 9. split; [reflexivity|]. apply path_konsts; reflexivity.
  - exists (vx 1), (mkPath (vx 5) [mkStep (vx 6) 1 (B "e") 0 []]). splits; [reflexivity|discriminate|]. apply path_konsts; reflexivity.
Qed.
(** With the source of the first edge checked as well, the path runs along the edges: every step starts where the one before ends. *)
Fixpoint alongEdges (X : externals) (from : value) (l : list (edge * vertex)) : Prop :=
  match l with [] => True | (e, x) :: l' => veq X from (esrc e) = true /\ veq X (edst e) (vvid x) = true /\ alongEdges X (vvid x) l' end.
Theorem C142_connected : forall E c es v l, Forall2 (yields E c) es (VVertex v :: itemsOf l) ->
  (forall e x l', l = (e, x) :: l' -> veq (eX E) (vvid v) (esrc e) = true) ->
  ((exists p, yields E c (Node KPathBuild es) (VPath p)) <-> alongEdges (eX E) (vvid v) l).
Proof.
  intros E c es v l F H. destruct (C142_walk E c es v l F) as [W1 W2].
  assert (A : alongEdges (eX E) (vvid v) l <-> linked (eX E) l).
  { transitivity (linkedb (eX E) (Some (vvid v)) l = true).
    - clear. generalize (vvid v). induction l as [|[e x] l IH]; intros d; cbn [alongEdges linkedb]; [tauto|]. rewrite !andb_true_iff, IH. tauto.
    - rewrite linkedb_spec. split; [intros [K _]; exact K|]. intros K. split; [exact K|]. intros d e x l' [= <-] E1. apply (H e x l' E1). }
  rewrite A. split; [|intros K; eexists; apply W1, K]. intros (p & Y).
  destruct (linkedb (eX E) None l) eqn:B; [apply linkedb_spec in B; apply B|].
  assert (N : ~ linked (eX E) l) by (intros K; assert (false = true); [rewrite <- B; apply linkedb_spec; split; [exact K|intros; discriminate]|discriminate]).
  specialize (W2 N). destruct (Y noCache) as [k1 Y1]. destruct (W2 noCache) as [k2 Y2]. rewrite Y1 in Y2. discriminate.
Qed.
Example C142_connected_ex : alongEdges exX (VInt 1) [(ed 1 2, vx 2); (ed 2 3, vx 3)] /\ ~ alongEdges exX (VInt 1) [(ed 1 2, vx 2); (ed 1 3, vx 3)].
Proof. cbn. splits; try reflexivity. intros (_ & _ & H & _). discriminate. Qed.
(** Two paths are joined when the second starts where the first ends; the vertex there is the one of the second. *)
Theorem C142_join : forall E c a b p q s pre, yields E c a (VPath p) -> yields E c b (VPath q) -> psteps p = pre ++ [s] ->
  yields E c (Node KPathBuild [a; b])
    (if veq (eX E) (vvid (sdst s)) (vvid (psrc q))
     then VPath (mkPath (psrc p) (pre ++ mkStep (psrc q) (stype s) (sname s) (srank s) (sprops s) :: psteps q)) else VNull NBadData).
Proof.
  intros E c a b p q s pre Ya Yb P. assert (F : Forall2 (yields E c) [a; b] [VPath p; VPath q]) by (repeat constructor; assumption).
  apply path_yields in F. cbn [pathOf vertexOf pathFold pathItem] in F. rewrite P, lastDst_app, setLast_app in F.
  destruct (veq (eX E) (vvid (sdst s)) (vvid (psrc q))); [|exact F]. rewrite <- app_assoc in F. exact F.
Qed.
(** Whatever the items are, the result is a path or one of the nulls: bad type for a start that has no vertex, bad data for a later item that does not fit. *)
Definition isStart (v : value) : Prop := match v with VStr _ | VInt _ | VVertex _ | VPath _ => True | _ => False end.
Theorem C142_total : forall E c es v vs, Forall2 (yields E c) es (v :: vs) ->
  (isStart v -> yields E c (Node KPathBuild es) (VNull NBadData) \/ exists p, yields E c (Node KPathBuild es) (VPath p)) /\
  (~ isStart v -> yields E c (Node KPathBuild es) (VNull NBadType)) /\
  yields E c (Node KPathBuild []) (VNull NNull).
Proof.
  intros E c es v vs F. apply path_yields in F. cbn [pathOf] in F. splits.
  - intros S. destruct (vertexOf v) as [src|] eqn:V; [|destruct v; try discriminate V; destruct S].
    destruct (pathFold E 1 vs _); [right; eexists; exact F|left; exact F].
  - intros S. destruct (vertexOf v) eqn:V; [|exact F]. destruct v; try discriminate V; destruct S; exact I.
  - apply (path_yields E [] c []). constructor.
Qed.
Example C142_total_ex : forall E c, yields E c (Node KPathBuild (map konst [VInt 1; VEdge (ed 1 2); VBool true])) (VNull NBadData) /\
  yields E c (Node KPathBuild (map konst [VBool true; VEdge (ed 1 2)])) (VNull NBadType) /\
  yields E c (Node KPathBuild (map konst [VInt 1; VEdge (ed 1 2)])) (VPath (mkPath (vx 1) [mkStep (vx 2) 1 (B "e") 0 []])).
Proof. intros E c. splits; apply path_konsts; reflexivity. Qed.
Print Assumptions C142_walk.
Print Assumptions C142_connected_refuted.
Print Assumptions C142_connected.
Print Assumptions C142_join.
Print Assumptions C142_total.

(** * C143: lists, sets and maps *)
(** A list has the values of its items in their order; the items are evaluated once each, from left to right. *)
Theorem C143_list : forall E es c vs c', runAll E es c vs c' -> run E (Node KList es) c (VList vs) c'.
Proof.
  intros E es c vs c' R. eapply run_node; [|reflexivity]. intros r0. eexists. cbn [evalNode].
  eapply gives_bind; [apply gives_children, R|apply gives_ret].
Qed.
(** What the hash set takes for the same element *)
Definition sameMember (X : externals) (v w : value) : Prop := sameHash X v w = true /\ veq X v w = true.
Lemma memberOf_iff X v s : memberOf X v s = true <-> exists w, In w s /\ sameMember X v w.
Proof.
  unfold memberOf, sameMember. rewrite existsb_exists. split; intros (w & I & H); exists w; (split; [exact I|]); apply andb_true_iff, H.
Qed.
Lemma buildSet_spec E l : forall acc, (forall v, In v l -> exists h, vhash (eX E) v = Ret h) ->
  (forall s1 v s2 w, acc = s1 ++ v :: s2 -> In w s1 -> ~ sameMember (eX E) v w) ->
  exists s, buildSet E l acc = Ret s /\ (forall w, In w s -> In w acc \/ In w l) /\ (forall w, In w acc -> In w s) /\
    (forall v, In v l -> exists w, In w s /\ (w = v \/ sameMember (eX E) v w)) /\
    (forall s1 v s2 w, s = s1 ++ v :: s2 -> In w s1 -> ~ sameMember (eX E) v w).
Proof.
  induction l as [|v l IH]; intros acc Hh Hd; cbn [buildSet].
  - exists acc. splits; auto. intros v [].
  - unfold setContains. destruct (Hh v (or_introl eq_refl)) as [h Hv]. rewrite Hv. cbn [obind].
    set (acc' := if memberOf (eX E) v acc then acc else acc ++ [v]).
    assert (Hd' : forall s1 u s2 w, acc' = s1 ++ u :: s2 -> In w s1 -> ~ sameMember (eX E) u w).
    { unfold acc'. destruct (memberOf (eX E) v acc) eqn:Em; [exact Hd|].
      intros s1 u s2 w Q Hw Hs. destruct (exists_last (l := u :: s2)) as (t & x & Et); [discriminate|].
      rewrite Et, app_assoc in Q. apply app_inj_tail in Q. destruct Q as [Q Ex]. subst x.
      destruct t as [|u' t].
      - injection Et as Eu _. subst u. rewrite app_nil_r in Q. subst s1.
        assert (memberOf (eX E) v acc = true) by (apply memberOf_iff; eauto). congruence.
      - cbn [app] in Et. injection Et as <- Et. apply (Hd s1 u t w); auto. }
    destruct (IH acc') as (s & H0 & H1 & H2 & H3 & H4); [intros w Hw; apply Hh; right; exact Hw|exact Hd'|].
    exists s. splits; auto.
    + intros w Hw. destruct (H1 w Hw) as [H|H]; [|right; right; exact H]. unfold acc' in H. destruct (memberOf (eX E) v acc); [left; exact H|].
      apply in_app_iff in H. destruct H as [H|[<-|[]]]; [left; exact H|right; left; reflexivity].
    + intros w Hw. apply H2. unfold acc'. destruct (memberOf (eX E) v acc); auto with datatypes.
    + intros u [<-|Hu]; [|apply H3, Hu]. unfold acc' in H2. destruct (memberOf (eX E) v acc) eqn:Em.
      * apply memberOf_iff in Em. destruct Em as (w & Hw & Hs). exists w. split; [apply H2, Hw|right; exact Hs].
      * exists v. split; [apply H2, in_app_iff; right; left; reflexivity|left; reflexivity].
Qed.
(** A set has only values of its items, an equal one for each of them, and no two that are the same; all of this when the values can be hashed. *)
Theorem C143_set : forall E es c vs c', runAll E es c vs c' -> (forall v, In v vs -> exists h, vhash (eX E) v = Ret h) ->
  exists s, run E (Node KSet es) c (VSet s) c' /\ (forall w, In w s -> In w vs) /\
    (forall v, In v vs -> exists w, In w s /\ (w = v \/ sameMember (eX E) v w)) /\
    (forall s1 v s2 w, s = s1 ++ v :: s2 -> In w s1 -> ~ sameMember (eX E) v w).
Proof.
  intros E es c vs c' R Hh. destruct (buildSet_spec E vs [] Hh) as (s & H0 & H1 & _ & H3 & H4); [intros s1 v s2 w H; destruct s1; discriminate|].
  exists s. splits; auto.
  - eapply run_node; [|reflexivity]. intros r0. eexists. cbn [evalNode]. eapply gives_bind; [apply gives_children, R|]. eapply gives_bind; [apply gives_lift, H0|apply gives_ret].
  - intros w Hw. destruct (H1 w Hw) as [[]|H]. exact H.
Qed.
(** A value that cannot be hashed, a map or a set for instance, aborts the process. *)
Theorem C143_set_refuted : exists vs, forall E c, runAll E (map konst vs) c vs c /\ forall k, eval E (Node KSet (map konst vs)) k c = Fatal.
Proof.
  exists [VInt 1; VMap []]. intros E c. split; [apply runAll_konsts|]. intros [r0 ks]. rewrite eval_eq. cbn [evalNode map]. unfold mbind at 1.
  destruct (gives_children E (map konst [VInt 1; VMap []]) c [VInt 1; VMap []] c (runAll_konsts E c _) ks) as [ks' G]. cbn [map] in G. rewrite G. reflexivity.
Qed.
(** A map has exactly the keys of its items, each once, with the value of the first item of that key. *)
Inductive firstOf (k : str) (v : value) : list (str * value) -> Prop :=
  | firstHere l : firstOf k v ((k, v) :: l)
  | firstLater k' v' l : k' <> k -> firstOf k v l -> firstOf k v ((k', v') :: l).
Lemma lookup_app k : forall (a b : list (str * value)), lookup k (a ++ b) = match lookup k a with Some v => Some v | None => lookup k b end.
Proof. induction a as [|[k' v] a IH]; intros b; [reflexivity|]. cbn [app lookup]. destruct (strEqb k k'); [reflexivity|apply IH]. Qed.
Lemma lookup_first k v : forall l, firstOf k v l <-> lookup k l = Some v.
Proof.
  induction l as [|[k' v'] l IH]; cbn [lookup].
  - split; [intros H; inversion H|discriminate].
  - destruct (strEqb k k') eqn:Q.
    + apply strEqb_eq in Q. subst k'. split; [intros H; inversion H; subst; [reflexivity|contradiction]|intros [= ->]; constructor].
    + assert (N : k' <> k) by (intros ->; rewrite (proj2 (strEqb_eq k k) eq_refl) in Q; discriminate). rewrite <- IH.
      split; [intros H; inversion H; subst; [contradiction|assumption]|intros H; constructor; assumption].
Qed.
Lemma lookup_none k : forall l : list (str * value), lookup k l = None <-> ~ In k (map fst l).
Proof.
  induction l as [|[k' v'] l IH]; cbn [lookup map fst In]; [split; [intros _ []|reflexivity]|]. destruct (strEqb k k') eqn:Q.
  - apply strEqb_eq in Q. subst k'. split; [discriminate|intros H; destruct H; left; reflexivity].
  - rewrite IH. split; [intros H [->|K]; [rewrite (proj2 (strEqb_eq k k) eq_refl) in Q; discriminate|exact (H K)]|]. intros H K. apply H. right. exact K.
Qed.
Lemma buildMap_spec l : forall acc, NoDup (map fst acc) -> NoDup (map fst (buildMap l acc)) /\ forall k, lookup k (buildMap l acc) = lookup k (acc ++ l).
Proof.
  induction l as [|[k v] l IH]; intros acc D; cbn [buildMap]; [rewrite app_nil_r; split; [exact D|reflexivity]|]. cbn [fst]. destruct (lookup k acc) as [x|] eqn:L.
  - destruct (IH acc D) as [I1 I2]. split; [exact I1|]. intros q. rewrite I2, !lookup_app. cbn [lookup]. destruct (lookup q acc) eqn:Lq; [reflexivity|]. destruct (strEqb q k) eqn:Q; [|reflexivity].
    apply strEqb_eq in Q. subst q. congruence.
  - destruct (IH (acc ++ [(k, v)])) as [I1 I2].
    + rewrite map_app. cbn [map fst]. apply NoDup_rev in D. rewrite <- (rev_involutive (map fst acc ++ [k])). apply NoDup_rev. rewrite rev_app_distr. cbn [rev app]. constructor; [|exact D].
      rewrite <- in_rev. apply lookup_none, L.
    + split; [exact I1|]. intros q. rewrite I2, <- app_assoc. reflexivity.
Qed.
Theorem C143_map : forall E keys es c vs c', runAll E es c vs c' -> exists m, run E (Node (KMap keys) es) c (VMap m) c' /\ NoDup (map fst m) /\
  forall k v, In (k, v) m <-> firstOf k v (combine keys vs).
Proof.
  intros E keys es c vs c' R. destruct (buildMap_spec (combine keys vs) []) as [D L]; [constructor|]. exists (buildMap (combine keys vs) []). splits; [|exact D|].
  - eapply run_node; [|reflexivity]. intros r0. eexists. cbn [evalNode]. eapply gives_bind; [apply gives_children, R|]. apply gives_ret.
  - intros k v. specialize (L k). cbn [app] in L. rewrite lookup_first, <- L. clear L R. induction (buildMap (combine keys vs) []) as [|[k' v'] m IH]; cbn [In lookup]; [split; [intros []|discriminate]|].
    inversion D as [|? ? N D']; subst. cbn [fst] in N. destruct (strEqb k k') eqn:Q.
    + apply strEqb_eq in Q. subst k'. split; [intros [[= ->]|I]; [reflexivity|destruct N; apply (in_map fst) in I; exact I]|intros [= ->]; left; reflexivity].
    + rewrite <- (IH D'). split; [intros [[= -> ->]|I]; [rewrite (proj2 (strEqb_eq k k) eq_refl) in Q; discriminate|exact I]|intros I; right; exact I].
Qed.
Definition incr (s : str) : expr := Node (KUnary OIncr) [Node (KVar s true) []].
Definition decr (s : str) : expr := Node (KUnary ODecr) [Node (KVar s true) []].
Print Assumptions C143_list.
Print Assumptions C143_set.
Print Assumptions C143_set_refuted.
Print Assumptions C143_map.

(** * C144: ++ and -- *)
(** On a variable: the sum is returned and is the new value of this variable; no other variable changes. *)
Theorem C144_step : forall E c s i o w, o = OIncr \/ o = ODecr ->
  (if match o with OIncr => true | _ => false end then vadd (eX E) (getVar E c s) (VInt 1) else vsub (getVar E c s) (VInt 1)) = Ret w ->
  exists c', run E (Node (KUnary o) [Node (KVar s i) []]) c w c' /\ getVar E c' s = w /\ forall t, t <> s -> getVar E c' t = getVar E c t.
Proof.
  intros E c s i o w O H. exists (setVar c s w). splits.
  - eapply run_node; [|reflexivity]. intros r0. exists w.
    assert (V : run E (Node (KVar s i) []) c (getVar E c s) c).
    { eapply run_node; [|reflexivity]. intros r1. eexists. cbn [evalNode map]. eapply gives_bind; [apply gives_get|apply gives_ret]. }
    destruct O as [-> | ->]; cbn [evalNode map kindOf];
      (eapply gives_bind; [apply (gives_child E [Node (KVar s i) []]) with (e := Node (KVar s i) []); [reflexivity|exact V]|];
       eapply gives_bind; [apply gives_lift, H|]; eapply gives_bind; [apply gives_set|apply gives_ret]).
  - unfold getVar, setVar. cbn [lookup]. rewrite (proj2 (strEqb_eq s s) eq_refl). reflexivity.
  - intros t N. unfold getVar, setVar. cbn [lookup]. destruct (strEqb t s) eqn:Q; [apply strEqb_eq in Q; contradiction|reflexivity].
Qed.
(** On an integer variable ++ adds one and -- subtracts one, and they undo each other, except at the ends of the range. *)
Theorem C144_integer : forall E c s z, getVar E c s = VInt z -> int64_min < z < int64_max ->
  (exists c', run E (incr s) c (VInt (z + 1)) c' /\ getVar E c' s = VInt (z + 1) /\ exists c2, run E (decr s) c' (VInt z) c2 /\ forall t, getVar E c2 t = getVar E c t) /\
  (exists c', run E (decr s) c (VInt (z - 1)) c' /\ getVar E c' s = VInt (z - 1) /\ exists c2, run E (incr s) c' (VInt z) c2 /\ forall t, getVar E c2 t = getVar E c t).
Proof.
  intros E c s z H R.
  assert (A : forall a, int64_min <= a < int64_max -> vadd (eX E) (VInt a) (VInt 1) = Ret (VInt (a + 1))).
  { intros a Ha. change (Ret (intRes (a + 1)) = Ret (VInt (a + 1))). unfold intRes. replace (in_int64 (a + 1)) with true; [reflexivity|]. unfold in_int64, int64_min, int64_max in *. lia. }
  assert (S : forall a, int64_min < a <= int64_max -> vsub (VInt a) (VInt 1) = Ret (VInt (a - 1))).
  { intros a Ha. change (Ret (intRes (a - 1)) = Ret (VInt (a - 1))). unfold intRes. replace (in_int64 (a - 1)) with true; [reflexivity|]. unfold in_int64, int64_min, int64_max in *. lia. }
  split.
  - destruct (C144_step E c s true OIncr (VInt (z + 1))) as (c' & R1 & G1 & F1); [left; reflexivity|rewrite H; apply A; lia|]. exists c'. splits; [exact R1|exact G1|].
    destruct (C144_step E c' s true ODecr (VInt z)) as (c2 & R2 & G2 & F2); [right; reflexivity|rewrite G1, S by lia; f_equal; f_equal; lia|]. exists c2. split; [exact R2|].
    intros t. destruct (strEqb t s) eqn:Q; [apply strEqb_eq in Q; subst t; congruence|]. assert (N : t <> s) by (intros ->; rewrite (proj2 (strEqb_eq s s) eq_refl) in Q; discriminate).
    rewrite (F2 t N). apply F1, N.
  - destruct (C144_step E c s true ODecr (VInt (z - 1))) as (c' & R1 & G1 & F1); [right; reflexivity|rewrite H; apply S; lia|]. exists c'. splits; [exact R1|exact G1|].
    destruct (C144_step E c' s true OIncr (VInt z)) as (c2 & R2 & G2 & F2); [left; reflexivity|rewrite G1, A by lia; f_equal; f_equal; lia|]. exists c2. split; [exact R2|].
    intros t. destruct (strEqb t s) eqn:Q; [apply strEqb_eq in Q; subst t; congruence|]. assert (N : t <> s) by (intros ->; rewrite (proj2 (strEqb_eq s s) eq_refl) in Q; discriminate).
    rewrite (F2 t N). apply F1, N.
Qed.
Example C144_integer_ex : forall E, getVar E [(B "x", VInt 41)] (B "x") = VInt 41 /\ exists c', run E (incr (B "x")) [(B "x", VInt 41)] (VInt 42) c'.
Proof. intros E. split; [reflexivity|]. destruct (C144_step E [(B "x", VInt 41)] (B "x") true OIncr (VInt 42)) as (c' & R & _); [left; reflexivity|reflexivity|exists c'; exact R]. Qed.
Example C143_ex : forall E, let x := B "x" in let c := [(x, VInt 1)] in
  (exists c', run E (Node KList [incr x; incr x; konst (VInt 7)]) c (VList [VInt 2; VInt 3; VInt 7]) c' /\ getVar E c' x = VInt 3) /\
  (run E (Node KSet (map konst [VInt 2; VStr x; VInt 2])) c (VSet [VInt 2; VStr x]) c) /\
  (run E (Node (KMap [x; B "y"; x]) (map konst [VInt 1; VInt 2; VInt 3])) c (VMap [(x, VInt 1); (B "y", VInt 2)]) c).
Proof.
  intros E x c. splits.
  - destruct (C144_step E c x true OIncr (VInt 2)) as (c1 & R1 & G1 & _); [left; reflexivity|reflexivity|].
    destruct (C144_step E c1 x true OIncr (VInt 3)) as (c2 & R2 & G2 & _); [left; reflexivity|rewrite G1; reflexivity|].
    exists c2. split; [|exact G2]. apply C143_list. econstructor; [exact R1|]. econstructor; [exact R2|]. econstructor; [apply konst_yields|constructor].
  - eapply run_node; [|reflexivity]. intros r0. eexists. cbn [evalNode]. eapply gives_bind; [apply gives_children, runAll_konsts|]. eapply gives_bind; [apply gives_lift; vm_compute; reflexivity|apply gives_ret].
  - eapply run_node; [|reflexivity]. intros r0. eexists. cbn [evalNode]. eapply gives_bind; [apply gives_children, runAll_konsts|]. apply gives_ret.
Qed.
(** At the end of the range the variable is lost: ++ makes it null, and -- does not bring it back. *)
Theorem C144_overflow_refuted : forall E s c, getVar E c s = VInt int64_max -> exists c1 c2,
  run E (incr s) c (VNull NOverflow) c1 /\ getVar E c1 s = VNull NOverflow /\ run E (decr s) c1 (VNull NOverflow) c2 /\ getVar E c2 s = VNull NOverflow.
Proof.
  intros E s c H. destruct (C144_step E c s true OIncr (VNull NOverflow)) as (c1 & R1 & G1 & _); [left; reflexivity|rewrite H; reflexivity|].
  destruct (C144_step E c1 s true ODecr (VNull NOverflow)) as (c2 & R2 & G2 & _); [right; reflexivity|rewrite G1; reflexivity|]. exists c1, c2. splits; assumption.
Qed.
Example C144_overflow_ex : forall E, getVar E [(B "x", VInt int64_max)] (B "x") = VInt int64_max.
Proof. reflexivity. Qed.
(** On anything that is no variable: bad type, nothing is evaluated or changed, even when the operand would abort. *)
Theorem C144_other : forall E c o k cs, o = OIncr \/ o = ODecr -> (forall s i, k <> KVar s i) -> (forall s h, k <> KVersioned s h) ->
  yields E c (Node (KUnary o) [Node k cs]) (VNull NBadType).
Proof.
  intros E c o k cs O N1 N2. eapply run_node; [|reflexivity]. intros r0. eexists.
  destruct O as [-> | ->]; cbn [evalNode map kindOf]; (destruct k; try apply gives_ret; [destruct (N1 name inner); reflexivity|destruct (N2 name hasVersion); reflexivity]).
Qed.
Example C144_other_ex : forall E c, yields E c (Node (KUnary OIncr) [crash]) (VNull NBadType).
Proof. intros E c. apply C144_other; [left; reflexivity|discriminate..]. Qed.
(** A versioned variable passes the check but is treated as an object of another class: undefined behaviour. *)
Theorem C144_versioned_refuted : forall E c o s k, o = OIncr \/ o = ODecr -> eval E (Node (KUnary o) [Node (KVersioned s false) []]) k c = UB.
Proof.
  intros E c o s [r0 ks] O. rewrite eval_eq. destruct O as [-> | ->]; cbn [evalNode map kindOf]; unfold mbind, child; cbn [nth_error fst snd];
    destruct (nth 0 ks noCache) as [r1 k1]; reflexivity.
Qed.
Print Assumptions C144_step.
Print Assumptions C144_integer.
Print Assumptions C144_overflow_refuted.
Print Assumptions C144_other.
Print Assumptions C144_versioned_refuted.
