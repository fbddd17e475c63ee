(** C44-C47, C62: edges, paths and data sets. *)
From Verif Require Import ValueBase DateModel TimeModel HashModel ValueModel FloatProofs ValueProofs ValueEqProofs ValueLtProofs GraphModel.
From Coq Require Import Permutation.
Local Open Scope list_scope.
Local Open Scope Z_scope.

Definition X1 : externals := mkExt (fun _ => [63]) (fun _ => (S754_zero false, 0%nat)) (fun a _ => a).

(** * C44 *)
Definition typeIn32 (t : Z) : Prop := - 2 ^ 31 < t < 2 ^ 31.
Lemma negType_ok : forall t, typeIn32 t -> negType t = Ret (- t).
Proof. intros t [H1 H2]. unfold negType, int32_min. destruct (Z.eqb_spec t (-2147483648)); auto. lia. Qed.

Theorem C44_reverse_twice : forall e, typeIn32 (etype e) ->
  exists e', edgeReverse e = Ret e' /\ esrc e' = edst e /\ edst e' = esrc e /\ etype e' = - etype e /\ edgeReverse e' = Ret e.
Proof.
  intros e H. unfold edgeReverse. rewrite negType_ok by auto. cbn [obind]. eexists. splits; [reflexivity|reflexivity|reflexivity|reflexivity|].
  cbn [etype edst esrc ename erank eprops]. rewrite negType_ok by (unfold typeIn32 in *; lia). cbn [obind]. rewrite Z.opp_involutive.
  now destruct e.
Qed.
Theorem C44_equals_its_reversal : forall X e e', wf X (VEdge e) = true -> floatFree (VEdge e) = true -> etype e <> 0 ->
  edgeReverse e = Ret e' -> edgeEq (veq X) e e' = true.
Proof.
  intros X e e' W F N R. unfold edgeReverse, negType in R. destruct (etype e =? int32_min); [discriminate|]. cbn [obind] in R.
  apply Ret_inj in R. subst e'. unfold edgeEq. cbn [etype edst esrc erank eprops].
  rewrite Z.opp_involutive, Z.eqb_refl. rewrite (proj2 (Z.eqb_neq (etype e) (- etype e))) by lia. cbn [negb andb].
  rewrite Z.eqb_refl.
  rewrite !veq_refl; try (eapply vall_sub; [eassumption|cbn; auto]). cbn.
  apply mapEq_refl.
  - apply vall_here in W. cbn [wfHere] in W. rewrite !andb_true_iff in W. apply keysOk_NoDup. tauto.
  - intros a Ha. apply veq_refl; eapply vall_sub; try eassumption; cbn; auto.
Qed.
(** An edge of type 0 has no direction to swap: it need not equal its reversal. *)
Theorem C44_type_zero_refuted : exists e e', forall X, edgeReverse e = Ret e' /\ wf X (VEdge e) = true /\ edgeEq (veq X) e e' = false.
Proof. exists (mkEdge (VInt 1) (VInt 2) 0 [] 0 []). eexists. intros. split; [reflexivity|]. split; reflexivity. Qed.

(** The key that identifies an edge independent of direction. *)
Definition normKey (e : edge) : value * value * Z * Z :=
  if 0 <? etype e then (esrc e, edst e, etype e, erank e) else (edst e, esrc e, - etype e, erank e).
Definition keyEq (X : externals) (a b : value * value * Z * Z) : Prop :=
  let '(s1, d1, t1, r1) := a in let '(s2, d2, t2, r2) := b in
  veq X s1 s2 = true /\ veq X d1 d2 = true /\ t1 = t2 /\ r1 = r2.
Theorem C44_equal_same_key : forall X e f, edgeEq (veq X) e f = true ->
  keyEq X (normKey e) (normKey f) /\ mapEq (veq X) (eprops e) (eprops f) = true.
Proof.
  intros X e f E. unfold edgeEq in E. unfold keyEq, normKey.
  destruct (Z.eqb_spec (etype e) (etype f)) as [A|A]; cbn [negb andb] in E.
  - rewrite !andb_true_iff, Z.eqb_eq in E. rewrite A. destruct (0 <? etype f); tauto.
  - destruct (Z.eqb_spec (etype e) (- etype f)) as [D|D]; cbn [negb] in E; [|discriminate].
    rewrite !andb_true_iff, Z.eqb_eq in E.
    destruct (Z.ltb_spec 0 (etype e)); destruct (Z.ltb_spec 0 (etype f)); try lia; splits; try tauto; lia.
Qed.
(** Conversely the key and the properties decide equality. *)
Theorem C44_same_key_equal : forall X e f, keyEq X (normKey e) (normKey f) -> mapEq (veq X) (eprops e) (eprops f) = true ->
  edgeEq (veq X) e f = true.
Proof.
  intros X e f K M. unfold keyEq, normKey in K. unfold edgeEq.
  destruct (Z.ltb_spec 0 (etype e)); destruct (Z.ltb_spec 0 (etype f)); destruct K as [K1 [K2 [K3 K4]]].
  - rewrite K3, Z.eqb_refl. cbn [negb andb]. now rewrite K1, K2, K4, Z.eqb_refl, M.
  - destruct (Z.eqb_spec (etype e) (etype f)); [lia|]. rewrite K3, Z.eqb_refl. cbn [negb andb].
    now rewrite K1, K2, K4, Z.eqb_refl, M.
  - destruct (Z.eqb_spec (etype e) (etype f)); [lia|].
    replace (etype e =? - etype f) with true by (symmetry; apply Z.eqb_eq; lia). cbn [negb andb].
    now rewrite K1, K2, K4, Z.eqb_refl, M.
  - replace (etype e) with (etype f) by lia. rewrite Z.eqb_refl. cbn [negb andb]. now rewrite K1, K2, K4, Z.eqb_refl, M.
Qed.
Theorem C44_equal_same_hash : forall X e f, plainId (esrc e) = true -> plainId (edst e) = true -> plainId (esrc f) = true -> plainId (edst f) = true ->
  edgeEq (veq X) e f = true -> vhash X (VEdge e) = vhash X (VEdge f).
Proof. intros. cbn [vhash]. f_equal. now apply hashEdge_eq. Qed.
Theorem C44_format_positive : forall e, typeIn32 (etype e) ->
  exists e', edgeFormat e = Ret e' /\ 0 <= etype e' /\ etype e' = Z.abs (etype e) /\ normKey e' = normKey e /\ eprops e' = eprops e.
Proof.
  intros e H. unfold edgeFormat. destruct (Z.ltb_spec (etype e) 0).
  - unfold edgeReverse. rewrite negType_ok by auto. cbn [obind]. eexists. splits; [reflexivity| | | |reflexivity]; cbn [etype]; try lia.
    unfold normKey. cbn [etype esrc edst erank]. destruct (Z.ltb_spec 0 (- etype e)), (Z.ltb_spec 0 (etype e)); auto; lia.
  - exists e. splits; auto; lia.
Qed.
(** The smallest type cannot be negated. *)
Theorem C44_smallest_type_refuted : exists e, etype e = - 2 ^ 31 /\ edgeReverse e = UB.
Proof. exists (mkEdge (VInt 1) (VInt 2) (- 2 ^ 31) [] 0 []). split; reflexivity. Qed.

Definition edge12 (t : Z) : edge := mkEdge (VInt 1) (VInt 2) t [101] 0 [([120], VInt 5)].
Example C44_ex : edgeReverse (edge12 4) = Ret (mkEdge (VInt 2) (VInt 1) (-4) [101] 0 [([120], VInt 5)]) /\
  wf X1 (VEdge (edge12 4)) = true /\ floatFree (VEdge (edge12 4)) = true /\
  edgeEq (veq X1) (edge12 4) (mkEdge (VInt 2) (VInt 1) (-4) [] 0 [([120], VInt 5)]) = true /\
  edgeEq (veq X1) (edge12 4) (edge12 5) = false /\
  edgeFormat (mkEdge (VInt 2) (VInt 1) (-4) [101] 0 [([120], VInt 5)]) = Ret (edge12 4).
Proof. vm_compute. auto 10. Qed.

(** * C45 *)
(** An edge and its reversal are equal, and yet ordered. *)
Theorem C45_equal_not_ordered_refuted : exists e f, forall X, wf X (VEdge e) = true /\ wf X (VEdge f) = true /\
  edgeEq (veq X) e f = true /\ vlt X (VEdge e) (VEdge f) = true.
Proof. exists (edge12 4), (mkEdge (VInt 2) (VInt 1) (-4) [101] 0 [([120], VInt 5)]). intros. vm_compute. auto. Qed.
(** Equal edges of the same type are not ordered. *)
Theorem C45_same_type_not_ordered : forall X fl e f, orderable fl (VEdge e) = true -> orderable fl (VEdge f) = true ->
  etype e = etype f -> edgeEq (veq X) e f = true -> vlt X (VEdge e) (VEdge f) = false /\ vlt X (VEdge f) (VEdge e) = false.
Proof.
  intros X fl e f Oe Of T E.
  assert (vlt2 X (VEdge e) (VEdge f) = (false, false)) as K.
  { pose proof (edge_id fl e Oe) as [[P1 N1] [P2 N2]]. pose proof (edge_id fl f Of) as [[P3 N3] [P4 N4]].
    change (vlt2 X (VEdge e) (VEdge f)) with (edgeLt2 (vlt2 X) (veq X) e f). unfold edgeLt2.
    unfold edgeEq in E. rewrite T, Z.eqb_refl in E. cbn [negb andb] in E.
    rewrite !andb_true_iff, Z.eqb_eq in E. destruct E as [[[E1 E2] E3] E4].
    rewrite E1, E2, T, E3, !Z.eqb_refl. cbn [negb]. apply mapEq_length in E4. now rewrite E4, Nat.eqb_refl. }
  unfold vlt. rewrite (vlt2_swap X fl (VEdge e) (VEdge f)) by auto. rewrite K. auto.
Qed.
Example C45_ex : orderable false (VEdge (edge12 4)) = true /\
  edgeEq (veq X1) (edge12 4) (mkEdge (VInt 1) (VInt 2) 4 [] 0 [([120], VInt 5)]) = true.
Proof. vm_compute. auto. Qed.

(** * C46 *)
(** A path as its vertex sequence and its edges. *)
Definition pathVerts (p : path) : list vertex := psrc p :: map sdst (psteps p).
Record hop := mkHop { hfrom : vertex; hto : vertex; htype : Z; hname : str; hrank : Z; hprops : list (str * value) }.
Fixpoint hops (u : vertex) (l : list step) : list hop :=
  match l with [] => [] | s :: l' => mkHop u (sdst s) (stype s) (sname s) (srank s) (sprops s) :: hops (sdst s) l' end.
Definition pathHops (p : path) : list hop := hops (psrc p) (psteps p).
Definition flip (h : hop) : hop := mkHop (hto h) (hfrom h) (- htype h) (hname h) (hrank h) (hprops h).
Definition stepTypesOk (p : path) : Prop := forall s, In s (psteps p) -> typeIn32 (stype s).

Fixpoint endOf (u : vertex) (l : list step) : vertex := match l with [] => u | s :: l' => endOf (sdst s) l' end.
Lemma endOf_app : forall l u s, endOf u (l ++ [s]) = sdst s.
Proof. induction l as [|a l IH]; intros u s; cbn; auto. Qed.
Lemma hops_app : forall l u s, hops u (l ++ [s]) = hops u l ++ [mkHop (endOf u l) (sdst s) (stype s) (sname s) (srank s) (sprops s)].
Proof. induction l as [|a l IH]; intros u s; cbn; auto. now rewrite IH. Qed.

Lemma reverseLoop_spec : forall l u, (forall s, In s l -> typeIn32 (stype s)) ->
  exists r, reverseLoop u (rev l) = Ret r /\ map sdst r = tl (rev (u :: map sdst l)) /\ hops (endOf u l) r = rev (map flip (hops u l))
    /\ (forall s, In s r -> typeIn32 (stype s)).
Proof.
  induction l as [|s l IH] using rev_ind; intros u T.
  - exists []. splits; auto.
  - destruct (IH u) as [r [R1 [R2 [R3 R4]]]]; [intros; apply T; apply in_or_app; auto|].
    assert (Ts : typeIn32 (stype s)) by (apply T; apply in_or_app; cbn; auto).
    rewrite rev_app_distr. cbn [rev app]. rewrite endOf_app, hops_app, map_app, rev_app_distr.
    set (s' := setType (setDst s (endOf u l)) (- stype s)).
    exists (s' :: r). splits.
    + destruct l as [|a l _] using rev_ind.
      * cbn [rev app reverseLoop]. rewrite negType_ok by auto. cbn [obind]. cbn in R1. apply Ret_inj in R1. subst r. reflexivity.
      * rewrite rev_app_distr in *. cbn [rev app] in *. cbn [reverseLoop]. rewrite negType_ok by auto. cbn [obind].
        change (match rev l with
                | [] => obind (negType (stype a)) (fun t => Ret [setType (setDst a u) t])
                | s2 :: _ => obind (negType (stype a)) (fun t => obind (reverseLoop u (rev l)) (fun rest' => Ret (setType (setDst a (sdst s2)) t :: rest')))
                end) with (reverseLoop u (a :: rev l)). rewrite R1. cbn [obind]. unfold s'. now rewrite endOf_app.
    + cbn [map rev]. rewrite R2, ?map_app, ?rev_app_distr. cbn [map rev app tl].
      destruct l as [|a l _] using rev_ind; [reflexivity|].
      unfold s'. rewrite !map_app, !rev_app_distr, endOf_app. reflexivity.
    + cbn [map rev app hops]. unfold s' at 1. cbn [sdst setType setDst]. change (sdst s') with (endOf u l). rewrite R3, map_app, rev_app_distr. reflexivity.
    + intros x [<-|Hx]; auto. unfold s'. cbn. unfold typeIn32 in *. lia.
Qed.

Theorem C46_reverse : forall p, stepTypesOk p ->
  exists p', pathReverse p = Ret p' /\ pathVerts p' = rev (pathVerts p) /\ pathHops p' = rev (map flip (pathHops p)) /\ stepTypesOk p'.
Proof.
  intros p T. destruct (reverseLoop_spec (psteps p) (psrc p) T) as [r [R1 [R2 [R3 R4]]]].
  unfold pathReverse. destruct (rev (psteps p)) as [|s l] eqn:E.
  - assert (psteps p = []) as N by (rewrite <- (rev_involutive (psteps p)), E; reflexivity).
    exists p. splits; auto; unfold pathVerts, pathHops; now rewrite N.
  - rewrite R1. cbn [obind].
    assert (N : psteps p = rev l ++ [s]) by (rewrite <- (rev_involutive (psteps p)), E; reflexivity).
    exists (mkPath (sdst s) r). splits; auto.
    + unfold pathVerts. cbn [psrc psteps]. rewrite R2, N. cbn [rev]. rewrite map_app. cbn [map]. rewrite rev_app_distr. reflexivity.
    + unfold pathHops. cbn [psrc psteps]. rewrite <- R3, N, endOf_app. reflexivity.
Qed.
Lemma hops_inj : forall l1 l2 u, hops u l1 = hops u l2 -> l1 = l2.
Proof.
  induction l1 as [|[d t n r ps] l1 IH]; intros [|[d2 t2 n2 r2 ps2] l2] u H; try discriminate; auto.
  cbn in H. injection H as -> -> -> -> -> H. f_equal. eauto.
Qed.
Theorem C46_reverse_twice : forall p, stepTypesOk p ->
  exists p', pathReverse p = Ret p' /\ pathReverse p' = Ret p.
Proof.
  intros p T. destruct (C46_reverse p T) as [p' [R [V [H T']]]]. exists p'. split; auto.
  destruct (C46_reverse p' T') as [p2 [R2 [V2 [H2 _]]]]. rewrite R2. f_equal.
  rewrite V, rev_involutive in V2. rewrite H, map_rev, rev_involutive, map_map in H2.
  rewrite (map_ext _ (fun h => h)) in H2 by (intros [f t ty n r ps]; unfold flip; cbn; now rewrite Z.opp_involutive).
  rewrite map_id in H2. destruct p2 as [s2 l2], p as [s l]. unfold pathVerts, pathHops in *. cbn [psrc psteps] in *.
  injection V2 as -> _. f_equal. eapply hops_inj. eauto.
Qed.
(** Concatenation when the second path starts where the first ends. *)
Theorem C46_append_continues : forall X p q s l, rev (psteps p) = s :: l -> vertexEq (veq X) (sdst s) (psrc q) = true ->
  exists r, pathAppend X p q = Ret (true, r) /\ pathVerts r = pathVerts p ++ tl (pathVerts q) /\ psteps r = psteps p ++ psteps q.
Proof.
  intros X p q s l E V. unfold pathAppend. rewrite E, V.
  exists (mkPath (psrc p) (psteps p ++ psteps q)). splits.
  - destruct (vertexEq (veq X) (psrc p) (psrc q)); reflexivity.
  - unfold pathVerts. cbn [psrc psteps]. now rewrite map_app.
  - reflexivity.
Qed.
(** A path that starts at neither end is refused, and the path is unchanged. *)
Theorem C46_append_refused : forall X p q s l, rev (psteps p) = s :: l ->
  vertexEq (veq X) (sdst s) (psrc q) = false -> vertexEq (veq X) (psrc p) (psrc q) = false -> pathAppend X p q = Ret (false, p).
Proof. intros X p q s l E V W. unfold pathAppend. now rewrite W, E, V. Qed.
(** But a path starting at the same source is accepted although it does not continue the first one, ... *)
Definition vtx (n : Z) : vertex := mkVertex (VInt n) [].
Definition stp (n t : Z) : step := mkStep (vtx n) t [101] 0 [].
Theorem C46_append_discontinuous_refuted : exists p q, forall X, exists r,
  pathAppend X p q = Ret (true, r) /\ vertexEq (veq X) (endOf (psrc p) (psteps p)) (psrc q) = false.
Proof. exists (mkPath (vtx 1) [stp 2 1]), (mkPath (vtx 1) [stp 3 1]). intros X. eexists. split; reflexivity. Qed.
(** ... and appending a path with another source to a path without steps reads the last of no steps. *)
Theorem C46_append_empty_refuted : exists p q, forall X, pathAppend X p q = UB.
Proof. exists (mkPath (vtx 1) []), (mkPath (vtx 2) [stp 3 1]). reflexivity. Qed.
Example C46_ex :
  pathReverse (mkPath (vtx 1) [stp 2 5; stp 3 (-6); stp 4 7]) = Ret (mkPath (vtx 4) [stp 3 (-7); stp 2 6; stp 1 (-5)]) /\
  pathAppend X1 (mkPath (vtx 1) [stp 2 5]) (mkPath (vtx 2) [stp 3 6]) = Ret (true, mkPath (vtx 1) [stp 2 5; stp 3 6]) /\
  pathAppend X1 (mkPath (vtx 1) [stp 2 5]) (mkPath (vtx 3) [stp 3 6]) = Ret (false, mkPath (vtx 1) [stp 2 5]).
Proof. vm_compute. auto. Qed.

(** * C47 *)
Definition rect (d : dataset) : Prop := forall r, In r (drows d) -> length r = length (dcols d).
(** A header is present, or there are no rows yet. *)
Definition headed (d : dataset) : Prop := dcols d <> [] \/ drows d = [].

Theorem C47_emplace : forall d row,
  (length row = length (dcols d) -> dsEmplace d row = (true, mkDataSet (dcols d) (drows d ++ [row]))) /\
  (length row <> length (dcols d) -> dsEmplace d row = (false, d)) /\
  (rect d -> rect (snd (dsEmplace d row))).
Proof.
  intros d row. unfold dsEmplace. destruct (Nat.eqb_spec (length row) (length (dcols d))) as [E|E]; splits; intros; auto; try contradiction.
  intros r Hr. cbn in *. apply in_app_or in Hr. destruct Hr as [Hr|[<-|[]]]; auto.
Qed.
Lemma listEq_str : forall a b, listEq strEqb a b = true <-> a = b.
Proof.
  induction a as [|x a IH]; intros [|y b]; cbn; split; intros H; try easy.
  - apply andb_true_iff in H. destruct H as [H1 H2]. apply strEqb_eq in H1. apply IH in H2. congruence.
  - injection H as -> ->. rewrite strEqb_refl. now apply IH.
Qed.
Theorem C47_append : forall d o, rect d -> rect o -> headed d ->
  let '(ok, r) := dsAppend d o in
  rect r /\ (ok = true <-> (dcols d = [] \/ dcols d = dcols o)) /\
  (ok = true -> drows r = drows d ++ drows o /\ dcols r = dcols o) /\ (ok = false -> r = d).
Proof.
  intros d o Rd Ro H. unfold dsAppend. destruct (dcols d) as [|c cs] eqn:E.
  - splits; [|split; auto|auto|easy].
    intros r Hr. cbn in *. destruct H as [H|H]; [congruence|]. rewrite H in Hr. cbn in Hr. auto.
  - destruct (listEq strEqb (c :: cs) (dcols o)) eqn:L.
    + apply listEq_str in L. splits; auto; try easy.
      2: split; auto.
      intros r Hr. cbn in *. apply in_app_or in Hr. destruct Hr as [Hr|Hr].
      * rewrite (Rd r Hr), E. reflexivity.
      * rewrite (Ro r Hr), <- L. reflexivity.
    + splits; auto; try easy. split; [easy|]. intros [K|K]; [discriminate|]. apply listEq_str in K. congruence.
Qed.
(** Without a header, rows of width 0 may already be there: the result is not rectangular. *)
Theorem C47_append_headless_refuted : exists d o, rect d /\ rect o /\ fst (dsAppend d o) = true /\ ~ rect (snd (dsAppend d o)).
Proof.
  exists (mkDataSet [] [[]]), (mkDataSet [[97]] [[VInt 1]]). splits; try reflexivity.
  - intros r [<-|[]]. reflexivity.
  - intros r [<-|[]]. reflexivity.
  - intros R. specialize (R [] (or_introl eq_refl)). discriminate R.
Qed.
Lemma mergeRows_length : forall a b, length a = length b -> length (mergeRows a b) = length a.
Proof. induction a as [|x a IH]; intros [|y b] L; try discriminate L; auto. cbn. f_equal. apply IH. now injection L. Qed.
Lemma mergeRows_nth : forall a b i ra rb, nth_error a i = Some ra -> nth_error b i = Some rb -> nth_error (mergeRows a b) i = Some (rb ++ ra).
Proof.
  induction a as [|x a IH]; intros b i ra rb Ha Hb; [destruct i; discriminate|].
  destruct b as [|y b]; [destruct i; discriminate|]. destruct i as [|i]; cbn in *; [congruence|]. eauto.
Qed.
Lemma mergeRows_in : forall a b r, In r (mergeRows a b) -> exists x y, In x a /\ In y b /\ r = y ++ x.
Proof.
  induction a as [|x a IH]; intros [|y b] r H; try destruct H.
  - exists x, y. cbn. auto.
  - destruct (IH b r H) as [x' [y' [A [B C]]]]. exists x', y'. cbn. auto.
Qed.
Theorem C47_merge : forall d o, rect d -> rect o ->
  let '(ok, r) := dsMerge d o in
  rect r /\ (ok = true <-> length (drows d) = length (drows o)) /\ (ok = false -> r = d) /\
  (ok = true -> length (drows r) = length (drows d) /\ length (dcols r) = (length (dcols d) + length (dcols o))%nat /\
     forall i a b, nth_error (drows d) i = Some a -> nth_error (drows o) i = Some b -> nth_error (drows r) i = Some (b ++ a)).
Proof.
  intros d o Rd Ro. unfold dsMerge. destruct (Nat.eqb_spec (length (drows d)) (length (drows o))) as [E|E]; cbn [negb].
  - splits; auto; try easy.
    + intros r Hr. cbn in *. destruct (mergeRows_in _ _ _ Hr) as [x [y [A [B ->]]]]. rewrite !app_length, (Rd x A), (Ro y B). lia.
    + intros _. cbn [drows dcols]. rewrite mergeRows_length, app_length by auto. splits; auto. intros. now apply mergeRows_nth.
  - splits; auto; easy.
Qed.
(** The names are appended at the end but the values inserted at the beginning: after a merge the value
    under a column name is another one. *)
Theorem C47_merge_names_refuted : exists d o c v, rect d /\ rect o /\ fst (dsMerge d o) = true /\
  dsColValues d c = Ret [v] /\ dsColValues (snd (dsMerge d o)) c <> Ret [v].
Proof.
  exists (mkDataSet [[97]] [[VInt 1]]), (mkDataSet [[98]] [[VInt 2]]), [97], (VInt 1). splits; try reflexivity.
  - intros r [<-|[]]. reflexivity.
  - intros r [<-|[]]. reflexivity.
  - vm_compute. discriminate.
Qed.
(** Reading a column of a rectangular data set never goes out of bounds; appending concatenates columns. *)
Lemma indexOf_lt : forall l c i, indexOf c l = Some i -> (i < length l)%nat.
Proof.
  induction l as [|x l IH]; intros c i H; cbn in H; [discriminate|]. destruct (strEqb x c).
  - injection H as <-. cbn. lia.
  - destruct (indexOf c l) as [j|] eqn:E; [|discriminate]. cbn in H. injection H as <-. apply IH in E. cbn. lia.
Qed.
Lemma colOf_total : forall rows i n, (i < n)%nat -> (forall r, In r rows -> length r = n) -> exists l, colOf i rows = Ret l /\ length l = length rows.
Proof.
  induction rows as [|r rows IH]; intros i n Hi H; [exists []; auto|].
  cbn [colOf]. destruct (nth_error r i) as [v|] eqn:E.
  - destruct (IH i n Hi) as [l [Hl L]]; [intros; apply H; cbn; auto|]. rewrite Hl. cbn [obind]. exists (v :: l). cbn. auto.
  - exfalso. apply nth_error_None in E. rewrite (H r) in E by (cbn; auto). lia.
Qed.
Lemma colOf_app : forall a b i, colOf i (a ++ b) = obind (colOf i a) (fun x => obind (colOf i b) (fun y => Ret (x ++ y))).
Proof.
  induction a as [|r a IH]; intros b i; cbn [app colOf obind].
  - destruct (colOf i b); reflexivity.
  - destruct (nth_error r i); auto. rewrite IH. destruct (colOf i a); auto. cbn [obind]. destruct (colOf i b); auto.
Qed.
(** the first column of that name *)
Definition firstColumn (l : list str) (c : str) (i : nat) : Prop :=
  nth_error l i = Some c /\ forall j, (j < i)%nat -> nth_error l j <> Some c.
Lemma indexOf_first : forall l c, match indexOf c l with Some i => firstColumn l c i | None => ~ In c l end.
Proof.
  induction l as [|x l IH]; intros c; cbn [indexOf]; [intros []|]. destruct (strEqb x c) eqn:E.
  - apply strEqb_eq in E. subst. split; [reflexivity|]. intros j Hj. lia.
  - assert (x <> c) by (intros ->; rewrite strEqb_refl in E; discriminate).
    specialize (IH c). destruct (indexOf c l) as [i|]; cbn [option_map].
    + destruct IH as [A B]. split; [exact A|]. intros [|j] Hj; cbn; [congruence|]. apply B. lia.
    + intros [H1|H1]; [congruence|contradiction].
Qed.
Lemma firstColumn_unique : forall l c i j, firstColumn l c i -> firstColumn l c j -> i = j.
Proof.
  intros l c i j [A B] [C D]. destruct (Nat.lt_trichotomy i j) as [H|[H|H]]; auto; exfalso; [exact (D _ H A)|exact (B _ H C)].
Qed.
Lemma colOf_cells : forall rows i x, colOf i rows = Ret x -> Forall2 (fun r v => nth_error r i = Some v) rows x.
Proof.
  induction rows as [|r rows IH]; intros i x H; cbn in H; [injection H as <-; constructor|].
  destruct (nth_error r i) as [v|] eqn:E; [|discriminate]. destruct (colOf i rows) as [l| | |] eqn:C; try discriminate. injection H as <-.
  constructor; auto.
Qed.
(** The values are the cells of the first column of that name, row by row; an unknown name gives none. *)
Theorem C47_columns : forall d o c, rect d -> rect o -> dcols d = dcols o -> dcols d <> [] ->
  exists x y, dsColValues d c = Ret x /\ dsColValues o c = Ret y /\ dsColValues (snd (dsAppend d o)) c = Ret (x ++ y) /\
    (~ In c (dcols d) -> x = []) /\
    (forall i, firstColumn (dcols d) c i -> Forall2 (fun r v => nth_error r i = Some v) (drows d) x).
Proof.
  intros d o c Rd Ro E N. unfold dsAppend. destruct (dcols d) as [|h t] eqn:C; [contradiction|].
  rewrite (proj2 (listEq_str (h :: t) (dcols o))) by auto. unfold dsColValues. cbn [snd dcols drows]. rewrite C, <- E.
  pose proof (indexOf_first (h :: t) c) as F.
  destruct (indexOf c (h :: t)) as [i|] eqn:I.
  - apply indexOf_lt in I.
    destruct (colOf_total (drows d) i (length (h :: t)) I) as [x [X _]]; [intros r Hr; rewrite <- C; auto|].
    destruct (colOf_total (drows o) i (length (h :: t)) I) as [y [Y _]]; [intros r Hr; rewrite E; auto|].
    exists x, y. splits; auto.
    + now rewrite colOf_app, X, Y.
    + intros H. destruct H. destruct F as [F _]. apply nth_error_In in F. exact F.
    + intros j Hj. rewrite (firstColumn_unique _ _ _ _ Hj F). apply colOf_cells. exact X.
  - exists [], []. splits; auto. intros j [Hj _]. destruct F. apply nth_error_In in Hj. exact Hj.
Qed.
Example C47_ex : let d := mkDataSet [[97]; [98]] [[VInt 1; VInt 2]] in
  rect d /\ dsEmplace d [VInt 3] = (false, d) /\ fst (dsAppend d d) = true /\ dsColValues (snd (dsAppend d d)) [98] = Ret [VInt 2; VInt 2] /\
  drows (snd (dsMerge d (mkDataSet [[99]] [[VInt 9]]))) = [[VInt 9; VInt 1; VInt 2]].
Proof. cbv zeta. splits; try reflexivity. intros r [<-|[]]. reflexivity. Qed.

(** * C62 *)
(** Ids as the services use them: integers and strings. *)
Definition svcId (v : value) : Prop := match v with VInt _ | VStr _ => True | _ => False end.
Lemma svcId_plain : forall v, svcId v -> plainId v = true.
Proof. intros v. destruct v; cbn; easy. Qed.
Lemma svcId_hash : forall X v, svcId v -> exists h, vhash X v = Ret h.
Proof. intros X v. destruct v; cbn; try easy; eauto. Qed.
Lemma svc_found : forall X v w, svcId v -> svcId w -> sameHash X v w && veq X v w = true <-> v = w.
Proof.
  intros X v w Hv Hw. split.
  - intros H. apply andb_true_iff in H. apply (plain_veq_eq X); try apply svcId_plain; tauto.
  - intros ->. destruct (svcId_hash X w Hw) as [h E]. rewrite sameHash_refl by (unfold hashable; now rewrite E).
    destruct w; cbn in Hw; try contradiction; cbn.
    + now rewrite Z.eqb_refl.
    + now rewrite strEqb_refl.
Qed.

Lemma memberOf_In : forall X v seen, svcId v -> (forall w, In w seen -> svcId w) -> memberOf X v seen = true <-> In v seen.
Proof.
  intros X v seen Hv Hs. unfold memberOf. rewrite existsb_exists. split.
  - intros [w [Hw E]]. apply svc_found in E; auto. now subst.
  - intros H. exists v. split; auto. apply svc_found; auto.
Qed.
Lemma dupVertices_spec : forall X l seen, (forall s, In s l -> svcId (vvid (sdst s))) -> (forall w, In w seen -> svcId w) -> NoDup seen ->
  exists b, dupVertices X seen l = Ret b /\ (b = false <-> NoDup (map (fun s => vvid (sdst s)) l ++ seen)).
Proof.
  induction l as [|s l IH]; intros seen Hl Hs N.
  - exists false. cbn. split; auto. split; auto.
  - assert (Hd : svcId (vvid (sdst s))) by (apply Hl; cbn; auto).
    cbn [dupVertices]. destruct (svcId_hash X _ Hd) as [h E]. rewrite E. cbn [obind].
    destruct (memberOf X (vvid (sdst s)) seen) eqn:M.
    + exists true. split; auto. apply memberOf_In in M; auto. split; [easy|]. intros K. cbn in K. inversion K as [|? ? K1 K2].
      exfalso. apply K1. apply in_or_app. auto.
    + destruct (IH (vvid (sdst s) :: seen)) as [b [Hb Eb]].
      * intros; apply Hl; cbn; auto.
      * intros w [<-|Hw]; auto.
      * constructor; auto. intros K. apply (memberOf_In X) in K; auto. congruence.
      * exists b. split; auto. rewrite Eb. cbn [map app]. split; intros K.
        -- apply (Permutation_NoDup (l := map (fun s0 => vvid (sdst s0)) l ++ vvid (sdst s) :: seen)); auto.
           symmetry. apply Permutation_middle.
        -- eapply Permutation_NoDup; [|exact K]. apply Permutation_middle.
Qed.
Theorem C62_duplicate_vertices_exact : forall X p, (forall v, In v (pathVerts p) -> svcId (vvid v)) ->
  exists b, hasDuplicateVertices X p = Ret b /\ (b = false <-> NoDup (map vvid (pathVerts p))).
Proof.
  intros X p H. unfold hasDuplicateVertices. destruct (psteps p) as [|s l] eqn:E.
  - exists false. split; auto. unfold pathVerts. rewrite E. cbn. split; auto. intros _. constructor; auto. constructor.
  - assert (Hs : svcId (vvid (psrc p))) by (apply H; cbn; auto).
    destruct (svcId_hash X _ Hs) as [h Eh]. rewrite Eh. cbn [obind].
    destruct (dupVertices_spec X (s :: l) [vvid (psrc p)]) as [b [Hb Eb]].
    + intros x Hx. apply H. unfold pathVerts. rewrite E. right. now apply in_map.
    + intros w [<-|[]]. auto.
    + constructor; auto. constructor.
    + exists b. split; auto. rewrite Eb. unfold pathVerts. rewrite E. set (x := s :: l).
      change (map vvid (psrc p :: map sdst x)) with (vvid (psrc p) :: map vvid (map sdst x)). rewrite map_map.
      split; intros K; (eapply Permutation_NoDup; [|exact K]).
      * symmetry. apply Permutation_cons_append.
      * apply Permutation_cons_append.
Qed.

Definition hopKey (h : hop) : value * value * Z * Z :=
  if 0 <? htype h then (vvid (hfrom h), vvid (hto h), htype h, hrank h) else (vvid (hto h), vvid (hfrom h), - htype h, hrank h).
Definition svcKey (k : ekey) : Prop := let '(s, d, _, _) := k in svcId s /\ svcId d.
Lemma keyFound_eq : forall X a b, svcKey a -> svcKey b -> keyFound X a b = true <-> a = b.
Proof.
  intros X [[[s1 d1] t1] r1] [[[s2 d2] t2] r2] [A1 A2] [B1 B2]. unfold keyFound.
  rewrite !(andb_true_iff _ (_ =? _)), andb_true_iff, !Z.eqb_eq, !svc_found by auto. split.
  - intros [[[-> ->] ->] ->]. auto.
  - intros H. injection H as -> -> -> ->. auto.
Qed.
Lemma dupEdges_spec : forall X l u seen, svcId (vvid u) -> (forall s, In s l -> svcId (vvid (sdst s)) /\ typeIn32 (stype s)) ->
  (forall k, In k seen -> svcKey k) -> NoDup seen ->
  exists b, dupEdges X seen (vvid u) l = Ret b /\ (b = false <-> NoDup (map hopKey (hops u l) ++ seen)).
Proof.
  induction l as [|s l IH]; intros u seen Hu Hl Hs N.
  - exists false. cbn. split; auto. split; auto.
  - destruct (Hl s (or_introl eq_refl)) as [Hd Ht].
    cbn [dupEdges]. destruct (svcId_hash X _ Hu) as [h1 E1]. destruct (svcId_hash X _ Hd) as [h2 E2].
    rewrite E1, E2. cbn [obind]. rewrite negType_ok by auto. cbn [obind].
    set (k := hopKey (mkHop u (sdst s) (stype s) (sname s) (srank s) (sprops s))).
    replace (if 0 <? stype s then Ret (vvid u, vvid (sdst s), stype s, srank s) else Ret (vvid (sdst s), vvid u, - stype s, srank s))
      with (Ret k) by (unfold k, hopKey; cbn; destruct (0 <? stype s); reflexivity).
    cbn [obind hops map]. fold k.
    assert (Hk : svcKey k) by (unfold k, hopKey; cbn; destruct (0 <? stype s); cbn; auto).
    assert (M : existsb (keyFound X k) seen = true <-> In k seen).
    { rewrite existsb_exists. split.
      - intros [w [Hw E]]. apply keyFound_eq in E; auto. now subst.
      - intros H. exists k. split; auto. apply keyFound_eq; auto. }
    destruct (existsb (keyFound X k) seen) eqn:EE.
    + exists true. split; auto. split; [easy|]. intros K. cbn in K. inversion K as [|? ? K1 K2].
      exfalso. apply K1. apply in_or_app. right. now apply M.
    + destruct (IH (sdst s) (k :: seen)) as [b [Hb Eb]]; auto.
      * intros; apply Hl; cbn; auto.
      * intros w [<-|Hw]; auto.
      * constructor; auto. intros K. apply M in K. congruence.
      * exists b. split; auto. rewrite Eb. cbn [app]. split; intros K.
        -- eapply Permutation_NoDup; [|exact K]. symmetry. apply Permutation_middle.
        -- eapply Permutation_NoDup; [|exact K]. apply Permutation_middle.
Qed.
Theorem C62_duplicate_edges_exact : forall X p, (forall v, In v (pathVerts p) -> svcId (vvid v)) -> stepTypesOk p ->
  exists b, hasDuplicateEdges X p = Ret b /\ (b = false <-> NoDup (map hopKey (pathHops p))).
Proof.
  intros X p H T. unfold hasDuplicateEdges.
  destruct (dupEdges_spec X (psteps p) (psrc p) []) as [b [Hb Eb]].
  - apply H. cbn; auto.
  - intros s Hs. split; [|apply T; auto]. apply H. right. now apply in_map.
  - easy.
  - constructor.
  - rewrite app_nil_r in Eb. unfold pathHops. destruct (psteps p) as [|s [|s2 l]] eqn:E.
    + exists false. split; auto. split; auto. constructor.
    + exists false. split; auto. split; auto. intros _. cbn. constructor; auto. constructor.
    + exists b. auto.
Qed.
Example C62_ex : let p := mkPath (vtx 1) [stp 2 5; stp 3 6; stp 1 7] in let q := mkPath (vtx 1) [stp 2 5; stp 1 (-5)] in
  (forall v, In v (pathVerts p) -> svcId (vvid v)) /\
  hasDuplicateVertices X1 p = Ret true /\ hasDuplicateEdges X1 p = Ret false /\ hasDuplicateEdges X1 q = Ret true.
Proof. cbv zeta. splits; try reflexivity. cbn. intros v [<-|[<-|[<-|[<-|[]]]]]; exact I. Qed.

Print Assumptions C44_equal_same_hash.
Print Assumptions C45_same_type_not_ordered.
Print Assumptions C46_reverse_twice.
Print Assumptions C47_columns.
Print Assumptions C62_duplicate_edges_exact.
