(** Induction over values and lemmas about operator== and the hash. *)
From Verif Require Import ValueBase DateModel TimeModel HashModel ValueModel.
From Coq Require Import Permutation.
Local Open Scope list_scope.
Local Open Scope Z_scope.

(** The values directly inside a value. *)
Definition tagVals (t : tag) : list value := map snd (tgprops t).
Definition vertexVals (v : vertex) : list value := vvid v :: flat_map tagVals (vtags v).
Definition edgeVals (e : edge) : list value := esrc e :: edst e :: map snd (eprops e).
Definition stepVals (s : step) : list value := vertexVals (sdst s) ++ map snd (sprops s).
Definition pathVals (p : path) : list value := vertexVals (psrc p) ++ flat_map stepVals (psteps p).
Definition subvals (v : value) : list value :=
  match v with
  | VVertex x => vertexVals x
  | VEdge x => edgeVals x
  | VPath x => pathVals x
  | VList l => l
  | VMap m => map snd m
  | VSet l => l
  | VDataSet d => concat (drows d)
  | _ => []
  end.

Section Ind.
Variable P : value -> Prop.
Hypothesis H : forall v, (forall c, In c (subvals v) -> P c) -> P v.

Lemma In_map_snd : forall {A B} (l : list (A * B)) (Q : B -> Prop), Forall (fun p => Q (snd p)) l -> forall c, In c (map snd l) -> Q c.
Proof. intros A B0 l Q F c Hc. apply in_map_iff in Hc. destruct Hc as [x [<- Hx]]. rewrite Forall_forall in F. auto. Qed.

Fixpoint value_sub_ind (v : value) : P v.
Proof.
  set (propsF := fix go (l : list (str * value)) : Forall (fun p => P (snd p)) l :=
    match l with [] => Forall_nil _ | p :: l' => Forall_cons p (value_sub_ind (snd p)) (go l') end).
  set (tagsF := fix go (l : list tag) : Forall (fun t => Forall (fun p => P (snd p)) (tgprops t)) l :=
    match l with [] => Forall_nil _
    | t :: l' => Forall_cons t (match t as t0 return Forall (fun p => P (snd p)) (tgprops t0) with mkTag _ ps => propsF ps end) (go l') end).
  set (vertF := fun x : vertex => match x as x0 return P (vvid x0) /\ Forall (fun t => Forall (fun p => P (snd p)) (tgprops t)) (vtags x0) with
    | mkVertex i ts => conj (value_sub_ind i) (tagsF ts) end).
  set (stepsF := fix go (l : list step) : Forall (fun s => (P (vvid (sdst s)) /\ Forall (fun t => Forall (fun p => P (snd p)) (tgprops t)) (vtags (sdst s)))
                                              /\ Forall (fun p => P (snd p)) (sprops s)) l :=
    match l with [] => Forall_nil _
    | s :: l' => Forall_cons s (match s as s0 return (P (vvid (sdst s0)) /\ Forall (fun t => Forall (fun p => P (snd p)) (tgprops t)) (vtags (sdst s0)))
                                              /\ Forall (fun p => P (snd p)) (sprops s0) with
         mkStep d _ _ _ ps => conj (vertF d) (propsF ps) end) (go l') end).
  set (listF := fix go (l : list value) : Forall P l :=
    match l with [] => Forall_nil _ | p :: l' => Forall_cons p (value_sub_ind p) (go l') end).
  set (rowsF := fix go (l : list (list value)) : Forall (Forall P) l :=
    match l with [] => Forall_nil _ | p :: l' => Forall_cons p (listF p) (go l') end).
  assert (HV : forall x : vertex, P (vvid x) /\ Forall (fun t => Forall (fun p => P (snd p)) (tgprops t)) (vtags x) ->
               forall c, In c (vertexVals x) -> P c).
  { intros x [H1 H2] c [<-|Hc]; [exact H1|].
    apply in_flat_map in Hc. destruct Hc as [t [Ht Hc]].
    rewrite Forall_forall in H2. exact (In_map_snd _ _ (H2 t Ht) c Hc). }
  apply H. destruct v; intros c Hc.
  1-9: destruct Hc.
  - exact (HV v (vertF v) c Hc).
  - destruct e as [a b ? ? ? ps]. unfold subvals, edgeVals in Hc. cbn [esrc edst eprops] in Hc.
    destruct Hc as [<-|[<-|Hc]]; [exact (value_sub_ind a)|exact (value_sub_ind b)|exact (In_map_snd _ _ (propsF ps) c Hc)].
  - destruct p as [s ss]. unfold subvals, pathVals in Hc. cbn [psrc psteps] in Hc.
    apply in_app_or in Hc. destruct Hc as [Hc|Hc]; [exact (HV s (vertF s) c Hc)|].
    apply in_flat_map in Hc. destruct Hc as [t [Ht Hc]].
    pose proof (stepsF ss) as F. rewrite Forall_forall in F. destruct (F t Ht) as [F1 F2].
    unfold stepVals in Hc. apply in_app_or in Hc. destruct Hc as [Hc|Hc]; [exact (HV _ F1 c Hc)|exact (In_map_snd _ _ F2 c Hc)].
  - pose proof (listF l) as F. rewrite Forall_forall in F. exact (F c Hc).
  - exact (In_map_snd _ _ (propsF m) c Hc).
  - pose proof (listF s) as F. rewrite Forall_forall in F. exact (F c Hc).
  - destruct d as [cs rs]. cbn in Hc. pose proof (rowsF rs) as F. rewrite Forall_forall in F.
    apply in_concat in Hc. destruct Hc as [r [Hr Hc]]. specialize (F r Hr). rewrite Forall_forall in F. exact (F c Hc).
Qed.
End Ind.

(** A Boolean condition holding at a value and at all values inside it. *)
Section All.
Variable p : value -> bool.
Fixpoint vall (v : value) : bool :=
  p v &&
  match v with
  | VVertex x => vall (vvid x) && forallb (fun t => forallb (fun kv => vall (snd kv)) (tgprops t)) (vtags x)
  | VEdge e => vall (esrc e) && vall (edst e) && forallb (fun kv => vall (snd kv)) (eprops e)
  | VPath x =>
      (vall (vvid (psrc x)) && forallb (fun t => forallb (fun kv => vall (snd kv)) (tgprops t)) (vtags (psrc x))) &&
      forallb (fun s => (vall (vvid (sdst s)) && forallb (fun t => forallb (fun kv => vall (snd kv)) (tgprops t)) (vtags (sdst s)))
                        && forallb (fun kv => vall (snd kv)) (sprops s)) (psteps x)
  | VList l => forallb vall l
  | VMap m => forallb (fun kv => vall (snd kv)) m
  | VSet l => forallb vall l
  | VDataSet d => forallb (forallb vall) (drows d)
  | _ => true
  end.
End All.

Lemma vall_here : forall p v, vall p v = true -> p v = true.
Proof. intros p v H. destruct v; cbn in H; apply andb_true_iff in H; tauto. Qed.

Lemma forallb_snd : forall {A} (q : value -> bool) (l : list (A * value)) c,
  forallb (fun kv => q (snd kv)) l = true -> In c (map snd l) -> q c = true.
Proof.
  intros A q l c H Hc. apply in_map_iff in Hc. destruct Hc as [x [<- Hx]].
  rewrite forallb_forall in H. apply (H x Hx).
Qed.
Lemma vall_vertex : forall p (x : vertex) c,
  vall p (vvid x) && forallb (fun t => forallb (fun kv => vall p (snd kv)) (tgprops t)) (vtags x) = true ->
  In c (vertexVals x) -> vall p c = true.
Proof.
  intros p x c H Hc. apply andb_true_iff in H. destruct H as [H1 H2]. destruct Hc as [<-|Hc]; auto.
  apply in_flat_map in Hc. destruct Hc as [t [Ht Hc]]. rewrite forallb_forall in H2. specialize (H2 t Ht).
  exact (forallb_snd _ _ c H2 Hc).
Qed.
Lemma vall_sub : forall p v c, vall p v = true -> In c (subvals v) -> vall p c = true.
Proof.
  intros p v c H Hc.
  destruct v; cbn [subvals] in Hc; try (exfalso; exact Hc); cbn [vall] in H; apply andb_true_iff in H; destruct H as [_ H].
  - exact (vall_vertex p v c H Hc).
  - apply andb_true_iff in H. destruct H as [H H3]. apply andb_true_iff in H. destruct H as [H1 H2].
    destruct Hc as [<-|[<-|Hc]]; auto. exact (forallb_snd _ _ c H3 Hc).
  - apply andb_true_iff in H. destruct H as [H1 H2].
    unfold pathVals in Hc. apply in_app_or in Hc. destruct Hc as [Hc|Hc]; [exact (vall_vertex _ _ c H1 Hc)|].
    apply in_flat_map in Hc. destruct Hc as [t [Ht Hc]]. rewrite forallb_forall in H2. specialize (H2 t Ht).
    apply andb_true_iff in H2. destruct H2 as [H2 H3].
    unfold stepVals in Hc. apply in_app_or in Hc. destruct Hc as [Hc|Hc]; [exact (vall_vertex _ _ c H2 Hc)|].
    exact (forallb_snd _ _ c H3 Hc).
  - rewrite forallb_forall in H. auto.
  - exact (forallb_snd _ _ c H Hc).
  - rewrite forallb_forall in H. auto.
  - apply in_concat in Hc. destruct Hc as [r [Hr Hc]]. rewrite forallb_forall in H. specialize (H r Hr).
    rewrite forallb_forall in H. auto.
Qed.

(** Strings *)
Lemma strEqb_eq : forall a b, strEqb a b = true <-> a = b.
Proof.
  induction a as [|x a IH]; intros [|y b]; cbn; split; intros H; try easy.
  - apply andb_true_iff in H. destruct H as [H1 H2]. apply Z.eqb_eq in H1. apply IH in H2. congruence.
  - injection H as -> ->. rewrite Z.eqb_refl. cbn. now apply IH.
Qed.
Lemma strEqb_refl : forall a, strEqb a a = true.
Proof. intros. now apply strEqb_eq. Qed.
Lemma strEqb_sym : forall a b, strEqb a b = strEqb b a.
Proof.
  intros a b. destruct (strEqb a b) eqn:E.
  - apply strEqb_eq in E. subst. now rewrite strEqb_refl.
  - destruct (strEqb b a) eqn:E2; auto. apply strEqb_eq in E2. subst. now rewrite strEqb_refl in E.
Qed.
Lemma str_dec : forall a b : str, {a = b} + {a <> b}.
Proof. apply list_eq_dec, Z.eq_dec. Qed.

(** Vectors *)
Section ListEq.
Context {A : Type}.
Variable f : A -> A -> bool.
Lemma listEq_refl : forall x, (forall a, In a x -> f a a = true) -> listEq f x x = true.
Proof. induction x as [|a x IH]; cbn; intros H; auto. rewrite H by auto. apply IH. auto. Qed.
Lemma listEq_sym : forall x y, (forall a b, In a x -> In b y -> f a b = true -> f b a = true) ->
  listEq f x y = true -> listEq f y x = true.
Proof.
  induction x as [|a x IH]; intros [|b y] H E; cbn in *; try easy.
  apply andb_true_iff in E. destruct E as [E1 E2]. rewrite (H a b) by auto. apply IH; auto.
Qed.
Lemma listEq_trans : forall x y z, (forall a b c, In a x -> In b y -> In c z -> f a b = true -> f b c = true -> f a c = true) ->
  listEq f x y = true -> listEq f y z = true -> listEq f x z = true.
Proof.
  induction x as [|a x IH]; intros [|b y] [|c z] H E F; cbn in *; try easy.
  apply andb_true_iff in E. destruct E as [E1 E2]. apply andb_true_iff in F. destruct F as [F1 F2].
  rewrite (H a b c) by auto. apply IH with y; auto.
  intros a0 b0 c0 ? ? ?. apply H; auto.
Qed.
Lemma listEq_length : forall x y, listEq f x y = true -> length x = length y.
Proof. induction x as [|a x IH]; intros [|b y] E; cbn in *; try easy. apply andb_true_iff in E. f_equal. apply IH. tauto. Qed.
End ListEq.

(** Association lists with distinct keys *)
Fixpoint nodupStr (l : list str) : bool :=
  match l with [] => true | k :: l' => negb (existsb (strEqb k) l') && nodupStr l' end.
Lemma nodupStr_NoDup : forall l, nodupStr l = true -> NoDup l.
Proof.
  induction l as [|k l IH]; cbn; intros H; constructor.
  - apply andb_true_iff in H. destruct H as [H _]. intros Hin. apply negb_true_iff in H.
    assert (existsb (strEqb k) l = true) by (apply existsb_exists; exists k; split; auto using strEqb_refl). congruence.
  - apply IH. apply andb_true_iff in H. tauto.
Qed.
Definition keysOf {V} (m : list (str * V)) : list str := map fst m.
Lemma lookup_In : forall {V} (m : list (str * V)) k v, lookup k m = Some v -> In (k, v) m.
Proof.
  induction m as [|[k' v'] m IH]; cbn; intros k v H; [easy|].
  destruct (strEqb k k') eqn:E; auto. apply strEqb_eq in E. subst. injection H as ->. auto.
Qed.
Lemma lookup_NoDup : forall {V} (m : list (str * V)) k v, NoDup (keysOf m) -> In (k, v) m -> lookup k m = Some v.
Proof.
  induction m as [|[k' v'] m IH]; cbn; intros k v N H; [easy|]. inversion N; subst.
  destruct H as [H|H].
  - injection H as -> ->. now rewrite strEqb_refl.
  - destruct (strEqb k k') eqn:E; auto. apply strEqb_eq in E. subst. exfalso. apply H2.
    change k' with (fst (k', v)). now apply in_map.
Qed.
Section MapEq.
Variable f : value -> value -> bool.
Lemma mapEq_refl : forall x, NoDup (keysOf x) -> (forall a, In a (map snd x) -> f a a = true) -> mapEq f x x = true.
Proof.
  intros x N H. unfold mapEq. rewrite Nat.eqb_refl. cbn. apply forallb_forall. intros [k v] Hin.
  cbn. rewrite (lookup_NoDup x k v N Hin). apply H. change v with (snd (k, v)). now apply in_map.
Qed.
Lemma mapEq_in : forall x y k v, mapEq f x y = true -> In (k, v) x -> exists w, In (k, w) y /\ lookup k y = Some w /\ f v w = true.
Proof.
  intros x y k v E H. unfold mapEq in E. apply andb_true_iff in E. destruct E as [_ E].
  rewrite forallb_forall in E. specialize (E _ H). cbn in E.
  destruct (lookup k y) as [w|] eqn:L; [|easy]. exists w. auto using lookup_In.
Qed.
Lemma mapEq_length : forall x y, mapEq f x y = true -> length x = length y.
Proof. intros x y E. unfold mapEq in E. apply andb_true_iff in E. destruct E as [E _]. now apply Nat.eqb_eq. Qed.
Lemma mapEq_sym : forall x y, NoDup (keysOf x) -> NoDup (keysOf y) ->
  (forall a b, In a (map snd x) -> In b (map snd y) -> f a b = true -> f b a = true) ->
  mapEq f x y = true -> mapEq f y x = true.
Proof.
  intros x y Nx Ny H E. pose proof (mapEq_length x y E) as L.
  unfold mapEq. rewrite L, Nat.eqb_refl. cbn. apply forallb_forall. intros [k v] Hin. cbn.
  assert (I : incl (keysOf y) (keysOf x)).
  { apply NoDup_length_incl; auto.
    - unfold keysOf. rewrite !map_length. lia.
    - intros k' Hk. unfold keysOf in Hk. apply in_map_iff in Hk. destruct Hk as [[k1 v1] [<- H1]].
      destruct (mapEq_in x y k1 v1 E H1) as [w [H2 _]]. change (fst (k1, v1)) with (fst (k1, w)). now apply in_map. }
  assert (Hk : In k (keysOf x)) by (apply I; change k with (fst (k, v)); now apply in_map).
  unfold keysOf in Hk. apply in_map_iff in Hk. destruct Hk as [[k1 v1] [Ek H1]]. cbn in Ek. subst k1.
  rewrite (lookup_NoDup x k v1 Nx H1).
  destruct (mapEq_in x y k v1 E H1) as [w [H2 [H3 H4]]].
  rewrite (lookup_NoDup y k v Ny Hin) in H3. injection H3 as ->.
  apply H; auto; [change v1 with (snd (k, v1))|change w with (snd (k, w))]; now apply in_map.
Qed.
Lemma mapEq_trans : forall x y z,
  (forall a b c, In a (map snd x) -> In b (map snd y) -> In c (map snd z) -> f a b = true -> f b c = true -> f a c = true) ->
  mapEq f x y = true -> mapEq f y z = true -> mapEq f x z = true.
Proof.
  intros x y z H E F. unfold mapEq. rewrite (mapEq_length x y E), (mapEq_length y z F), Nat.eqb_refl. cbn.
  apply forallb_forall. intros [k v] Hin. cbn.
  destruct (mapEq_in x y k v E Hin) as [w [H2 [H3 H4]]].
  destruct (mapEq_in y z k w F H2) as [u [H5 [H6 H7]]]. rewrite H6.
  apply H with w; auto; [change v with (snd (k, v))|change w with (snd (k, w))|change u with (snd (k, u))]; now apply in_map.
Qed.
End MapEq.

(** Sets: R relates elements that are found for each other. *)
Section SetEq.
Variable R : value -> value -> bool.
Definition subR (x y : list value) : Prop := forall p, In p x -> exists q, In q y /\ R p q = true.
Fixpoint distinctR (l : list value) : Prop :=
  match l with [] => True | p :: l' => (forall p', In p' l' -> R p p' = false /\ R p' p = false) /\ distinctR l' end.
Lemma subR_surj : forall x y,
  length x = length y -> distinctR x ->
  (forall p q, In p x -> In q y -> R p q = true -> R q p = true) ->
  (forall p q r, In p x -> In q y -> In r x -> R p q = true -> R q r = true -> R p r = true) ->
  subR x y -> forall q, In q y -> exists p, In p x /\ R p q = true.
Proof.
  induction x as [|p x IH]; intros y L D S T H q Hq.
  - destruct y; [destruct Hq|discriminate L].
  - destruct D as [D1 D2].
    destruct (H p (or_introl eq_refl)) as [q0 [Hq0 R0]].
    destruct (in_split q0 y Hq0) as [y1 [y2 ->]].
    assert (Hq' : q = q0 \/ In q (y1 ++ y2)).
    { apply in_app_or in Hq. destruct Hq as [Hq|[Hq|Hq]]; [right|left|right]; auto; apply in_or_app; auto. }
    destruct Hq' as [->|Hq']; [exists p; cbn; auto|].
    assert (Inc : forall r, In r (y1 ++ y2) -> In r (y1 ++ q0 :: y2)).
    { intros r Hr. apply in_app_or in Hr. apply in_or_app. cbn. tauto. }
    assert (L' : length x = length (y1 ++ y2)).
    { rewrite app_length in *. cbn in L. lia. }
    destruct (IH (y1 ++ y2) L' D2) with (q := q) as [p' [Hp' R']]; auto.
    + intros. apply S; cbn; auto.
    + intros p0 q1 r Hp0 Hq1 Hr. apply T; cbn; auto.
    + intros p' Hp'. destruct (H p' (or_intror Hp')) as [q' [Hq1 R1]].
      apply in_app_or in Hq1. destruct Hq1 as [Hq1|[Hq1|Hq1]].
      * exists q'. split; auto. apply in_or_app. auto.
      * subst q'. exfalso. destruct (D1 p' Hp') as [D3 D4].
        assert (R p p' = true).
        { apply T with q0; cbn; auto; apply S; cbn; auto. }
        congruence.
      * exists q'. split; auto. apply in_or_app. auto.
    + exists p'. cbn. auto.
Qed.
End SetEq.

Lemma forallb_snd_intro : forall {A} (q : value -> bool) (l : list (A * value)),
  (forall c, In c (map snd l) -> q c = true) -> forallb (fun kv => q (snd kv)) l = true.
Proof. intros A q l H. apply forallb_forall. intros x Hx. apply H. now apply in_map. Qed.
Lemma vall_vertex_intro : forall p (x : vertex), (forall c, In c (vertexVals x) -> vall p c = true) ->
  vall p (vvid x) && forallb (fun t => forallb (fun kv => vall p (snd kv)) (tgprops t)) (vtags x) = true.
Proof.
  intros p x H. rewrite H by (left; auto). cbn. apply forallb_forall. intros t Ht. apply forallb_snd_intro.
  intros c Hc. apply H. right. apply in_flat_map. eauto.
Qed.
Lemma vall_intro : forall p v, p v = true -> (forall c, In c (subvals v) -> vall p c = true) -> vall p v = true.
Proof.
  intros p v Hv H. destruct v; cbn [vall subvals] in *; rewrite Hv; auto; cbn [andb].
  - now apply vall_vertex_intro.
  - rewrite !H by (cbn; auto). cbn. apply forallb_snd_intro. intros c Hc. apply H. cbn. auto.
  - rewrite vall_vertex_intro by (intros c Hc; apply H; apply in_or_app; auto). cbn. apply forallb_forall. intros s Hs.
    assert (K : forall c, In c (stepVals s) -> vall p c = true).
    { intros c Hc. apply H. apply in_or_app. right. apply in_flat_map. eauto. }
    rewrite vall_vertex_intro by (intros c Hc; apply K; apply in_or_app; auto). cbn.
    apply forallb_snd_intro. intros c Hc. apply K. apply in_or_app. auto.
  - apply forallb_forall. auto.
  - now apply forallb_snd_intro.
  - apply forallb_forall. auto.
  - apply forallb_forall. intros r Hr. apply forallb_forall. intros c Hc. apply H. apply in_concat. eauto.
Qed.
