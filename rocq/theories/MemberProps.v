(** Theorems about reading members with a dot or in brackets: AttributeExpression and SubscriptExpression (C181). *)
From Coq Require Import String.
From Verif Require Import ValueBase DateModel DateSpec TimeModel TimeSpec ValueModel ValueProofs GraphModel ExprModel EvalModel EvalSpec EvalProofs EvalProps MemoryProps FuncTableModel FuncTableProps FromMapProps.
Local Open Scope list_scope.
Local Open Scope Z_scope.

(** [k] is the name [n], which is in small letters, whatever the case of its letters. *)
Definition named (k : str) (n : string) : Prop := Forall2 (fun x y => x = y \/ (65 <= x <= 90 /\ y = x + 32)) k (B n).
(** The member of a value with a name.  Of the tags of a vertex the first one with the property counts. *)
Inductive member : value -> str -> value -> Prop :=
| InMap m k w : In (k, w) m -> member (VMap m) k w
| VertexId x : member (VVertex x) (B "_vid") (vvid x)
| VertexProp x k w pre t post : k <> B "_vid" -> vtags x = pre ++ t :: post -> In (k, w) (tgprops t) ->
    (forall t', In t' pre -> ~ In k (map fst (tgprops t'))) -> member (VVertex x) k w
| EdgeSrc e : member (VEdge e) (B "_src") (esrc e)
| EdgeDst e : member (VEdge e) (B "_dst") (edst e)
| EdgeRank e : member (VEdge e) (B "_rank") (VInt (erank e))
| EdgeName e : member (VEdge e) (B "_type") (VStr (ename e))
| EdgeProp e k w : (forall r, k <> 95 :: r) -> In (k, w) (eprops e) -> member (VEdge e) k w
| DateYear d k : named k "year" -> member (VDate d) k (VInt (year d))
| DateMonth d k : named k "month" -> member (VDate d) k (VInt (month d))
| DateDay d k : named k "day" -> member (VDate d) k (VInt (day d))
| TimeHour t k : named k "hour" -> member (VTime t) k (VInt (thour t))
| TimeMinute t k : named k "minute" -> member (VTime t) k (VInt (tminute t))
| TimeSecond t k : named k "second" -> member (VTime t) k (VInt (tsec t))
| TimeMicro t k : named k "microsecond" -> member (VTime t) k (VInt (tmicro t))
| BothYear t k : named k "year" -> member (VDateTime t) k (VInt (dyear t))
| BothMonth t k : named k "month" -> member (VDateTime t) k (VInt (dmonth t))
| BothDay t k : named k "day" -> member (VDateTime t) k (VInt (dday t))
| BothHour t k : named k "hour" -> member (VDateTime t) k (VInt (dhour t))
| BothMinute t k : named k "minute" -> member (VDateTime t) k (VInt (dminute t))
| BothSecond t k : named k "second" -> member (VDateTime t) k (VInt (dsec t))
| BothMicro t k : named k "microsecond" -> member (VDateTime t) k (VInt (dmicro t)).
(** A map holds a key once (it is an unordered_map). *)
Definition keysOnce (v : value) : Prop :=
  match v with
  | VMap m => NoDup (map fst m)
  | VVertex x => forall t, In t (vtags x) -> NoDup (map fst (tgprops t))
  | VEdge e => NoDup (map fst (eprops e))
  | _ => True
  end.
(** Values with members, and those whose members can be read in brackets too. *)
Definition holder (v : value) : Prop := match v with VMap _ | VVertex _ | VEdge _ | VDate _ | VTime _ | VDateTime _ => True | _ => False end.
Definition holder2 (v : value) : Prop := match v with VMap _ | VVertex _ | VEdge _ => True | _ => False end.
Definition dot (l r : expr) : expr := Node KAttr [l; r].
Definition at_ (l r : expr) : expr := Node KSubscript [l; r].

Lemma lookup_is {V} (m : list (str * V)) k w : NoDup (map fst m) -> In (k, w) m -> lookup k m = Some w.
Proof. apply lookup_NoDup. Qed.
Lemma lookup_not {V} (m : list (str * V)) k : ~ In k (map fst m) -> lookup k m = None.
Proof.
  intros H. destruct (lookup k m) as [w|] eqn:L; [|reflexivity]. apply lookup_In in L. destruct H. apply in_map_iff. exists (k, w). split; auto.
Qed.
Lemma named_lower k n : (forall b, In b (B n) -> 97 <= b <= 122) -> named k n <-> lower k = B n.
Proof.
  unfold named, lower. generalize (B n). intros s L. split.
  - intros H. induction H as [|x y k s Hx _ IH]; [reflexivity|]. cbn [map]. f_equal; [|apply IH; intros; apply L; right; assumption].
    pose proof (L y (or_introl eq_refl)). unfold lowerByte. destruct ((65 <=? x) && (x <=? 90)) eqn:C; [|lia].
    apply andb_true_iff in C. lia.
  - revert s L. induction k as [|x k IH]; intros s L E; cbn in E; subst s; constructor.
    + pose proof (L (lowerByte x) (or_introl eq_refl)) as R. unfold lowerByte in *. destruct ((65 <=? x) && (x <=? 90)) eqn:C; [|auto].
      apply andb_true_iff in C. lia.
    + apply IH; [intros; apply L; right; assumption|reflexivity].
Qed.
Definition smalls (n : string) : bool := forallb (fun b => (97 <=? b) && (b <=? 122)) (B n).
Lemma named_iff k n : smalls n = true -> named k n <-> lower k = B n.
Proof. intros H. apply named_lower. intros b I. unfold smalls in H. rewrite forallb_forall in H. pose proof (H b I) as Q. apply andb_true_iff in Q. lia. Qed.
(** the first entry of the table with the name *)
Lemma attrOf_cons k n z l : smalls n = true -> attrOf ((n, z) :: l) k = if strEqb (lower k) (B n) then VInt z else attrOf l k.
Proof. intros _. unfold attrOf. cbn [find fst]. destruct (strEqb (lower k) (B n)); reflexivity. Qed.
Lemma tags_first x k w pre t post : (forall t, In t (vtags x) -> NoDup (map fst (tgprops t))) -> vtags x = pre ++ t :: post ->
  In (k, w) (tgprops t) -> (forall t', In t' pre -> ~ In k (map fst (tgprops t'))) -> tagsProp (vtags x) k = Some w.
Proof.
  intros N E I P. assert (Nt : NoDup (map fst (tgprops t))) by (apply N; rewrite E; apply in_or_app; right; left; reflexivity).
  rewrite E. clear E N. induction pre as [|q pre IH]; cbn [tagsProp app].
  - rewrite (lookup_is _ _ _ Nt I). reflexivity.
  - rewrite lookup_not by (apply P; left; reflexivity). apply IH. intros t' Ht. apply P. right. exact Ht.
Qed.
Lemma tags_none ts k : (forall t, In t ts -> ~ In k (map fst (tgprops t))) -> tagsProp ts k = None.
Proof. induction ts as [|t ts IH]; intros H; [reflexivity|]. cbn [tagsProp]. rewrite lookup_not by (apply H; left; reflexivity). apply IH. intros t' Ht. apply H. right. exact Ht. Qed.
Lemma tags_some ts k w : tagsProp ts k = Some w -> exists pre t post, ts = pre ++ t :: post /\ In (k, w) (tgprops t) /\ forall t', In t' pre -> ~ In k (map fst (tgprops t')).
Proof.
  induction ts as [|t ts IH]; intros H; [discriminate H|]. cbn [tagsProp] in H. destruct (lookup k (tgprops t)) as [v|] eqn:L.
  - injection H as ->. exists [], t, ts. splits; [reflexivity|apply lookup_In; exact L|intros ? []].
  - destruct (IH H) as (pre & t' & post & -> & I & P). exists (t :: pre), t', post. splits; [reflexivity|exact I|].
    intros q [<-|Hq]; [|apply P; exact Hq]. intros J. apply in_map_iff in J. destruct J as ([k' v'] & Ek & J). cbn in Ek. subst k'.
    clear - L J. induction (tgprops t) as [|[k0 v0] m IHm]; [destruct J|]. cbn [lookup] in L. destruct (strEqb k k0) eqn:Q; [discriminate L|].
    destruct J as [J|J]; [|apply IHm; assumption]. injection J as -> ->. now rewrite strEqb_refl in Q.
Qed.
Lemma not_underscored k : (forall r, k <> 95 :: r) -> underscored k = false.
Proof. intros H. destruct k as [|b k]; [reflexivity|]. unfold underscored. destruct b as [|[[[[[[[]|[]|]|[]|]|[]|]|[]|]|[]|]|[]|]|]; try reflexivity; try (exfalso; apply (H k); reflexivity). Qed.

Lemma attributeOf_member v k w : keysOnce v -> member v k w -> attributeOf v k = w /\ ~ unknownMember v k.
Proof.
  intros N H. destruct H; cbn [keysOnce] in N; cbn [attributeOf unknownMember]; (split; [|try solve [intros []]]).
  all: try (unfold dateAttr, timeAttr, datetimeAttr; rewrite !attrOf_cons by reflexivity; match goal with Q : named _ _ |- _ => apply named_iff in Q; [rewrite Q; reflexivity|reflexivity] end).
  - rewrite (lookup_is _ _ _ N H). reflexivity.
  - reflexivity.
  - destruct (strEqb k kVid) eqn:Q; [apply strEqb_eq in Q; contradiction|]. rewrite (tags_first _ _ _ _ _ _ N H0 H1 H2). reflexivity.
  - reflexivity.
  - intros [_ K]. apply K. left. reflexivity.
  - reflexivity.
  - intros [_ K]. apply K. right. left. reflexivity.
  - reflexivity.
  - intros [_ K]. apply K. right. right. left. reflexivity.
  - reflexivity.
  - intros [_ K]. apply K. right. right. right. left. reflexivity.
  - rewrite (not_underscored _ H), (lookup_is _ _ _ N H0). reflexivity.
  - rewrite (not_underscored _ H). intros [K _]. discriminate K.
Qed.
(** With a dot, the member of that name is read. *)
Theorem C181_dot : forall E c l r v k w, yields E c l v -> yields E c r (VStr k) -> keysOnce v -> member v k w -> yields E c (dot l r) w.
Proof.
  intros E c l r v k w Yl Yr N H. destruct (attributeOf_member v k w N H) as [A U]. rewrite <- A. exact (C39_attribute E c c c l r v k Yl Yr U).
Qed.
Lemma at_run E c l r a b v q : yields E c l a -> yields E c r b -> subscript a b = Ret (v, q) -> yields E c (at_ l r) v.
Proof.
  intros Yl Yr H. apply run_node with (v := v); auto. intros r0. exists q. cbn [evalNode].
  eapply gives_bind; [eapply gives_child; [reflexivity|exact Yl]|].
  eapply gives_bind; [eapply gives_child; [reflexivity|exact Yr]|]. apply gives_lift. exact H.
Qed.
(** In brackets the same, of maps, vertices and edges. *)
Theorem C181_brackets : forall E c l r v k w, yields E c l v -> yields E c r (VStr k) -> keysOnce v -> holder2 v -> member v k w -> yields E c (at_ l r) w.
Proof.
  intros E c l r v k w Yl Yr N G H. destruct H; try contradiction; cbn [keysOnce] in N.
  - eapply at_run; [exact Yl|exact Yr|]. cbn [subscript]. unfold mapAt. rewrite (lookup_is _ _ _ N H). reflexivity.
  - eapply at_run; [exact Yl|exact Yr|reflexivity].
  - eapply at_run; [exact Yl|exact Yr|]. cbn [subscript]. destruct (strEqb k kVid) eqn:Q; [apply strEqb_eq in Q; contradiction|].
    rewrite (tags_first _ _ _ _ _ _ N H0 H1 H2). reflexivity.
  - eapply at_run; [exact Yl|exact Yr|reflexivity].
  - eapply at_run; [exact Yl|exact Yr|reflexivity].
  - eapply at_run; [exact Yl|exact Yr|reflexivity].
  - eapply at_run; [exact Yl|exact Yr|reflexivity].
  - eapply at_run; [exact Yl|exact Yr|]. cbn [subscript]. rewrite (not_underscored _ H), (lookup_is _ _ _ N H0). reflexivity.
Qed.
(** A name stands for one member at most. *)
Theorem C181_one : forall v k w w', keysOnce v -> member v k w -> member v k w' -> w = w'.
Proof. intros v k w w' N H H'. destruct (attributeOf_member v k w N H) as [<- _]. destruct (attributeOf_member v k w' N H') as [<- _]. reflexivity. Qed.
Lemma attr_missing k l : attrOf l k = VNull NUnknownProp \/ exists n z, In (n, z) l /\ lower k = B n.
Proof.
  unfold attrOf. destruct (find _ l) as [[n z]|] eqn:F; [|left; reflexivity]. right. exists n, z.
  apply find_some in F. destruct F as [I Q]. cbn in Q. apply strEqb_eq in Q. auto.
Qed.
(** A name that no member has: null with a dot (but for edges and names that begin with an underscore), null in brackets. *)
Theorem C181_missing : forall E c l r v k, yields E c l v -> yields E c r (VStr k) -> (forall w, ~ member v k w) ->
  (holder v -> (forall e, v = VEdge e -> forall s, k <> 95 :: s) -> yields E c (dot l r) (VNull NUnknownProp)) /\
  (holder2 v -> yields E c (at_ l r) (match v with VMap _ => VNull NUnknownProp | _ => VNull NNull end)).
Proof.
  intros E c l r v k Yl Yr M. split.
  - intros Ho U. assert (A : attributeOf v k = VNull NUnknownProp /\ ~ unknownMember v k).
    { destruct v; try contradiction; cbn [attributeOf unknownMember]; (split; [|try solve [intros []]]).
      - unfold dateAttr. edestruct attr_missing as [Q|(n & z & I & L)]; [exact Q|]. exfalso.
        repeat (destruct I as [I|I]; [injection I as <- <-; eapply M; first [apply DateYear; apply named_iff; [reflexivity|exact L]|apply DateMonth; apply named_iff; [reflexivity|exact L]|apply DateDay; apply named_iff; [reflexivity|exact L]]|]). destruct I.
      - unfold timeAttr. edestruct attr_missing as [Q|(n & z & I & L)]; [exact Q|]. exfalso.
        repeat (destruct I as [I|I]; [injection I as <- <-; eapply M; first [apply TimeHour; apply named_iff; [reflexivity|exact L]|apply TimeMinute; apply named_iff; [reflexivity|exact L]|apply TimeSecond; apply named_iff; [reflexivity|exact L]|apply TimeMicro; apply named_iff; [reflexivity|exact L]]|]). destruct I.
      - unfold datetimeAttr. edestruct attr_missing as [Q|(n & z & I & L)]; [exact Q|]. exfalso.
        repeat (destruct I as [I|I]; [injection I as <- <-; eapply M; first [apply BothYear; apply named_iff; [reflexivity|exact L]|apply BothMonth; apply named_iff; [reflexivity|exact L]|apply BothDay; apply named_iff; [reflexivity|exact L]|apply BothHour; apply named_iff; [reflexivity|exact L]|apply BothMinute; apply named_iff; [reflexivity|exact L]|apply BothSecond; apply named_iff; [reflexivity|exact L]|apply BothMicro; apply named_iff; [reflexivity|exact L]]|]). destruct I.
      - destruct (strEqb k kVid) eqn:Q; [apply strEqb_eq in Q; subst; destruct (M _ (VertexId v))|].
        destruct (tagsProp (vtags v) k) as [w|] eqn:T; [|reflexivity]. exfalso. apply tags_some in T. destruct T as (pre & t & post & T1 & T2 & T3).
        apply (M w). eapply VertexProp; eauto. intros ->. now rewrite strEqb_refl in Q.
      - rewrite (not_underscored k (U e eq_refl)). destruct (lookup k (eprops e)) as [w|] eqn:T; [|reflexivity]. exfalso. apply (M w). apply EdgeProp; [exact (U e eq_refl)|apply lookup_In; exact T].
      - rewrite (not_underscored k (U e eq_refl)). intros [K _]. discriminate K.
      - destruct (lookup k m) as [w|] eqn:T; [|reflexivity]. exfalso. apply (M w). constructor. apply lookup_In. exact T. }
    destruct A as [A N]. rewrite <- A. exact (C39_attribute E c c c l r v k Yl Yr N).
  - intros Ho. destruct v; try contradiction; eapply at_run; try eassumption; cbn [subscript].
    + destruct (strEqb k kVid) eqn:Q; [apply strEqb_eq in Q; subst; destruct (M _ (VertexId v))|].
      destruct (tagsProp (vtags v) k) as [w|] eqn:T; [|reflexivity]. exfalso. apply tags_some in T. destruct T as (pre & t & post & T1 & T2 & T3).
      apply (M w). eapply VertexProp; eauto. intros ->. now rewrite strEqb_refl in Q.
    + destruct (underscored k) eqn:Un.
      * unfold edgeMember. destruct (strEqb k kSrc) eqn:K1; [apply strEqb_eq in K1; subst; destruct (M _ (EdgeSrc e))|]. destruct (strEqb k kDst) eqn:K2; [apply strEqb_eq in K2; subst; destruct (M _ (EdgeDst e))|].
        destruct (strEqb k kRank) eqn:K3; [apply strEqb_eq in K3; subst; destruct (M _ (EdgeRank e))|]. destruct (strEqb k kType) eqn:K4; [apply strEqb_eq in K4; subst; destruct (M _ (EdgeName e))|]. reflexivity.
      * destruct (lookup k (eprops e)) as [w|] eqn:T; [|reflexivity]. exfalso. apply (M w). apply EdgeProp; [intros s ->; discriminate Un|apply lookup_In; exact T].
    + unfold mapAt. destruct (lookup k m) as [w|] eqn:T; [|reflexivity]. exfalso. apply (M w). constructor. apply lookup_In. exact T.
Qed.
(** A property of an edge that begins with an underscore cannot be read: brackets give null, a dot what the expression gave before
    (empty, if nothing); a property _vid of a vertex is hidden by its id. *)
Theorem C181_hidden_refuted : forall E c,
  let e := VEdge (mkEdge (VInt 1) (VInt 2) 1 (B "follow") 0 [(B "_x", VInt 7)]) in
  let v := VVertex (mkVertex (VStr (B "a")) [mkTag (B "t") [(B "_vid", VInt 7)]]) in
  (exists k, eval E (dot (konst e) (konst (VStr (B "_x")))) noCache c = Ret (VEmpty, k, c)) /\
  yields E c (at_ (konst e) (konst (VStr (B "_x")))) (VNull NNull) /\
  yields E c (dot (konst v) (konst (VStr (B "_vid")))) (VStr (B "a")) /\ yields E c (at_ (konst v) (konst (VStr (B "_vid")))) (VStr (B "a")).
Proof.
  intros E c e v. splits.
  - eexists. reflexivity.
  - eapply at_run; [apply konst_yields..|reflexivity].
  - apply (C39_attribute E c c c (konst v) (konst (VStr (B "_vid"))) v (B "_vid")); [apply konst_yields..|intros []].
  - eapply at_run; [apply konst_yields..|reflexivity].
Qed.
(** A number in brackets gives the row of a data set, and null for a number that no row has; there are no negative ones here. *)
Theorem C181_row : forall E c l r d i, yields E c l (VDataSet d) -> yields E c r (VInt i) ->
  (forall row, 0 <= i -> nth_error (drows d) (Z.to_nat i) = Some row -> yields E c (at_ l r) (VList row)) /\
  (i < 0 \/ Z.of_nat (List.length (drows d)) <= i -> yields E c (at_ l r) (VNull NOutOfRange)).
Proof.
  intros E c l r d i Yl Yr. split.
  - intros row P N. eapply at_run; [exact Yl|exact Yr|]. cbn [subscript]. unfold lenOf. assert (Z.to_nat i < List.length (drows d))%nat by (apply nth_error_Some; congruence).
    rewrite (proj2 (Z.leb_gt _ _)) by lia. rewrite (proj2 (Z.ltb_ge _ _)) by lia. cbn [orb]. rewrite N. reflexivity.
  - intros H. eapply at_run; [exact Yl|exact Yr|]. cbn [subscript]. unfold lenOf. replace (_ || _) with true; [reflexivity|].
    symmetry. apply orb_true_iff. destruct H; [right; apply Z.ltb_lt|left; apply Z.leb_le]; lia.
Qed.
(** The members of an existing date make up the date again. *)
Theorem C181_date_again : forall X W o d y m a, valid_date gregorian_leap d ->
  member (VDate d) (B "year") y -> member (VDate d) (B "month") m -> member (VDate d) (B "day") a ->
  callFunction X W (B "date") o [VMap [(B "year", y); (B "month", m); (B "day", a)]] = Some (Ret (VDate d)).
Proof.
  intros X W o d y m a V Hy Hm Ha.
  rewrite (C181_one (VDate d) _ _ _ I Hy (DateYear d (B "year") ltac:(apply named_iff; reflexivity))), (C181_one (VDate d) _ _ _ I Hm (DateMonth d (B "month") ltac:(apply named_iff; reflexivity))),
          (C181_one (VDate d) _ _ _ I Ha (DateDay d (B "day") ltac:(apply named_iff; reflexivity))).
  set (mm := [(B "year", VInt (year d)); (B "month", VInt (month d)); (B "day", VInt (day d))]).
  assert (N : NoDup (map fst mm)) by (repeat (constructor; [cbn; intuition discriminate|]); constructor).
  destruct (C85_date_from_map mm N) as (q & Hq & Q). assert (q = Some d).
  { apply Q. splits; auto.
    - intros k v K. cbn in K. destruct K as [K|[K|[K|[]]]]; injection K as <- <-; (split; [cbn; tauto|eexists; reflexivity]).
    - destruct d. reflexivity. }
  subst q. transitivity (Some (fDate W o [VMap mm])); [reflexivity|]. unfold fDate. rewrite Hq. reflexivity.
Qed.
(** Not so with times in a time zone: a Time is kept in UTC, and its members are read as they are kept. *)
Theorem C181_time_again_refuted : forall X o, exists W t, wOffset W = 28800 /\
  callFunction X W (B "time") o [VMap [(B "hour", VInt 12)]] = Some (Ret (VTime t)) /\ member (VTime t) (B "hour") (VInt 4).
Proof.
  intros X o. exists tW, (mkTime 4 0 0 0). splits; [reflexivity|vm_compute; reflexivity|]. apply (TimeHour (mkTime 4 0 0 0)). apply named_iff; reflexivity.
Qed.
Example C181_ex : forall E c,
  let v := VVertex (mkVertex (VStr (B "a")) [mkTag (B "t") [(B "x", VInt 7)]; mkTag (B "u") [(B "x", VInt 8); (B "y", VInt 9)]]) in
  keysOnce v /\ member v (B "x") (VInt 7) /\ member v (B "y") (VInt 9) /\ (forall w, ~ member v (B "z") w) /\
  yields E c (dot (konst v) (konst (VStr (B "y")))) (VInt 9) /\
  yields E c (dot (konst (VDate (mkDate 2020 2 29))) (konst (VStr (B "Month")))) (VInt 2) /\ valid_date gregorian_leap (mkDate 2020 2 29).
Proof.
  intros E c v.
  assert (K : keysOnce v). { intros t [<-|[<-|[]]]; cbn; repeat (constructor; [cbn; intuition discriminate|]); constructor. }
  assert (My : member v (B "y") (VInt 9)).
  { eapply (VertexProp _ (B "y") (VInt 9) [mkTag (B "t") [(B "x", VInt 7)]] (mkTag (B "u") [(B "x", VInt 8); (B "y", VInt 9)]) []); [discriminate|reflexivity|cbn; tauto|].
    intros t' [<-|[]]. cbn. intuition discriminate. }
  splits; auto.
  - eapply (VertexProp _ (B "x") (VInt 7) [] (mkTag (B "t") [(B "x", VInt 7)]) [_]); [discriminate|reflexivity|cbn; tauto|intros ? []].
  - intros w H. inversion H as [| |x k w0 pre t post _ Et Iw _| | | | | | | | | | | | | | | | | | |]; subst.
    assert (It : In t (vtags (mkVertex (VStr (B "a")) [mkTag (B "t") [(B "x", VInt 7)]; mkTag (B "u") [(B "x", VInt 8); (B "y", VInt 9)]]))) by (rewrite Et; apply in_or_app; right; left; reflexivity).
    destruct It as [<-|[<-|[]]]; cbn in Iw; intuition discriminate.
  - eapply C181_dot; [apply konst_yields..|exact K|exact My].
  - eapply (C181_dot E c _ _ (VDate (mkDate 2020 2 29)) (B "Month")); [apply konst_yields..|exact I|]. apply (DateMonth (mkDate 2020 2 29)). apply named_iff; reflexivity.
  - repeat split; vm_compute; discriminate.
Qed.
Print Assumptions C181_dot.
Print Assumptions C181_brackets.
Print Assumptions C181_one.
Print Assumptions C181_missing.
Print Assumptions C181_hidden_refuted.
Print Assumptions C181_row.
Print Assumptions C181_date_again.
Print Assumptions C181_time_again_refuted.
