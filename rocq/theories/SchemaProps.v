(** Property C54: the layout of a schema. *)
From Coq Require Import String List.
From Verif Require Import Prelude Trans ValueBase ValueProofs LeaderModel AssocModel SchemaModel.
Import ListNotations.
Open Scope Z_scope.

(** * Specification *)
(** Bytes taken by a column on disk; [None] for a column that has none *)
Definition width (c : column) : option Z :=
  match colType c with
  | PUnknown => None
  | PBool | PInt8 => Some 1
  | PInt16 => Some 2
  | PInt32 | PFloat | PDate => Some 4
  | PTime => Some 7
  | PInt64 | PVid | PDouble | PTimestamp | PString => Some 8
  | PDateTime => Some 11
  | PFixedString => match colLen c with Some l => if 0 <? l then Some l else None | None => None end
  end.
Definition widthOr0 (c : column) : Z := match width c with Some w => w | None => 0 end.
Definition total (cs : list column) : Z := fold_right (fun c n => widthOr0 c + n) 0 cs.
Definition isNullable (c : column) : bool := match colNullable c with Some b => b | None => false end.
Definition nullables (cs : list column) : Z := Z.of_nat (List.length (filter isNullable cs)).
(** What a provider made of the columns [cs] is: every operation addField is one column. Lengths are i16; a
    negative one is not a length. *)
Definition proper (cs : list column) : Prop := Forall (fun c => width c <> None) cs /\ total cs < two64.
Definition built (ver : Z) (cs : list column) (p : provider) : Prop := addColumns (newProvider ver) cs = Ret p.

(** * Layout *)
Definition fieldOf (c : column) (off nulls : Z) : sfield :=
  mkSF (colName c) (colType c) (isNullable c) (widthOr0 c) off (if isNullable c then nulls else 0).
Fixpoint layout (cs : list column) (off nulls : Z) : list sfield :=
  match cs with [] => [] | c :: cs' => fieldOf c off nulls :: layout cs' (off + widthOr0 c) (nulls + if isNullable c then 1 else 0) end.
Definition endOf (p : provider) : Z := match lastField (pvFields p) with Some f => u64 (sfOffset f + sfSize f) | None => 0 end.
Fixpoint names (cs : list column) (i : Z) (l : list (str * Z)) : list (str * Z) :=
  match cs with [] => l | c :: cs' => names cs' (i + 1) (aadd strEqb (colName c) i l) end.

Lemma width_pos c w : width c = Some w -> 0 < w.
Proof. unfold width. destruct (colType c); try discriminate; try (intros H; injection H as <-; lia).
  destruct (colLen c) as [l|]; [|discriminate]. destruct (Z.ltb_spec 0 l); [|discriminate]. intros H1; injection H1 as <-; lia. Qed.
Lemma widthOr0_nonneg c : 0 <= widthOr0 c.
Proof. unfold widthOr0. destruct (width c) as [w|] eqn:E; [|lia]. apply width_pos in E. lia. Qed.
Lemma total_cons c cs : total (c :: cs) = widthOr0 c + total cs. Proof. reflexivity. Qed.
Lemma total_nonneg cs : 0 <= total cs.
Proof. induction cs as [|c cs IH]; [cbn; lia|]. rewrite total_cons. pose proof (widthOr0_nonneg c). lia. Qed.
Lemma total_length cs : Forall (fun c => width c <> None) cs -> Z.of_nat (List.length cs) <= total cs.
Proof.
  induction 1 as [|c cs Hc _ IH]; [cbn; lia|]. rewrite total_cons. cbn [List.length].
  unfold widthOr0. destruct (width c) as [w|] eqn:E; [|congruence]. apply width_pos in E. lia.
Qed.
Lemma fieldSize_width c : widthOr0 c < two64 -> width c <> None ->
  fieldSize (colType c) (match colLen c with Some l => u64 l | None => 0 end) = Ret (widthOr0 c).
Proof.
  unfold widthOr0, width, fieldSize. destruct (colType c); try reflexivity; [congruence|].
  destruct (colLen c) as [l|]; [|congruence]. destruct (Z.ltb_spec 0 l) as [Hl|]; [|congruence]. intros B _.
  assert (E : u64 l = l) by (unfold u64, two64 in *; apply Z.mod_small; lia). rewrite E.
  destruct (Z.ltb_spec 0 l); [reflexivity|lia].
Qed.
Lemma lastField_app fs f : lastField (fs ++ [f]) = Some f.
Proof. unfold lastField. rewrite rev_app_distr. reflexivity. Qed.

Lemma addColumns_layout cs : forall p, Forall (fun c => width c <> None) cs -> endOf p + total cs < two64 -> 0 <= endOf p ->
  pvNulls p + Z.of_nat (List.length cs) < two64 -> 0 <= pvNulls p ->
  addColumns p cs = Ret (mkProv (pvVer p) (names cs (Z.of_nat (List.length (pvFields p))) (pvNames p))
                                (pvFields p ++ layout cs (endOf p) (pvNulls p)) (pvNulls p + nullables cs)).
Proof.
  induction cs as [|c cs IH]; intros p Hw Ht He Hn Hn0.
  - cbn. rewrite app_nil_r. unfold nullables. cbn. rewrite Z.add_0_r. destruct p; reflexivity.
  - inversion Hw as [|? ? Hc Hw']; subst. rewrite total_cons in Ht. pose proof (total_nonneg cs). pose proof (widthOr0_nonneg c).
    cbn [addColumns]. unfold addSchemaField, addField. rewrite fieldSize_width; [|lia|assumption]. cbn [obind].
    fold (endOf p). fold (isNullable c).
    set (p1 := mkProv _ _ _ _).
    assert (Hn1 : pvNulls p1 = pvNulls p + if isNullable c then 1 else 0).
    { subst p1. cbn [pvNulls]. destruct (isNullable c); [|lia]. cbn [List.length] in Hn. unfold u64, two64 in *. apply Z.mod_small. lia. }
    assert (He1 : endOf p1 = endOf p + widthOr0 c).
    { unfold endOf at 1. subst p1. cbn [pvFields]. rewrite lastField_app. cbn [sfOffset sfSize]. unfold u64, two64 in *. apply Z.mod_small. lia. }
    cbn [List.length] in Hn.
    rewrite IH; auto; try lia; try (destruct (isNullable c); lia).
    rewrite Hn1, He1. subst p1. cbn [pvVer pvNames pvFields]. rewrite app_length. cbn [List.length]. f_equal. f_equal.
    + cbn [names]. f_equal; [lia|]. f_equal. lia.
    + rewrite <- app_assoc. reflexivity.
    + unfold nullables. cbn [filter]. destruct (isNullable c); cbn [List.length]; lia.
Qed.
Lemma built_layout ver cs p : proper cs -> built ver cs p ->
  p = mkProv ver (names cs 0 []) (layout cs 0 0) (nullables cs).
Proof.
  intros [Hw Ht] H. unfold built in H. pose proof (total_length cs Hw).
  rewrite addColumns_layout in H; auto; cbn; try lia. apply Ret_inj in H. subst p. reflexivity.
Qed.
Lemma layout_length cs : forall o n, List.length (layout cs o n) = List.length cs.
Proof. induction cs as [|c cs IH]; intros; cbn; auto. Qed.
Lemma layout_nth cs : forall o n i, nth_error (layout cs o n) i =
  option_map (fun c => fieldOf c (o + total (firstn i cs)) (n + nullables (firstn i cs))) (nth_error cs i).
Proof.
  induction cs as [|c cs IH]; intros o n [|i]; try reflexivity.
  - cbn [layout nth_error firstn option_map]. unfold nullables. cbn. rewrite !Z.add_0_r. reflexivity.
  - cbn [layout nth_error firstn]. rewrite IH. destruct (nth_error cs i) as [c'|]; [|reflexivity]. cbn [option_map]. f_equal. f_equal.
    + rewrite total_cons. lia.
    + unfold nullables. cbn [filter]. destruct (isNullable c); cbn [List.length]; lia.
Qed.
Lemma fieldAt_nth p i : 0 <= i -> fieldAt p i = nth_error (pvFields p) (Z.to_nat i).
Proof.
  intros Hi. unfold fieldAt. destruct (Z.ltb_spec i 0); [lia|]. cbn [orb]. destruct (Z.leb_spec (Z.of_nat (List.length (pvFields p))) i); [|reflexivity].
  symmetry. apply nth_error_None. lia.
Qed.
Lemma endOf_layout cs : forall o n fs, 0 <= o -> o + total cs < two64 -> cs <> [] ->
  match lastField (fs ++ layout cs o n) with Some f => sfOffset f + sfSize f = o + total cs | None => False end.
Proof.
  induction cs as [|c cs IH]; intros o n fs Ho Ht Hne; [congruence|]. rewrite total_cons in *. pose proof (widthOr0_nonneg c). cbn [layout].
  destruct cs as [|c2 cs].
  - cbn [layout]. rewrite lastField_app. cbn. lia.
  - replace (fs ++ fieldOf c o n :: layout (c2 :: cs) (o + widthOr0 c) (n + (if isNullable c then 1 else 0)))
      with ((fs ++ [fieldOf c o n]) ++ layout (c2 :: cs) (o + widthOr0 c) (n + (if isNullable c then 1 else 0))) by (rewrite <- app_assoc; reflexivity).
    specialize (IH (o + widthOr0 c) (n + (if isNullable c then 1 else 0)) (fs ++ [fieldOf c o n])).
    destruct (lastField _); [rewrite IH; try lia; discriminate|apply IH; try lia; discriminate].
Qed.

(** * C54 *)
(** The columns that have a width, and only they, can be put into a schema; a negative fixed length is excluded
    here and treated below. *)
Theorem C54_builds : forall ver cs, total cs < two64 -> Forall (fun c => match colLen c with Some l => 0 <= l < two64 | None => True end) cs ->
  ((exists p, built ver cs p) <-> Forall (fun c => width c <> None) cs) /\
  (~ Forall (fun c => width c <> None) cs -> addColumns (newProvider ver) cs = Fatal).
Proof.
  intros ver cs Ht Hl.
  assert (G : ~ Forall (fun c => width c <> None) cs -> addColumns (newProvider ver) cs = Fatal).
  { clear Ht. generalize (newProvider ver). induction cs as [|c cs IH]; intros p Hn; [exfalso; apply Hn; constructor|]. cbn [addColumns].
    inversion Hl as [|? ? Hc Hl']; subst. unfold addSchemaField, addField. destruct (width c) as [w|] eqn:E.
    - assert (E0 : exists z, fieldSize (colType c) (match colLen c with Some l => u64 l | None => 0 end) = Ret z).
      { unfold fieldSize, width in *. destruct (colType c); try discriminate; eauto. destruct (colLen c) as [l|]; [|discriminate].
        destruct (Z.ltb_spec 0 l); [|discriminate]. unfold u64, two64 in *. rewrite Z.mod_small by lia. destruct (Z.ltb_spec 0 l); [eauto|lia]. }
      destruct E0 as [z ->]. cbn [obind]. apply IH; auto. intros Hf. apply Hn. constructor; [congruence|assumption].
    - assert (E0 : fieldSize (colType c) (match colLen c with Some l => u64 l | None => 0 end) = Fatal).
      { unfold fieldSize, width in *. destruct (colType c); try discriminate; auto. destruct (colLen c) as [l|]; [|reflexivity].
        destruct (Z.ltb_spec 0 l); [discriminate|]. assert (l = 0) as -> by lia. reflexivity. }
      rewrite E0. reflexivity. }
  split; [|exact G]. split.
  - intros [p H]. unfold built in H.
    assert (D : Forall (fun c => width c <> None) cs \/ ~ Forall (fun c => width c <> None) cs).
    { destruct (Forall_dec (fun c => width c <> None)) with (l := cs) as [D | D]; auto. intros c. destruct (width c); [left; discriminate|right; auto]. }
    destruct D as [D | D]; [assumption|]. rewrite G in H by assumption. discriminate H.
  - intros Hw. pose proof (total_length cs Hw). eexists. unfold built. rewrite addColumns_layout; cbn; auto; lia.
Qed.

(** The i-th field is the i-th column, starts where the previous ones end, has its own null flag, and the
    reported totals are the totals. *)
Theorem C54_layout : forall ver cs p, proper cs -> built ver cs p ->
  (forall i c, nth_error cs i = Some c ->
     exists f, fieldAt p (Z.of_nat i) = Some f /\ sfName f = colName c /\ sfType f = colType c /\ sfNullable f = isNullable c /\
       width c = Some (sfSize f) /\ sfOffset f = total (firstn i cs) /\
       (sfNullable f = true -> sfNullPos f = nullables (firstn i cs))) /\
  (forall i, (i < 0 \/ Z.of_nat (List.length cs) <= i) -> fieldAt p i = None) /\
  provSize p = total cs /\ List.length (pvFields p) = List.length cs /\ pvNulls p = nullables cs.
Proof.
  intros ver cs p Hp H. pose proof (built_layout ver cs p Hp H) as ->. destruct Hp as [Hw Ht]. splits.
  - intros i c Hi. rewrite fieldAt_nth by lia. cbn [pvFields]. rewrite Nat2Z.id, layout_nth, Hi. cbn [option_map]. eexists. split; [reflexivity|].
    cbn. splits; auto.
    + pose proof (proj1 (Forall_forall _ _) Hw c (nth_error_In _ _ Hi)) as Hc. cbn in Hc. unfold widthOr0. destruct (width c); [reflexivity|congruence].
    + intros ->. lia.
  - intros i Hi. unfold fieldAt. cbn [pvFields]. rewrite layout_length. destruct (Z.ltb_spec i 0); [reflexivity|].
    destruct (Z.leb_spec (Z.of_nat (List.length cs)) i); [reflexivity|lia].
  - unfold provSize. cbn [pvFields]. destruct cs as [|c cs]; [reflexivity|].
    pose proof (endOf_layout (c :: cs) 0 0 []) as E. cbn [app] in E. pose proof (total_nonneg (c :: cs)).
    destruct (lastField (layout (c :: cs) 0 0)) as [f|]; [|exfalso; apply E; try lia; discriminate].
    rewrite E by (try lia; discriminate). unfold u64. rewrite Z.add_0_l. apply Z.mod_small. unfold two64 in Ht. lia.
  - cbn. apply layout_length.
  - reflexivity.
Qed.

Lemma total_app a b : total (a ++ b) = total a + total b.
Proof. induction a as [|c a IH]; [reflexivity|]. cbn [app]. rewrite !total_cons, IH. lia. Qed.
Lemma firstn_S_nth {A} (l : list A) : forall i x, nth_error l i = Some x -> firstn (S i) l = firstn i l ++ [x].
Proof. induction l as [|a l IH]; intros [|i] x H; try discriminate; cbn in *; [injection H as ->; reflexivity|]. f_equal. apply IH. assumption. Qed.
Lemma total_firstn_le cs i j : (i <= j)%nat -> total (firstn i cs) <= total (firstn j cs).
Proof.
  intros H. replace (firstn i cs) with (firstn i (firstn j cs)) by (rewrite firstn_firstn; f_equal; lia).
  pose proof (firstn_skipn i (firstn j cs)) as E. pose proof (total_nonneg (skipn i (firstn j cs))).
  rewrite <- E at 2. rewrite total_app. lia.
Qed.

(** The byte ranges of the fields are disjoint and cover exactly the first [size()] bytes. *)
Theorem C54_ranges_partition : forall ver cs p, proper cs -> built ver cs p ->
  forall b, 0 <= b < provSize p <->
    exists i f, fieldAt p i = Some f /\ sfOffset f <= b < sfOffset f + sfSize f /\
      forall i' f', fieldAt p i' = Some f' -> sfOffset f' <= b < sfOffset f' + sfSize f' -> i' = i.
Proof.
  intros ver cs p Hp H b. destruct (C54_layout ver cs p Hp H) as (L & Lout & Lsize & Llen & _). rewrite Lsize.
  assert (Hat : forall i f, fieldAt p i = Some f -> 0 <= i /\ exists c, nth_error cs (Z.to_nat i) = Some c /\ sfOffset f = total (firstn (Z.to_nat i) cs) /\
            sfOffset f + sfSize f = total (firstn (S (Z.to_nat i)) cs)).
  { intros i f Hf. destruct (Z.ltb_spec i 0); [rewrite Lout in Hf by lia; discriminate|].
    destruct (Z.leb_spec (Z.of_nat (List.length cs)) i); [rewrite Lout in Hf by lia; discriminate|]. split; [assumption|].
    destruct (nth_error cs (Z.to_nat i)) as [c|] eqn:E; [|apply nth_error_None in E; lia]. exists c. split; [reflexivity|].
    destruct (L _ c E) as (f' & Hf' & _ & _ & _ & Hw & Ho & _). rewrite Z2Nat.id in Hf' by assumption. rewrite Hf in Hf'. injection Hf' as <-.
    split; [assumption|]. rewrite (firstn_S_nth cs _ c E), total_app, Ho. change (total [c]) with (widthOr0 c + 0). unfold widthOr0. rewrite Hw. lia. }
  split.
  - intros Hb. assert (E : exists i c, nth_error cs i = Some c /\ total (firstn i cs) <= b < total (firstn (S i) cs)).
    { clear - Hb. revert b Hb. induction cs as [|c cs IH]; intros b Hb; [cbn in Hb; lia|]. rewrite total_cons in Hb.
      destruct (Z.ltb_spec b (widthOr0 c)).
      - exists 0%nat, c. split; [reflexivity|]. change (firstn 1 (c :: cs)) with [c]. change (total [c]) with (widthOr0 c + 0). change (total (firstn 0 (c :: cs))) with 0. lia.
      - destruct (IH (b - widthOr0 c)) as (i & c' & Hi & Hb'); [lia|]. exists (S i), c'. split; [exact Hi|].
        rewrite !firstn_cons, !total_cons. lia. }
    destruct E as (i & c & Hi & Hb'). destruct (L i c Hi) as (f & Hf & Hr). exists (Z.of_nat i), f. split; [assumption|].
    destruct (Hat _ _ Hf) as (_ & c' & _ & O1 & O2). rewrite Nat2Z.id in *. split; [lia|].
    intros i' f' Hf' Hb2. destruct (Hat _ _ Hf') as (P' & _ & _ & O1' & O2').
    destruct (Nat.lt_trichotomy (Z.to_nat i') i) as [Q | [Q | Q]]; [|lia|].
    + pose proof (total_firstn_le cs (S (Z.to_nat i')) i). lia.
    + pose proof (total_firstn_le cs (S i) (Z.to_nat i')). lia.
  - intros (i & f & Hf & Hb & _). destruct (Hat i f Hf) as (P & c & Hc & O1 & O2). pose proof (total_nonneg (firstn (Z.to_nat i) cs)).
    pose proof (total_firstn_le cs (S (Z.to_nat i)) (List.length cs)) as T. rewrite firstn_all in T.
    assert (Z.to_nat i < List.length cs)%nat by (apply nth_error_Some; congruence). lia.
Qed.

(** * Lookup by name *)
Lemma names_get cs : forall i l n, aget strEqb n (names cs i l) =
  match aget strEqb n l with
  | Some v => Some v
  | None => (fix go (cs : list column) (i : Z) := match cs with [] => None | c :: cs' => if strEqb n (colName c) then Some i else go cs' (i + 1) end) cs i
  end.
Proof.
  induction cs as [|c cs IH]; intros i l n; [cbn; destruct (aget strEqb n l); reflexivity|]. cbn [names]. rewrite IH. unfold aadd.
  destruct (aget strEqb (colName c) l) as [v|] eqn:E.
  - destruct (aget strEqb n l) eqn:F; [reflexivity|]. destruct (strEqb n (colName c)) eqn:G; [|reflexivity].
    apply strEqb_eq in G. congruence.
  - assert (A : forall l, aget strEqb n (l ++ [(colName c, i)]) = match aget strEqb n l with Some v => Some v | None => if strEqb n (colName c) then Some i else None end).
    { clear. induction l as [|[k v] l IH]; cbn; [reflexivity|]. destruct (strEqb n k); [reflexivity|exact IH]. }
    rewrite A. destruct (aget strEqb n l); [reflexivity|]. destruct (strEqb n (colName c)); reflexivity.
Qed.
Definition firstIdx (n : str) := fix go (cs : list column) (i : Z) : option Z :=
  match cs with [] => None | c :: cs' => if strEqb n (colName c) then Some i else go cs' (i + 1) end.
Lemma firstIdx_Some n cs : forall i j, firstIdx n cs i = Some j -> exists k c, j = i + Z.of_nat k /\ nth_error cs k = Some c /\ colName c = n /\
  forall k' c', (k' < k)%nat -> nth_error cs k' = Some c' -> colName c' <> n.
Proof.
  induction cs as [|c cs IH]; intros i j; cbn [firstIdx]; [discriminate|]. destruct (strEqb n (colName c)) eqn:E.
  - intros H; injection H as <-. exists 0%nat, c. apply strEqb_eq in E. splits; auto; [lia|]. intros; lia.
  - intros H. destruct (IH _ _ H) as (k & c' & -> & H1 & H2 & H3). exists (S k), c'. splits; auto; [lia|].
    intros [|k'] c2 Hk Hc2; cbn in Hc2.
    + injection Hc2 as <-. intros <-. rewrite strEqb_refl in E. discriminate.
    + apply (H3 k'); [lia|assumption].
Qed.
Lemma firstIdx_None n cs : forall i, firstIdx n cs i = None -> forall c, In c cs -> colName c <> n.
Proof.
  induction cs as [|c cs IH]; intros i; cbn [firstIdx]; [intros _ c []|]. destruct (strEqb n (colName c)) eqn:E; [discriminate|].
  intros H c' [<- | Hin]; [intros <-; rewrite strEqb_refl in E; discriminate|]. eapply IH; eassumption.
Qed.

(** A name is found at its first column, with the same field that the index gives; an unknown name is reported. *)
Theorem C54_lookup_agrees : forall ver cs p n, proper cs -> built ver cs p ->
  (forall i c, nth_error cs i = Some c -> colName c = n -> (forall i' c', (i' < i)%nat -> nth_error cs i' = Some c' -> colName c' <> n) ->
     getFieldIndex p n = Z.of_nat i /\ fieldNamed p n = Ret (fieldAt p (Z.of_nat i)) /\ fieldTypeNamed p n = Ret (colType c) /\
     fieldTypeAt p (Z.of_nat i) = colType c /\ getFieldName p (Z.of_nat i) = Some (cstr n)) /\
  ((forall c, In c cs -> colName c <> n) -> getFieldIndex p n = -1 /\ fieldNamed p n = Ret None /\ fieldTypeNamed p n = Ret PUnknown).
Proof.
  intros ver cs p n Hp H. pose proof (C54_layout ver cs p Hp H) as (L & _). pose proof (built_layout ver cs p Hp H) as E. split.
  - intros i c Hi Hn Hfirst. destruct (L i c Hi) as (f & Hf & Hfn & Hft & _).
    assert (G : aget strEqb n (pvNames p) = Some (Z.of_nat i)).
    { rewrite E. cbn [pvNames]. rewrite names_get. cbn [aget]. fold (firstIdx n). destruct (firstIdx n cs 0) as [j|] eqn:F.
      - destruct (firstIdx_Some n cs 0 j F) as (k & c' & -> & H1 & H2 & H3). f_equal. destruct (Nat.lt_trichotomy k i) as [Q | [Q | Q]]; [|lia|].
        + exfalso. exact (Hfirst k c' Q H1 H2).
        + exfalso. exact (H3 i c Q Hi Hn).
      - exfalso. exact (firstIdx_None n cs 0 F c (nth_error_In _ _ Hi) Hn). }
    assert (Hnth : nth_error (pvFields p) i = Some f) by (rewrite fieldAt_nth in Hf by lia; rewrite Nat2Z.id in Hf; exact Hf).
    unfold getFieldIndex, fieldNamed, fieldTypeNamed, fieldTypeAt, getFieldName. rewrite G, Nat2Z.id, Hnth, Hf.
    destruct (Z.ltb_spec (Z.of_nat i) 0); [lia|]. rewrite Hft, Hfn, Hn. splits; auto.
  - intros Hno. assert (G : aget strEqb n (pvNames p) = None).
    { rewrite E. cbn [pvNames]. rewrite names_get. cbn [aget]. fold (firstIdx n). destruct (firstIdx n cs 0) as [j|] eqn:F; [|reflexivity].
      destruct (firstIdx_Some n cs 0 j F) as (k & c' & _ & H1 & H2 & _). exfalso. exact (Hno c' (nth_error_In _ _ H1) H2). }
    unfold getFieldIndex, fieldNamed, fieldTypeNamed. rewrite G. splits; reflexivity.
Qed.

(** Iterating from begin() to end() visits every field once, in order. *)
Theorem C54_iterator_visits_all : forall p fuel, (List.length (pvFields p) < fuel)%nat -> itLoop fuel p (itBegin p) = Ret (pvFields p).
Proof.
  intros p fuel Hf.
  assert (G : forall k fuel pre, pvFields p = pre ++ skipn (List.length pre) (pvFields p) -> (List.length pre + k = List.length (pvFields p))%nat -> (k < fuel)%nat ->
     itLoop fuel p (itAt p (Z.of_nat (List.length pre))) = Ret (skipn (List.length pre) (pvFields p))).
  { induction k as [|k IH]; intros [|n] pre Hpre Hk Hn; try lia; cbn [itLoop].
    - unfold itEqb, itEnd. cbn [itIndex itAt]. replace (List.length pre) with (List.length (pvFields p)) by lia. rewrite Z.eqb_refl. cbn [orb].
      rewrite skipn_all. reflexivity.
    - assert (Ex : exists f, nth_error (pvFields p) (List.length pre) = Some f).
      { destruct (nth_error (pvFields p) (List.length pre)) eqn:E; [eauto|]. apply nth_error_None in E. lia. }
      destruct Ex as [f Hfn]. unfold itAt, itNext. cbn [itField itIndex]. rewrite fieldAt_nth, Nat2Z.id, Hfn by lia.
      unfold itEqb, itEnd, itAt. cbn [itIndex itField isNull andb]. destruct (Z.eqb_spec (Z.of_nat (List.length pre)) (Z.of_nat (List.length (pvFields p)))); [lia|]. cbn [orb].
      assert (Hsk : skipn (List.length pre) (pvFields p) = f :: skipn (S (List.length pre)) (pvFields p)).
      { clear - Hfn. revert Hfn. generalize (pvFields p) as l, (List.length pre) as n. induction l as [|a l IHl]; intros [|n] H; try discriminate; cbn in *; [injection H as ->; reflexivity|apply IHl, H]. }
      specialize (IH n (pre ++ [f])). rewrite app_length in IH. cbn [List.length] in IH. replace (Z.of_nat (List.length pre) + 1) with (Z.of_nat (List.length pre + 1)) by lia.
      replace (List.length pre + 1)%nat with (S (List.length pre)) in * by lia.
      fold (itAt p (Z.of_nat (S (List.length pre)))). rewrite IH; [rewrite Hsk; reflexivity| |lia|lia].
      rewrite <- app_assoc. cbn [app]. rewrite <- Hsk. exact Hpre. }
  apply (G (List.length (pvFields p)) fuel []); cbn; auto.
Qed.

(** * Concrete cases *)
Definition exCols : list column :=
  [mkCol (B "id") PInt64 None None; mkCol (B "name") PFixedString (Some 10) (Some true); mkCol (B "at") PDateTime None (Some false);
   mkCol (B "w") PFloat None (Some true)].
Definition exProv : provider :=
  mkProv 3 [(B "id", 0); (B "name", 1); (B "at", 2); (B "w", 3)]
    [mkSF (B "id") PInt64 false 8 0 0; mkSF (B "name") PFixedString true 10 8 0; mkSF (B "at") PDateTime false 11 18 0; mkSF (B "w") PFloat true 4 29 1] 2.
Example C54_ex : built 3 exCols exProv /\ proper exCols /\ provSize exProv = 33 /\ fieldNamed exProv (B "w") = Ret (Some (mkSF (B "w") PFloat true 4 29 1)).
Proof. unfold built, proper. splits; try (vm_compute; reflexivity). repeat constructor; discriminate. Qed.

(** False as stated: a second column of the same name cannot be reached by name, ... *)
Theorem C54_duplicate_name_refuted : exists cs p f, proper cs /\ built 0 cs p /\ fieldAt p 1 = Some f /\ sfName f = B "a" /\
  getFieldIndex p (B "a") = 0 /\ fieldNamed p (B "a") <> Ret (Some f).
Proof.
  exists [mkCol (B "a") PBool None None; mkCol (B "a") PInt64 None None]. eexists. exists (mkSF (B "a") PInt64 false 8 1 0).
  split; [split; [repeat constructor; discriminate|reflexivity]|]. split; [vm_compute; reflexivity|].
  splits; try (vm_compute; reflexivity). vm_compute. intros H. discriminate H.
Qed.
(** ... and a fixed string with a negative length, which the i16 length allows, becomes a field of almost 2^64
    bytes, so that size() is smaller than the offset of the last field. *)
Theorem C54_negative_length_refuted : exists cs p f, built 0 cs p /\ fieldAt p 1 = Some f /\ sfOffset f = 8 /\ provSize p = 4.
Proof.
  exists [mkCol (B "a") PInt64 None None; mkCol (B "b") PFixedString (Some (-4)) None]. eexists. exists (mkSF (B "b") PFixedString false (two64 - 4) 8 0).
  split; [vm_compute; reflexivity|]. splits; vm_compute; reflexivity.
Qed.

Print Assumptions C54_builds.
Print Assumptions C54_layout.
Print Assumptions C54_ranges_partition.
Print Assumptions C54_lookup_agrees.
Print Assumptions C54_iterator_visits_all.
