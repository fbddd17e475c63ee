(** Proofs for C187. *)
From Coq Require Import String List.
From Verif Require Import Prelude ValueBase DateModel TimeModel ValueModel ValueProofs GraphModel ExprModel ExprSpec ExprProofs EvalModel EvalSpec EvalProofs ValueProps FaultSpec SoundSpec.
Import ListNotations.
Local Open Scope list_scope.
Open Scope Z_scope.

Lemma In_firstn_skipn A (x : A) n m l : In x (firstn n (skipn m l)) -> In x l.
Proof. intros H. rewrite <- (firstn_skipn m l). apply in_or_app. right. rewrite <- (firstn_skipn n (skipn m l)). apply in_or_app. now left. Qed.
Section WithE.
Variable E : env.
Notation X := (eX E).
Notation S := (sound X).

(** * Soundness and its parts *)
Lemma sound_here v : S v -> typed X v.
Proof. intros H. apply H. constructor. Qed.
Lemma sound_sub v c : S v -> In c (subvals v) -> S c.
Proof. intros H I w W. apply H. exact (withinSub w v c I W). Qed.
Lemma sound_intro v : typed X v -> (forall c, In c (subvals v) -> S c) -> S v.
Proof. intros T H w W. inversion W as [|? c I W']; subst; [exact T|]. exact (H c I w W'). Qed.
Definition leaf (v : value) : Prop := subvals v = [] /\ typed X v.
Lemma sound_leaf v : leaf v -> S v.
Proof. intros [N T]. apply sound_intro; [exact T|]. rewrite N. intros c []. Qed.
Ltac lf := apply sound_leaf; split; [reflexivity|try exact I].
Lemma sound_list l : S (VList l) <-> Forall S l.
Proof.
  split.
  - intros H. apply Forall_forall. intros x Hx. exact (sound_sub _ _ H Hx).
  - intros H. rewrite Forall_forall in H. apply sound_intro; [exact I|exact H].
Qed.
Lemma in64 z : in_int64 z = true <-> int64 z.
Proof. unfold in_int64, int64, int64_min, int64_max. change (2 ^ 63) with 9223372036854775808. lia. Qed.
Lemma sound_int z : int64 z -> S (VInt z).
Proof. intros H. lf. exact H. Qed.
Lemma sound_intRes z : S (intRes z).
Proof. unfold intRes. destruct (in_int64 z) eqn:Q; [apply sound_int, in64, Q|lf]. Qed.

(** * Operators *)
Lemma wrap16_in z : int16 (wrap16 z). Proof. unfold wrap16, int16. change (2 ^ 15) with 32768. lia. Qed.
Lemma wrap8_in z : int8 (wrap8 z). Proof. unfold wrap8, int8. change (2 ^ 7) with 128. lia. Qed.
Lemma adjust_in f : forall y d y' d', int16 y -> adjustYear f y d = Ret (y', d') -> int16 y'.
Proof.
  induction f as [|f IH]; intros y d y' d' Hy H; [discriminate|]. cbn [adjustYear] in H. destruct (d <=? 0).
  - exact (IH _ _ _ _ (wrap16_in _) H).
  - injection H as <- _. exact Hy.
Qed.
Lemma find_in f : forall y d m r, int8 m -> findMonth f y d m = Ret r -> int8 (fst r) /\ int8 (snd r).
Proof.
  induction f as [|f IH]; intros y d m r Hm H; [discriminate|]. cbn [findMonth] in H.
  destruct (arr _ m) as [u| | |]; try discriminate. cbn [obind] in H. destruct (d <=? u).
  - destruct (arr _ (m - 1)) as [b| | |]; try discriminate. injection H as <-. split; [exact Hm|apply wrap8_in].
  - exact (IH _ _ _ _ (wrap8_in _) H).
Qed.
Lemma fromInt_sound z d : fromInt z = Ret d -> S (VDate d).
Proof.
  unfold fromInt. destruct (_ =? _); [discriminate|]. set (f := Datatypes.S _). clearbody f.
  match goal with |- context [adjustYear f ?y ?x] => destruct (adjustYear f y x) as [[y' d']| | |] eqn:A; try discriminate; assert (Hy : int16 y) by apply wrap16_in end.
  apply adjust_in in A; [|exact Hy]. cbn [obind]. destruct (findMonth 13 y' d' 1) as [md| | |] eqn:Fm; try discriminate.
  apply find_in in Fm; [|unfold int8; change (2 ^ 7) with 128; lia]. intros [= <-]. lf. cbn. tauto.
Qed.
Lemma addDays_sound d n r : addDays d n = Ret r -> S (VDate r).
Proof. unfold addDays. destruct (toInt d); try discriminate. cbn [obind]. destruct (in_int64 _); [|discriminate]. apply fromInt_sound. Qed.
Lemma subDays_sound d n r : subDays d n = Ret r -> S (VDate r).
Proof. unfold subDays. destruct (toInt d); try discriminate. cbn [obind]. destruct (in_int64 _); [|discriminate]. apply fromInt_sound. Qed.
Lemma arr_small t i x : (t = kDaysSoFar \/ t = kLeapDaysSoFar) -> arr t i = Ret x -> 0 <= x <= 366.
Proof.
  unfold arr. destruct (i <? 0); [discriminate|]. intros T H. destruct (nth_error t (Z.to_nat i)) as [y|] eqn:N; [|discriminate]. injection H as <-.
  apply nth_error_In in N. destruct T as [-> | ->]; cbn in N; intuition lia.
Qed.
Lemma toInt_bound d s : S (VDate d) -> toInt d = Ret s -> -1000 <= s <= 40000000.
Proof.
  intros H T. apply sound_here in H. cbn in H. unfold int16, int8 in H. change (2 ^ 15) with 32768 in H. change (2 ^ 7) with 128 in H. destruct H as (Hy & _ & Hd).
  unfold toInt in T. cbv zeta in T.
  match type of T with obind ?o _ = _ => destruct o as [m| | |] eqn:A; try discriminate end. cbn [obind] in T. injection T as <-.
  assert (0 <= m <= 366) by (destruct (_ =? 0); (eapply arr_small; [|exact A]; auto)).
  destruct (0 <? year d + 32768) eqn:Q; [|lia]. assert (0 <= Z.quot (year d + 32768 - 1) 4 <= 20000).
  { rewrite Z.quot_div_nonneg by lia. lia. }
  lia.
Qed.
Lemma app_sound a b : Forall S a -> Forall S b -> S (VList (a ++ b)).
Proof. intros. apply sound_list, Forall_app. auto. Qed.
Lemma vadd_sound v w r : S v -> S w -> vadd X v w = Ret r -> S r.
Proof.
  intros Hv Hw. unfold vadd, nullOrEmpty. destruct (isNull v || _); [intros [= <-]; exact Hv|]. destruct (isNull w || _); [intros [= <-]; exact Hw|].
  destruct v, w; intros [= <-] || intros Hr; try lf; try apply sound_intRes;
    try (match type of Hr with obind ?o _ = _ => destruct o eqn:Q; try discriminate end; injection Hr as <-; exact (addDays_sound _ _ _ Q));
    try (apply app_sound; [now apply sound_list|first [now apply sound_list|constructor; [assumption|constructor]]]);
    apply sound_list; constructor; auto; now apply sound_list.
Qed.
Lemma vsub_sound v w r : S v -> S w -> vsub v w = Ret r -> S r.
Proof.
  intros Hv Hw. unfold vsub, nullOrEmpty. destruct (isNull v || _); [intros [= <-]; exact Hv|]. destruct (isNull w || _); [intros [= <-]; exact Hw|].
  destruct v, w; intros [= <-] || intros Hr; try lf; try apply sound_intRes.
  - destruct (subDays _ _) eqn:Q; try discriminate. injection Hr as <-. exact (subDays_sound _ _ _ Q).
  - destruct (toInt d) eqn:Q1; try discriminate. cbn [obind] in Hr. destruct (toInt d0) eqn:Q2; try discriminate. injection Hr as <-.
    apply toInt_bound in Q1; [|exact Hv]. apply toInt_bound in Q2; [|exact Hw]. apply sound_int. unfold int64. change (2 ^ 63) with 9223372036854775808. lia.
Qed.
Lemma vmul_sound v w r : S v -> S w -> vmul v w = Ret r -> S r.
Proof.
  intros Hv Hw. unfold vmul, nullOrEmpty. destruct (isNull v || _); [intros [= <-]; exact Hv|]. destruct (isNull w || _); [intros [= <-]; exact Hw|].
  destruct v, w; intros [= <-] || intros Hr; try lf. destruct (_ || _); injection Hr as <-; [lf|apply sound_intRes].
Qed.
Lemma vdiv_sound v w r : S v -> S w -> vdiv v w = Ret r -> S r.
Proof.
  intros Hv Hw. unfold vdiv, nullOrEmpty. destruct (isNull v || _); [intros [= <-]; exact Hv|]. destruct (isNull w || _); [intros [= <-]; exact Hw|].
  destruct v, w; intros [= <-] || intros Hr; try lf; try (destruct (bigEnough _); injection Hr as <-; lf); try (destruct (negb _); injection Hr as <-; lf).
  destruct (_ =? 0) eqn:Z0; [injection Hr as <-; lf|]. destruct (_ && _); [injection Hr as <-; lf|]. unfold cdiv in Hr. rewrite Z0 in Hr.
  destruct (in_int64 _) eqn:Q; [|discriminate]. injection Hr as <-. apply sound_int, in64, Q.
Qed.
Lemma vmod_sound v w r : S v -> S w -> vmod X v w = Ret r -> S r.
Proof.
  intros Hv Hw. unfold vmod, nullOrEmpty. destruct (isNull v || _); [intros [= <-]; exact Hv|]. destruct (isNull w || _); [intros [= <-]; exact Hw|].
  destruct v, w; intros [= <-] || intros Hr; try lf; try (destruct (bigEnough _); injection Hr as <-; lf).
  - destruct (z0 =? 0) eqn:Z0; cbn [negb] in Hr; [injection Hr as <-; lf|]. unfold crem in Hr. rewrite Z0 in Hr. destruct (in_int64 _) eqn:Q; [|discriminate]. injection Hr as <-.
    apply sound_int. apply sound_here in Hv. cbn in Hv. unfold int64 in *. pose proof (Z.quot_rem' z z0). pose proof (Z.rem_bound_abs z z0 ltac:(lia)).
    pose proof (Z.rem_sign_mul z z0 ltac:(lia)). assert (Z.abs (Z.rem z z0) <= Z.abs z) by (rewrite <- Z.rem_abs by lia; apply Z.rem_le; lia). nia.
  - destruct (negb _); injection Hr as <-; lf.
Qed.
Lemma varith_sound o v w r : S v -> S w -> varith E o v w = Ret r -> S r.
Proof. destruct o; cbn [varith]; [apply vadd_sound|apply vsub_sound|apply vmul_sound|apply vdiv_sound|apply vmod_sound]. Qed.
Lemma vneg_sound v r : S v -> vneg v = Ret r -> S r.
Proof.
  intros Hv H. destruct v; cbn [vneg] in H; try (injection H as <-; assumption); try (injection H as <-; lf).
  destruct (_ =? _); [injection H as <-; lf|]. destruct (in_int64 _) eqn:Q; [|discriminate]. injection H as <-. apply sound_int, in64, Q.
Qed.
Definition scalar (v : value) : Prop := match v with VEmpty | VNull _ | VBool _ => True | _ => False end.
Lemma sound_scalar v : scalar v -> S v.
Proof. intros H. destruct v; try contradiction; lf. Qed.
Lemma vequal_scalar a b : scalar (vequal X a b).
Proof. unfold vequal. destruct (isEmpty a); [destruct (isNull b); exact I|]. destruct (_ || _); [exact I|]. destruct (_ && _); [exact I|]. destruct a, b; exact I. Qed.
Lemma vless_scalar a b : scalar (vlessThan X a b).
Proof. unfold vlessThan. destruct (_ || _); [destruct (_ || _); exact I|]. destruct (_ || _); [exact I|]. destruct (_ && _); [exact I|]. destruct a, b; exact I. Qed.
Lemma vnot_scalar a : scalar (vnot a). Proof. destruct a; exact I. Qed.
Lemma vor_scalar a b : scalar (vorOp a b). Proof. destruct a, b; exact I. Qed.
Lemma vand_scalar a b : scalar (vandOp a b). Proof. destruct a, b; exact I. Qed.
Lemma strings_scalar f a b : (forall s t, scalar (f s t)) -> scalar (onStrings f a b).
Proof. intros H. unfold onStrings. destruct (_ || _); [exact I|]. destruct (_ || _); [exact I|]. destruct a, b; try exact I. apply H. Qed.
Lemma containment_scalar p a b r : containment E p a b = Ret r -> scalar r.
Proof.
  unfold containment. intros H. match type of H with obind ?o _ = _ => destruct o as [v| | |] eqn:Q; try discriminate end. cbn [obind] in H.
  assert (Hv : scalar v).
  { destruct b; try (injection Q as <-; exact I).
    - destruct n; injection Q as <-; exact I.
    - injection Q as <-. destruct (listContains _ _ _); [exact I|]. destruct (listContains _ _ _); exact I.
    - injection Q as <-. destruct (mapContains m a); exact I.
    - destruct (setContains _ _ a) as [f| | |]; try discriminate. cbn [obind] in Q. destruct f; [injection Q as <-; exact I|].
      destruct (setContains _ _ kNull) as [f| | |]; try discriminate. cbn [obind] in Q. injection Q as <-. destruct f; exact I. }
  injection H as <-. destruct (_ && _); [exact I|exact Hv].
Qed.
Lemma vrel_sound o v w r : vrel E o v w = Ret r -> S r.
Proof.
  intros H. apply sound_scalar. destruct o; cbn [vrel] in H; try (injection H as <-); try apply vequal_scalar; try apply vless_scalar; try apply vnot_scalar; try apply vor_scalar; try apply vand_scalar;
    try exact (containment_scalar _ _ _ _ H); apply strings_scalar; intros s t; try exact I. destruct (eRegex E s t); exact I.
Qed.
Lemma strtoll_in s z n b : strtoll s = (z, n, b) -> int64 z.
Proof.
  unfold strtoll. destruct (skipBlanks s) as [n1 s1]. set (p3 := match s1 with 45 :: r => _ | _ => _ end). destruct p3 as [[n2 neg] s2].
  destruct (digits s2 0) as [n3 y]. unfold int64, int64_min, int64_max. change (2 ^ 63) with 9223372036854775808.
  destruct n3; [intros [= <- _ _]; lia|]. cbv zeta. set (v := if neg : bool then - y else y). clearbody v.
  destruct (v <? _) eqn:Q1; [intros [= <- _ _]; lia|]. destruct (_ <? v) eqn:Q2; intros [= <- _ _]; lia.
Qed.
Lemma f64toInt_in f z : f64toInt f = Ret z -> int64 z.
Proof. unfold f64toInt. destruct (f64trunc f); [|discriminate]. destruct (in_int64 _) eqn:Q; [|discriminate]. intros [= <-]. apply in64, Q. Qed.
Lemma castTo_sound t v r a : S v -> S r -> castTo E t v r = Ret a -> S (fst a) /\ S (snd a).
Proof.
  intros Hv Hr. unfold castTo. destruct (t =? 2); [|destruct (t =? 4); [|destruct (t =? 8); [|destruct (t =? 16)]]].
  - intros [= <-]. cbn [fst snd]. assert (S (vtoBool v)); [|auto]. apply sound_scalar. destruct v; try exact I. cbn [vtoBool]. destruct (strEqb _ _); [exact I|]. destruct (strEqb _ _); exact I.
  - destruct (vtoInt E v) as [x| | |] eqn:Q; try discriminate. intros [= <-]. cbn [fst snd]. assert (S x); [|auto].
    destruct v; cbn [vtoInt] in Q; try (injection Q as <-; first [assumption|lf]).
    + destruct (f64leb _ _); [injection Q as <-; lf; unfold typed, int64, int64_min; lia|]. destruct (f64leb _ _); [injection Q as <-; lf; unfold typed, int64, int64_max; lia|].
      destruct (f64toInt f) eqn:T; try discriminate. injection Q as <-. apply sound_int. exact (f64toInt_in _ _ T).
    + destruct (existsb _ _).
      * destruct (xstrtod _ _) as [d n]. destruct (f64toInt d) eqn:T; try discriminate. injection Q as <-. destruct (Nat.eqb _ _); [|lf]. apply sound_int. exact (f64toInt_in _ _ T).
      * destruct (strtoll _) as [[z n] b] eqn:T. injection Q as <-. destruct (negb _); [lf|]. destruct b; [lf|]. apply sound_int. exact (strtoll_in _ _ _ _ T).
  - intros [= <-]. cbn [fst snd]. assert (S (vtoFloat E v)); [|auto]. destruct v; try lf; try assumption. cbn [vtoFloat]. destruct (xstrtod _ _). destruct (Nat.eqb _ _); lf.
  - intros [= <-]. cbn [fst snd]. split; lf.
  - intros [= <-]. cbn [fst snd]. split; [lf|exact Hr].
Qed.
Lemma lookup_in A k (m : list (str * A)) v : lookup k m = Some v -> In v (map snd m).
Proof. induction m as [|[k' w] m IH]; cbn; [discriminate|]. destruct (strEqb k k'); [intros [= <-]; auto|]. intros H. right. now apply IH. Qed.
Lemma tagsProp_in k ts v : tagsProp ts k = Some v -> In v (flat_map tagVals ts).
Proof.
  induction ts as [|t ts IH]; cbn [tagsProp flat_map]; [discriminate|]. destruct (lookup k (tgprops t)) as [w|] eqn:L.
  - intros [= <-]. apply in_or_app. left. exact (lookup_in _ _ _ _ L).
  - intros H. apply in_or_app. right. exact (IH H).
Qed.
Lemma mapAt_sound m k : S (VMap m) -> S (mapAt m k).
Proof. intros H. unfold mapAt. destruct (lookup k m) eqn:L; [exact (sound_sub _ _ H (lookup_in _ _ _ _ L))|lf]. Qed.
Lemma edgeMember_sound e k v : S (VEdge e) -> edgeMember e k = Some v -> S v.
Proof.
  intros H. unfold edgeMember. destruct (strEqb _ _); [intros [= <-]; apply (sound_sub _ _ H); left; reflexivity|].
  destruct (strEqb _ _); [intros [= <-]; apply (sound_sub _ _ H); right; left; reflexivity|].
  destruct (strEqb _ _); [intros [= <-]; apply sound_int, (sound_here _ H)|]. destruct (strEqb _ _); [intros [= <-]; lf|discriminate].
Qed.
Lemma edgeProp_sound e k v : S (VEdge e) -> lookup k (eprops e) = Some v -> S v.
Proof. intros H L. apply (sound_sub _ _ H). right. right. exact (lookup_in _ _ _ _ L). Qed.
Lemma tagProp_sound x k v : S (VVertex x) -> tagsProp (vtags x) k = Some v -> S v.
Proof. intros H L. apply (sound_sub _ _ H). right. exact (tagsProp_in _ _ _ L). Qed.
Lemma vid_sound x : S (VVertex x) -> S (vvid x).
Proof. intros H. apply (sound_sub _ _ H). left. reflexivity. Qed.
Lemma subscript_sound l w a : S l -> subscript l w = Ret a -> S (fst a) /\ S (snd a).
Proof.
  intros Hl H. assert (N : S kNull) by lf. assert (Bt : S kBadType) by lf. assert (Or : S (VNull NOutOfRange)) by lf.
  destruct l; cbn [subscript] in H; try (injection H as <-; split; assumption).
  - destruct w; try (injection H as <-; split; assumption). destruct (strEqb _ _); injection H as <-; cbn [same fst snd].
    + split; now apply vid_sound.
    + split; [|exact N]. destruct (tagsProp _ _) eqn:L; [exact (tagProp_sound _ _ _ Hl L)|exact N].
  - destruct w; try (injection H as <-; split; assumption). destruct (underscored _); injection H as <-; cbn [same fst snd].
    + assert (S (match edgeMember e s with Some v => v | None => kNull end)); [|auto]. destruct (edgeMember _ _) eqn:L; [exact (edgeMember_sound _ _ _ Hl L)|exact N].
    + split; [|exact N]. destruct (lookup _ _) eqn:L; [exact (edgeProp_sound _ _ _ Hl L)|exact N].
  - destruct w; try (injection H as <-; split; assumption). destruct (_ || _); [injection H as <-; split; assumption|].
    destruct (nth_error _ _) eqn:L; [|discriminate]. injection H as <-. apply nth_error_In in L. cbn [same fst snd]. split; exact (sound_sub _ _ Hl L).
  - destruct w; try (injection H as <-; split; assumption). injection H as <-. split; now apply mapAt_sound.
  - destruct w; try (injection H as <-; split; assumption). destruct (_ || _); [injection H as <-; split; assumption|].
    destruct (nth_error _ _) as [row|] eqn:L; [|discriminate]. injection H as <-. apply nth_error_In in L.
    assert (S (VList row)); [|split; assumption]. apply sound_list, Forall_forall. intros x Hx. apply (sound_sub _ _ Hl). cbn [subvals]. apply in_concat. eauto.
Qed.
Lemma attrOf_sound l k : Forall (fun p => int64 (snd p)) l -> S (attrOf l k).
Proof.
  intros F. unfold attrOf. destruct (find _ l) eqn:Q; [|lf]. apply find_some in Q as [Q _]. rewrite Forall_forall in F. apply sound_int, F, Q.
Qed.
Lemma small8 z : int8 z -> int64 z. Proof. unfold int8, int64. change (2 ^ 7) with 128. change (2 ^ 63) with 9223372036854775808. lia. Qed.
Lemma small16 z : int16 z -> int64 z. Proof. unfold int16, int64. change (2 ^ 15) with 32768. change (2 ^ 63) with 9223372036854775808. lia. Qed.
Lemma small32 z : int32 z -> int64 z. Proof. unfold int32, int64. change (2 ^ 31) with 2147483648. change (2 ^ 63) with 9223372036854775808. lia. Qed.
Lemma smallBits n z : 0 <= n <= 62 -> bits n z -> int64 z.
Proof. unfold bits, int64. intros Hn H. assert (2 ^ n <= 2 ^ 62) by (apply Z.pow_le_mono_r; lia). change (2 ^ 62) with 4611686018427387904 in *. change (2 ^ 63) with 9223372036854775808. lia. Qed.
Lemma attribute_sound l w r a : S l -> S r -> attribute l w r = Ret a -> S (fst a) /\ S (snd a).
Proof.
  intros Hl Hr H. assert (Bt : S kBadType) by lf. assert (Up : S (VNull NUnknownProp)) by lf.
  destruct l; cbn [attribute] in H; try (injection H as <-; split; assumption); destruct w; try discriminate; injection H as <-.
  - pose proof (sound_here _ Hl) as (H1 & H2 & H3). assert (S (dateAttr d s)); [|split; assumption]. apply attrOf_sound. repeat apply Forall_cons; try apply Forall_nil; cbn [snd]; auto using small8, small16.
  - pose proof (sound_here _ Hl) as (H1 & H2 & H3 & H4). assert (S (timeAttr t s)); [|split; assumption]. apply attrOf_sound. repeat apply Forall_cons; try apply Forall_nil; cbn [snd]; auto using small8, small32.
  - pose proof (sound_here _ Hl) as (H1 & H2 & H3 & H4 & H5 & H6 & H7). assert (S (datetimeAttr t s)); [|split; assumption]. apply attrOf_sound.
    repeat apply Forall_cons; try apply Forall_nil; cbn [snd]; auto using small16; (eapply smallBits; [|eassumption]; lia).
  - destruct (strEqb _ _); cbn [same fst snd]; [split; now apply vid_sound|]. split; [|exact Hr]. destruct (tagsProp _ _) eqn:L; [exact (tagProp_sound _ _ _ Hl L)|exact Up].
  - destruct (underscored _); [destruct (edgeMember e s) eqn:L; [pose proof (edgeMember_sound _ _ _ Hl L)|]; split; assumption|]. cbn [fst snd]. split; [|exact Hr].
    destruct (lookup _ _) eqn:L; [exact (edgeProp_sound _ _ _ Hl L)|exact Up].
  - split; [now apply mapAt_sound|exact Hr].
Qed.
Lemma slice_sound l a b r : Forall S l -> slice l a b = Ret r -> Forall S r.
Proof.
  intros F H. unfold slice in H. cbv zeta in H. do 2 (match type of H with (if ?c then _ else _) = _ => destruct c; [injection H as <-; constructor|] end).
  match type of H with (if ?c then _ else _) = _ => destruct c; [|discriminate] end. injection H as <-.
  rewrite Forall_forall in *. intros x Hx. apply F. exact (In_firstn_skipn _ _ _ _ _ Hx).
Qed.

(** * Paths, maps and sets *)
Lemma typed_vertex x : S (VVertex x) -> typedVertex x.
Proof. exact (sound_here (VVertex x)). Qed.
Definition soundStep (s : step) : Prop := typedStep s /\ forall c, In c (stepVals s) -> S c.
Lemma path_parts p : S (VPath p) -> S (VVertex (psrc p)) /\ Forall soundStep (psteps p).
Proof.
  intros H. pose proof (sound_here _ H) as [T1 T2]. split.
  - apply sound_intro; [exact T1|]. intros c Hc. apply (sound_sub _ _ H). cbn [subvals]. apply in_or_app. now left.
  - rewrite Forall_forall in *. intros s Hs. split; [exact (T2 s Hs)|]. intros c Hc. apply (sound_sub _ _ H). cbn [subvals]. apply in_or_app. right. apply in_flat_map. eauto.
Qed.
Lemma path_join x l : S (VVertex x) -> Forall soundStep l -> S (VPath (mkPath x l)).
Proof.
  intros H F. rewrite Forall_forall in F. apply sound_intro.
  - split; [exact (typed_vertex _ H)|]. apply Forall_forall. intros s Hs. apply (F s Hs).
  - cbn [subvals]. unfold pathVals. cbn [psrc psteps]. intros c Hc. apply in_app_or in Hc as [Hc|Hc]; [exact (sound_sub (VVertex x) c H Hc)|].
    apply in_flat_map in Hc as (s & Hs & Hc). exact (proj2 (F s Hs) c Hc).
Qed.
Lemma bare_vertex v : S v -> S (VVertex (mkVertex v [])).
Proof. intros H. apply sound_intro; [constructor|]. intros c [<-|[]]. exact H. Qed.
Lemma setLast_sound l x : Forall soundStep l -> S (VVertex x) -> Forall soundStep (setLastDst l x).
Proof.
  intros F H. unfold setLastDst. destruct (rev l) as [|s r] eqn:R; [constructor|].
  assert (Forall soundStep (s :: r)) as F' by (rewrite <- R; apply Forall_rev; exact F). inversion F' as [|? ? [[T1 [T2 [T3 T4]]] Hs] Fr]; subst.
  apply Forall_app. split; [now apply Forall_rev|]. constructor; [|constructor]. split.
  - repeat split; cbn; auto; try apply T3; try apply T4. exact (typed_vertex _ H).
  - unfold stepVals. cbn [sdst sprops]. intros c Hc. apply in_app_or in Hc as [Hc|Hc]; [exact (sound_sub (VVertex x) c H Hc)|]. apply Hs. apply in_or_app. now right.
Qed.
Lemma vertexOf_sound v x : S v -> vertexOf v = Some x -> S (VVertex x).
Proof.
  intros H. destruct v; cbn [vertexOf]; try discriminate; intros [= <-]; try (apply bare_vertex; exact H); [exact H|]. exact (proj1 (path_parts _ H)).
Qed.
Lemma pathItem_sound odd l v r : Forall soundStep l -> S v -> pathItem E odd l v = Some r -> Forall soundStep r.
Proof.
  intros F Hv H.
  assert (G : (if odd then None else match l, vertexOf v with _ :: _, Some x => Some (setLastDst l x) | _, _ => None end) = Some r -> Forall soundStep r).
  { destruct odd; [discriminate|]. destruct l as [|s l']; [discriminate|]. destruct (vertexOf v) eqn:Q; [|discriminate]. intros [= <-]. apply setLast_sound; [exact F|]. exact (vertexOf_sound _ _ Hv Q). }
  destruct v; cbn [pathItem] in H; try exact (G H); clear G.
  - destruct (lastDstVid l); [|discriminate]. destruct (veq _ _ _); [|discriminate]. injection H as <-. now apply setLast_sound.
  - assert (N : Forall soundStep (l ++ [mkStep (mkVertex (edst e) []) (etype e) (ename e) (erank e) (eprops e)])).
    { apply Forall_app. split; [exact F|]. constructor; [|constructor]. pose proof (sound_here _ Hv) as (T1 & T2 & T3). split.
      - split; [constructor|]. cbn. auto.
      - cbn. intros c [<-|Hc]; apply (sound_sub _ _ Hv); [right; left; reflexivity|right; right; exact Hc]. }
    destruct (lastDstVid l); [destruct (veq _ _ _); [|discriminate]|]; injection H as <-; exact N.
  - apply path_parts in Hv as [H1 H2]. destruct (lastDstVid l); [destruct (veq _ _ _); [|discriminate]|]; injection H as <-; auto. apply Forall_app. split; [now apply setLast_sound|exact H2].
Qed.
Lemma lookup_none A k (m : list (str * A)) : lookup k m = None -> ~ In k (map fst m).
Proof.
  induction m as [|[k' w] m IH]; cbn; [auto|]. destruct (strEqb k k') eqn:Q; [discriminate|]. intros H [->|I]; [|exact (IH H I)].
  rewrite (proj2 (strEqb_eq k k) eq_refl) in Q. discriminate.
Qed.
Lemma nodup_snoc A (l : list A) x : NoDup l -> ~ In x l -> NoDup (l ++ [x]).
Proof.
  induction 1 as [|y l N _ IH]; cbn; intros H; [constructor; auto; constructor|]. constructor.
  - intros I. apply in_app_or in I as [I|[->|[]]]; auto.
  - apply IH. auto.
Qed.
Lemma buildMap_sound l : Forall (fun p => S (snd p)) l -> forall acc, S (VMap acc) -> S (VMap (buildMap l acc)).
Proof.
  induction 1 as [|[k v] l Hv _ IH]; intros acc Ha; [exact Ha|]. cbn [buildMap fst]. apply IH. destruct (lookup k acc) eqn:L; [exact Ha|]. apply sound_intro.
  - cbn [typed]. unfold keysDiffer. rewrite map_app. apply nodup_snoc; [exact (sound_here _ Ha)|exact (lookup_none _ _ _ L)].
  - cbn [subvals]. rewrite map_app. intros c Hc. apply in_app_or in Hc as [Hc|[<-|[]]]; [exact (sound_sub _ _ Ha Hc)|exact Hv].
Qed.
Lemma pairs_snoc A (R : A -> A -> Prop) l x : ForallOrdPairs R l -> Forall (fun p => R p x) l -> ForallOrdPairs R (l ++ [x]).
Proof.
  induction 1 as [|p l Hp _ IH]; cbn; intros F; [repeat constructor|]. inversion F; subst. constructor; [|now apply IH]. apply Forall_app. auto.
Qed.
Lemma buildSet_sound l : Forall S l -> forall acc r, S (VSet acc) -> buildSet E l acc = Ret r -> S (VSet r).
Proof.
  induction 1 as [|v l Hv _ IH]; intros acc r Ha H; cbn [buildSet] in H; [injection H as <-; exact Ha|].
  unfold setContains in H. destruct (vhash X v) as [h| | |] eqn:Hh; try discriminate. cbn [obind] in H.
  destruct (memberOf X v acc) eqn:Mm; [exact (IH _ _ Ha H)|]. refine (IH _ _ _ H). pose proof (sound_here _ Ha) as [T1 T2]. apply sound_intro.
  - split.
    + intros x Hx. apply in_app_or in Hx as [Hx|[<-|[]]]; [exact (T1 x Hx)|now exists h].
    + apply pairs_snoc; [exact T2|]. apply Forall_forall. intros p Hp [Q1 Q2]. assert (memberOf X v acc = true); [|congruence].
      unfold memberOf. apply existsb_exists. exists p. split; [exact Hp|]. now rewrite Q1, Q2.
  - cbn [subvals]. intros c Hc. apply in_app_or in Hc as [Hc|[<-|[]]]; [exact (sound_sub _ _ Ha Hc)|exact Hv].
Qed.
Lemma combine_sound (ks : list str) l : Forall S l -> Forall (fun p => S (snd p)) (combine ks l).
Proof. intros F. rewrite Forall_forall in *. intros [k v] H. exact (F v (in_combine_r _ _ _ _ H)). Qed.

(** * Computations *)
Context (HE : soundEnv E).
Definition inv (s : list cache * ctx) : Prop := Forall (kept S) (fst s) /\ holds S (snd s).
Definition safe {A} (m : M A) (Q : A -> Prop) : Prop := forall s a s', inv s -> m s = Ret (a, s') -> Q a /\ inv s'.
Definition safeEv (ev : evfn) : Prop := forall k c v k' c', kept S k -> holds S c -> ev k c = Ret (v, k', c') -> S v /\ kept S k' /\ holds S c'.
Definition both (a : value * value) : Prop := S (fst a) /\ S (snd a).
Definition any {A} (_ : A) : Prop := True.
Lemma safe_ret A (a : A) (Q : A -> Prop) : Q a -> safe (mret a) Q.
Proof. intros H s a' s' I0 R. injection R as <- <-. auto. Qed.
Lemma safe_bind A C (m : M A) (f : A -> M C) R Q : safe m R -> (forall a, R a -> safe (f a) Q) -> safe (mbind m f) Q.
Proof.
  intros H K s b s' I0 Rb. unfold mbind in Rb. destruct (m s) as [[a s1]| | |] eqn:Qm; try discriminate. destruct (H _ _ _ I0 Qm) as [Ra I1]. exact (K a Ra _ _ _ I1 Rb).
Qed.
Lemma safe_lift A (o : outcome A) (Q : A -> Prop) : (forall a, o = Ret a -> Q a) -> safe (mlift o) Q.
Proof. intros H s a s' I0 R. unfold mlift in R. destruct o; try discriminate. injection R as <- <-. auto. Qed.
Lemma getVar_sound c x : holds S c -> S (getVar E c x).
Proof.
  intros H. unfold getVar. induction H as [|[k v] c Hv _ IH]; [apply HE|]. cbn [lookup]. destruct (strEqb x k); [exact Hv|exact IH].
Qed.
Lemma safe_get x : safe (mget E x) S.
Proof. intros s a s' [I1 I2] R. injection R as <- <-. split; [now apply getVar_sound|split; auto]. Qed.
Lemma safe_set x v : S v -> safe (mset x v) any.
Proof. intros H s a s' [I1 I2] R. injection R as <- <-. split; [exact I|]. split; [exact I1|]. constructor; assumption. Qed.
Lemma kept_none : kept S noCache.
Proof. constructor; [lf|constructor]. Qed.
Lemma kept_nth i ks : Forall (kept S) ks -> kept S (nth i ks noCache).
Proof. intros F. revert i. induction F as [|k ks K _ IH]; intros [|i]; cbn; auto using kept_none. Qed.
Lemma kept_set i k : kept S k -> forall ks, Forall (kept S) ks -> Forall (kept S) (setNth i k ks).
Proof.
  intros K. induction i as [|i IH]; intros ks F; inversion F; subst; cbn; constructor; auto using kept_none.
Qed.
Lemma safe_child evs i : Forall safeEv evs -> safe (child evs i) S.
Proof.
  intros F [ks c] a s' [I1 I2] R. unfold child in R. cbn [fst snd] in *. destruct (nth_error evs i) as [ev|] eqn:N; [|discriminate].
  destruct (ev _ c) as [[[v k1] c1]| | |] eqn:Q; try discriminate. injection R as <- <-. rewrite Forall_forall in F.
  destruct (F ev (nth_error_In _ _ N) _ _ _ _ _ (kept_nth i ks I1) I2 Q) as (H1 & H2 & H3). split; [exact H1|]. split; [now apply kept_set|exact H3].
Qed.
Lemma safe_grand evs i : Forall safeEv evs -> safe (grandchild evs i) S.
Proof.
  intros F [ks c] a s' [I1 I2] R. unfold grandchild in R. cbn [fst snd] in *. pose proof (kept_nth 0 ks I1) as K0. destruct (nth 0 ks noCache) as [r1 k1]. inversion K0; subst.
  destruct (child evs i (k1, c)) as [[v [k2 c2]]| | |] eqn:Q; try discriminate. injection R as <- <-.
  destruct (safe_child evs i F _ _ _ (conj H2 I2 : inv (k1, c)) Q) as [H1' [H2' H3']]. split; [exact H1'|]. split; [|exact H3']. refine (kept_set 0 (Cache r1 k2) _ ks I1). now constructor.
Qed.
Ltac step := eapply safe_bind; [|intros ? ?].
Ltac ret := apply safe_ret.
Lemma safe_all evs : Forall safeEv evs -> safe (allChildren evs) (Forall S).
Proof.
  intros F. unfold allChildren. match goal with |- safe (?g _ _) _ => assert (K : forall n i, safe (g n i) (Forall S)) end; [|apply K].
  induction n as [|n IH]; intros i; [ret; constructor|]. step; [now apply safe_child|]. step; [apply IH|]. ret. now constructor.
Qed.
Lemma safe_andOr evs stop n : Forall safeEv evs -> forall i res, S res -> safe (evalAndOr evs stop n i res) S.
Proof.
  intros F. induction n as [|n IH]; intros i res H; cbn [evalAndOr]; [now ret|]. step; [now apply safe_child|].
  destruct (_ || _); [now ret|]. destruct (isBoolV a); [now apply IH|]. destruct (isNull a); [now apply IH|]. destruct (_ && _); [now apply IH|ret; lf].
Qed.
Lemma safe_xor evs n : Forall safeEv evs -> forall i he fi res, S res -> safe (evalXor evs n i he fi res) S.
Proof.
  intros F. induction n as [|n IH]; intros i he fi res H; cbn [evalXor]; [now ret|]. step; [now apply safe_child|].
  destruct (isNull a); [now ret|]. destruct a; try (ret; lf); [now apply IH|]. destruct he; [now apply IH|]. destruct fi; [apply IH; lf|].
  destruct res; try (apply safe_lift; discriminate). apply IH. lf.
Qed.
Lemma same_both v : S v -> both (same v). Proof. split; assumption. Qed.
Lemma pair_both v w : S v -> S w -> both (v, w). Proof. split; assumption. Qed.
Lemma safe_cases evs cond n d r : Forall safeEv evs -> S r -> safe d both -> forall i, safe (evalCases E evs cond n i d r) both.
Proof.
  intros F Hr D. induction n as [|n IH]; intros i; cbn [evalCases]; auto. step; [now apply safe_child|]. destruct cond as [cv|].
  - destruct (veq _ cv a); [|apply IH]. step; [now apply safe_child|]. ret. now apply same_both.
  - assert (K : safe (mret (kBadType, r)) both) by (ret; apply pair_both; [lf|exact Hr]).
    destruct a as [| |[]| | | | | | | | | | | | | ]; try exact K; try apply IH. step; [now apply safe_child|]. ret. now apply same_both.
Qed.
Lemma safe_quant q m iv l : Forall S l -> safe m S -> forall res, safe (evalQuant q m iv l res) both.
Proof.
  intros L F. assert (Bb : forall b, both (same (VBool b))) by (intros; apply same_both; lf).
  induction L as [|v l Hv L IH]; intros res; cbn [evalQuant]; [now ret|]. step; [exact (safe_set iv v Hv)|]. step; [exact F|].
  destruct (negb _); [ret; apply pair_both; lf|]. destruct q, (isTrue a0); try (ret; apply Bb); try apply IH. destruct res; [ret; apply Bb|apply IH].
Qed.
Definition soundOpt (o : option (list value)) : Prop := match o with Some l => Forall S l | None => True end.
Lemma safe_comp f m iv l : Forall S l -> match f with Some x => safe x S | None => True end -> match m with Some x => safe x S | None => True end -> safe (evalComp f m iv l) soundOpt.
Proof.
  intros L Hf Hm. induction L as [|v l Hv L IH]; cbn [evalComp]; [ret; constructor|]. step; [exact (safe_set iv v Hv)|].
  eapply safe_bind with (R := any); [destruct f; [step; [exact Hf|]|]; ret; exact I|]. intros keep _.
  destruct keep as [[]|]; [|exact IH|ret; exact I]. eapply safe_bind with (R := S); [destruct m; [exact Hm|now ret]|]. intros x Hx. step; [exact IH|]. ret. destruct a0; [now constructor|exact I].
Qed.
Lemma safe_reduce m acc iv l : Forall S l -> safe m S -> safe (evalReduce m acc iv l) any.
Proof.
  intros L H. induction L as [|v l Hv L IH]; cbn [evalReduce]; [ret; exact I|]. step; [exact (safe_set iv v Hv)|]. step; [exact H|]. step; [apply safe_set; assumption|]. exact IH.
Qed.
Lemma safe_path evs n : Forall safeEv evs -> forall i st, Forall soundStep st -> safe (evalPath E evs n i st) (fun o => match o with Some l => Forall soundStep l | None => True end).
Proof.
  intros F. induction n as [|n IH]; intros i st H; cbn [evalPath]; [now ret|]. step; [now apply safe_child|]. destruct (pathItem _ _ _ _) eqn:Q; [|ret; exact I].
  apply IH. exact (pathItem_sound _ _ _ _ H H0 Q).
Qed.
Lemma safe_node k r evs grands kinds : Forall safeEv evs -> Forall safeEv grands -> S r -> match k with KConst v => S v | _ => True end ->
  safe (evalNode E k r evs grands kinds) both.
Proof.
  intros F G Hr Hk. assert (CH : forall i, safe (child evs i) S) by (intros; now apply safe_child).
  assert (SB : forall v, S v -> safe (mret (same v)) both) by (intros; ret; now apply same_both).
  assert (PB : forall v, S v -> safe (mret (v, r)) both) by (intros; ret; now apply pair_both).
  assert (BT : S kBadType) by lf. assert (NU : S kNull) by lf. assert (BO : forall b, S (VBool b)) by (intros; lf).
  pose proof HE as (E1 & E2 & E3 & E4 & E5 & E6 & E7 & E8 & E9).
  destruct k; cbn [evalNode]; auto; try (apply safe_lift; discriminate).
  - step; [apply CH|]. step; [apply CH|]. step; [apply safe_lift; intros x; now apply varith_sound|]. now apply SB.
  - destruct o; try (step; [apply CH|]; now apply SB).
    + step; [apply CH|]. step; [apply safe_lift; intros x; now apply vneg_sound|]. now apply SB.
    + step; [apply CH|]. apply SB, sound_scalar, vnot_scalar.
    + assert (O1 : S one) by (apply sound_int; unfold int64; lia).
      destruct kinds as [|[] ?]; auto; try (apply safe_lift; discriminate); (step; [apply CH|]; try (apply safe_lift; discriminate)).
      step; [apply safe_lift; intros x; now apply vadd_sound|]. step; [apply safe_set; assumption|]. now apply SB.
    + assert (O1 : S one) by (apply sound_int; unfold int64; lia).
      destruct kinds as [|[] ?]; auto; try (apply safe_lift; discriminate); (step; [apply CH|]; try (apply safe_lift; discriminate)).
      step; [apply safe_lift; intros x; now apply vsub_sound|]. step; [apply safe_set; assumption|]. now apply SB.
  - step; [apply CH|]. step; [apply CH|]. step; [apply safe_lift; intros x; apply vrel_sound|]. now apply SB.
  - step; [apply CH|]. step; [apply CH|]. apply safe_lift. intros x. now apply subscript_sound.
  - step; [apply CH|]. destruct a; auto. apply sound_list in H.
    eapply safe_bind with (R := any); [destruct hasLo; [step; [apply CH|]|]; ret; exact I|]. intros lo _.
    match goal with |- safe (match ?x with _ => _ end) _ => destruct x as [[?|]|]; auto end.
    eapply safe_bind with (R := any); [destruct hasHi; [step; [apply CH|]|]; ret; exact I|]. intros hi _.
    match goal with |- safe (match ?x with _ => _ end) _ => destruct x as [[]|]; auto end.
    all: step; [apply safe_lift; intros x; now apply slice_sound|]; apply SB; now apply sound_list.
  - step; [apply CH|]. step; [apply CH|]. apply safe_lift. intros x. now apply attribute_sound.
  - destruct o; (step; [first [now apply safe_andOr|now apply safe_xor]|]; now apply SB).
  - step; [apply CH|]. apply safe_lift. intros x. now apply castTo_sound.
  - step; [now apply safe_all|]. step; [apply safe_lift; intros x Q; exact (E9 _ _ _ H Q)|]. now apply SB.
  - destruct p; try (apply SB; apply E6); try (apply PB; apply E6); try (apply PB; apply E5).
    intros s a s' I0 R. injection R as <- <-. split; [|exact I0]. apply pair_both; [apply E8, I0|exact Hr].
  - step; [apply safe_get|]. now apply PB.
  - destruct hasVersion; [|step; [apply safe_get|]; now apply PB]. step; [apply CH|]. destruct a; auto.
    intros s a s' I0 R. injection R as <- <-. split; [|exact I0]. apply pair_both; [apply E7, I0|exact Hr].
  - step; [now apply safe_all|]. apply SB. now apply sound_list.
  - step; [now apply safe_all|]. step; [apply safe_lift; intros x; apply buildSet_sound; [assumption|]|]; [|apply SB; exact H0].
    apply sound_intro; [split; [intros ? []|constructor]|intros ? []].
  - step; [now apply safe_all|]. apply SB. apply buildMap_sound; [now apply combine_sound|]. apply sound_intro; [constructor|intros ? []].
  - apply SB. lf.
  - assert (D : safe (if hasDefault then let! v := child evs (if hasCond then 1 else 0) in mret (same v) else mret (same kNull)) both) by (destruct hasDefault; [step; [apply CH|]|]; auto).
    destruct hasCond; [step; [apply CH|]|]; now apply safe_cases.
  - destruct (strEqb _ _).
    + step; [now apply safe_grand|]. step; [now apply safe_grand|]. apply SB. apply sound_scalar. unfold existsIn. destruct a0; try exact I. destruct a; exact I.
    + destruct (quantifierOf _); auto. step; [apply CH|]. destruct (_ || _); auto. destruct a; auto. apply safe_quant; [now apply sound_list|]. destruct hasFilter; [apply CH|apply safe_lift; discriminate].
  - step; [apply CH|]. destruct (_ || _); auto. destruct a; auto. destruct (_ && _); auto.
    step; [apply safe_comp; [now apply sound_list|destruct hasFilter|destruct hasMapping]; auto|]. destruct a; [apply SB; now apply sound_list|auto].
  - step; [apply CH|]. step; [apply CH|]. destruct (_ || _); auto. destruct a0; auto.
    step; [apply safe_set; assumption|]. step; [apply safe_reduce; [now apply sound_list|apply CH]|]. step; [apply safe_get|]. now apply SB.
  - destruct evs as [|e evs]; auto. step; [apply CH|]. destruct (vertexOf a) eqn:Q; auto. pose proof (vertexOf_sound _ _ H Q) as Hs.
    step; [apply safe_path; auto; destruct a; try constructor; exact (proj2 (path_parts _ H))|]. destruct a0; [apply SB; now apply path_join|]. apply PB. lf.
Qed.
Lemma safe_eval e : soundConsts X e -> safeEv (eval E e) /\ Forall (fun g => safeEv (eval E g)) (childrenOf e).
Proof.
  induction e as [k cs IH] using expr_ind'. unfold soundConsts. cbn [allNodes childrenOf]. rewrite fold_and_Forall. intros [Hk Hc]. rewrite Forall_forall in IH, Hc.
  assert (F : Forall (fun g => safeEv (eval E g)) cs) by (apply Forall_forall; intros x Hx; apply IH; auto; apply Hc, Hx).
  split; [|exact F]. intros [r ks] c v k' c' Hkp Hh R. rewrite eval_eq in R. inversion Hkp; subst.
  destruct (evalNode E k r _ _ _ (ks, c)) as [[[a r1] [k1 c1]]| | |] eqn:Q; try discriminate R. injection R as <- <- <-.
  assert (Sn : safe (evalNode E k r (map (eval E) cs) (match cs with Node _ gs :: _ => map (eval E) gs | [] => [] end) (map kindOf cs)) both).
  { apply safe_node; auto.
    - apply Forall_map. exact F.
    - destruct cs as [|[kd gs] rest]; [constructor|]. apply Forall_map. exact (proj2 (IH _ (or_introl eq_refl) (Hc _ (or_introl eq_refl)))). }
  destruct (Sn _ _ _ (conj H2 Hh : inv (ks, c)) Q) as [[S1 S2] [K1 K2]]. splits; auto. now constructor.
Qed.
End WithE.
