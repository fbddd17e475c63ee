(** Proofs for C188. *)
From Coq Require Import String List.
From Verif Require Import Prelude Trans ValueBase DateModel TimeModel ValueModel ValueProofs GraphModel ExprModel ExprSpec ExprProofs EvalModel EvalSpec EvalProofs ValueProps FuncModel FuncTableModel FuncTableProofs
  FaultSpec SoundSpec SoundProofs SoundFuncSpec.
Import ListNotations.
Local Open Scope list_scope.
Open Scope Z_scope.

Section Funcs.
Context (E : env) (W : world).
Notation X := (eX E).
Notation S := (sound X).
Ltac lf := apply sound_leaf; split; [reflexivity|try exact I].

Definition goodBody (f : oracle -> list value -> outcome value) : Prop :=
  forall o args v, soundClock o -> Forall S args -> Forall fitsMemory args -> f o args = Ret v -> S v.
Ltac args1 := match goal with H : Forall S (_ :: _) |- _ => inversion H; subst; clear H end.
Ltac open H := repeat args1; try discriminate H; try (injection H as <-; first [assumption|solve [lf]]).

Lemma i64_small z : - 2 ^ 62 <= z <= 2 ^ 62 -> int64 z.
Proof. unfold int64. change (2 ^ 63) with 9223372036854775808. change (2 ^ 62) with 4611686018427387904. lia. Qed.
Lemma wrap64_in z : int64 (wrap64 z).
Proof. apply in64. unfold wrap64, in_int64, int64_min, int64_max. lia. Qed.
Lemma abs_good : goodBody (det fAbs).
Proof.
  intros o args v _ Ha _ H. unfold det, fAbs in H. destruct args as [|a args]; [discriminate|]. destruct a; open H.
  destruct (z =? int64_min) eqn:Q; [discriminate|]. injection H as <-. match goal with K : S (VInt z) |- _ => apply sound_here in K; cbn [typed] in K; apply sound_int; unfold int64, int64_min in *; change (2 ^ 63) with 9223372036854775808 in *; lia end.
Qed.
Lemma bits_in f x y : (f = Z.land \/ f = Z.lor \/ f = Z.lxor) -> int64 x -> int64 y -> int64 (f x y).
Proof.
  assert (T : forall z, int64 z <-> forall i, 63 <= i -> Z.testbit z i = Z.testbit z 63).
  { intros z. unfold int64. split.
    - intros [A B] i Hi. destruct (Z_lt_le_dec z 0) as [N|N].
      + rewrite !Z.bits_above_log2_neg; try reflexivity; try lia; destruct (Z.eq_dec (Z.pred (- z)) 0) as [->|]; cbn; try lia; assert (Z.log2 (Z.pred (- z)) < 63); [apply Z.log2_lt_pow2; lia|lia|apply Z.log2_lt_pow2; lia|lia].
      + destruct (Z.eq_dec z 0) as [->|]; [now rewrite !Z.bits_0|]. assert (Z.log2 z < 63) by (apply Z.log2_lt_pow2; lia). rewrite !Z.bits_above_log2; try reflexivity; lia.
    - intros H. assert (G : Z.shiftr z 63 = if Z.testbit z 63 then -1 else 0).
      { apply Z.bits_inj'. intros n Hn. rewrite Z.shiftr_spec by lia. rewrite H by lia. destruct (Z.testbit z 63); [now rewrite Z.bits_m1|now rewrite Z.bits_0]. }
      rewrite Z.shiftr_div_pow2 in G by lia. change (2 ^ 63) with 9223372036854775808 in *. destruct (Z.testbit z 63); lia. }
  intros Hf Hx Hy. rewrite T in *. intros i Hi. destruct Hf as [->|[->| ->]]; [rewrite !Z.land_spec|rewrite !Z.lor_spec|rewrite !Z.lxor_spec]; now rewrite Hx, Hy.
Qed.
Lemma bit_good f : (f = Z.land \/ f = Z.lor \/ f = Z.lxor) -> goodBody (det (fBit f)).
Proof.
  intros Hf o args v _ Ha _ H. unfold det, fBit in H. destruct args as [|a [|b args]]; try discriminate. repeat args1. injection H as <-.
  destruct a, b; try solve [lf]. cbn. apply sound_int. apply bits_in; [exact Hf| |]; match goal with K : S (VInt ?z) |- int64 ?z => exact (sound_here _ _ K) end.
Qed.
Ltac leafy H := crunch H; injection H as <-; lf.
Lemma math_good g : goodBody (det (fMath W g)).
Proof. intros o args v _ _ _ H. unfold det, fMath in H. leafy H. Qed.
Lemma sqrt_good : goodBody (det (fSqrt W)).
Proof. intros o args v _ _ _ H. unfold det, fSqrt in H. leafy H. Qed.
Lemma log_good g : goodBody (det (fLog W g)).
Proof. intros o args v _ _ _ H. unfold det, fLog in H. leafy H. Qed.
Lemma hypot_good : goodBody (det (fHypot W)).
Proof. intros o args v _ _ _ H. unfold det, fHypot in H. destruct args as [|a [|b args]]; try discriminate. injection H as <-. destruct (_ && _); lf. Qed.
Lemma pow_good : goodBody (det (fPow W)).
Proof.
  intros o args v _ _ _ H. unfold det, fPow in H. destruct args as [|a [|b args]]; try discriminate. destruct (_ && _); [|injection H as <-; lf].
  destruct a; try (injection H as <-; solve [lf]). destruct b; try (injection H as <-; solve [lf]). destruct (f64toInt _) eqn:Q; try discriminate. injection H as <-. apply sound_int. exact (f64toInt_in _ _ Q).
Qed.
Lemma const_good c : goodBody (det (fConst c)).
Proof. intros o args v _ _ _ H. injection H as <-. lf. Qed.
Lemma radians_good : goodBody (det fRadians).
Proof.
  intros o args v _ Ha _ H. unfold det, fRadians in H. destruct args as [|a args]; [discriminate|].
  assert (G : obind (vmul a (VFloat kPi)) (fun p => vdiv p (VInt 180)) = Ret v -> S v).
  { destruct (vmul a (VFloat kPi)) eqn:Q; try discriminate. cbn [obind]. inversion Ha; subst. apply (vdiv_sound E).
    - revert Q. apply vmul_sound; [assumption|lf].
    - apply sound_int, i64_small. lia. }
  destruct a; try exact (G H); injection H as <-; lf.
Qed.
Lemma sign_good : goodBody (det fSign).
Proof. intros o args v _ _ _ H. unfold det, fSign in H. crunch H; injection H as <-; try solve [lf]; apply sound_int, i64_small; repeat match goal with |- context [if ?c then _ else _] => destruct c end; lia. Qed.
Lemma rand_good : goodBody fRand.
Proof. intros o args v _ _ _ H. injection H as <-. lf. Qed.
Lemma below_in w m : 0 <= m -> 0 <= below w m <= m.
Proof. intros H. unfold below. destruct (m =? 0) eqn:Q; [lia|]. pose proof (Z.mod_pos_bound w m). lia. Qed.
Lemma wrap32_in z : int64 (wrap32 z).
Proof. apply i64_small. change (2 ^ 62) with 4611686018427387904. unfold wrap32. lia. Qed.
Lemma rand32_good : goodBody fRand32.
Proof.
  intros o args v _ _ _ H. unfold fRand32 in H. destruct args as [|a [|b args]]; [injection H as <-; apply sound_int, wrap32_in| |].
  - destruct a; try (injection H as <-; solve [lf]). destruct (_ || _); injection H as <-; [lf|apply sound_int, wrap32_in].
  - destruct a; try (injection H as <-; solve [lf]). destruct b; try (injection H as <-; solve [lf]). destruct (_ || _) eqn:Q; [injection H as <-; lf|]. destruct (_ <=? _) eqn:Q2; injection H as <-; [lf|].
    apply sound_int, i64_small. change (2 ^ 62) with 4611686018427387904. pose proof (below_in (oRand32 o) (z0 - z)). lia.
Qed.
Lemma rand64_good : goodBody fRand64.
Proof.
  intros o args v _ _ _ H. unfold fRand64 in H. destruct args as [|a [|b args]]; [injection H as <-; apply sound_int, wrap64_in| |].
  - destruct a; try (injection H as <-; solve [lf]). destruct (_ <? _); injection H as <-; [lf|apply sound_int, wrap64_in].
  - destruct a; try (injection H as <-; solve [lf]). destruct b; try (injection H as <-; solve [lf]). destruct (_ || _) eqn:Q; injection H as <-; [lf|]. apply sound_int, wrap64_in.
Qed.
Lemma now_good : goodBody fNow.
Proof. intros o args v [Ho _] _ _ H. injection H as <-. apply sound_int, Ho. Qed.
Lemma lower_in b : 0 <= b < 256 -> 0 <= lowerByte b < 256.
Proof. unfold lowerByte. destruct (_ && _) eqn:Q; lia. Qed.
Lemma casecmp_in a : Forall (fun b => 0 <= b < 256) a -> forall b, Forall (fun b => 0 <= b < 256) b -> -256 <= casecmp a b <= 256.
Proof.
  induction 1 as [|x a Hx _ IH]; intros b Hb; destruct Hb as [|y b Hy Hb]; cbn [casecmp]; try lia.
  - pose proof (lower_in y Hy). lia.
  - pose proof (lower_in x Hx). lia.
  - destruct (_ =? _); [apply IH, Hb|]. pose proof (lower_in y Hy). pose proof (lower_in x Hx). lia.
Qed.
Lemma cstr_bytes (P : Z -> Prop) s : Forall P s -> Forall P (cstr s).
Proof. induction 1 as [|x s Hx _ IH]; cbn [cstr]; [constructor|]. destruct (x =? 0); constructor; assumption. Qed.
Lemma casecmp_good : goodBody (det fStrcasecmp).
Proof.
  intros o args v _ _ Hz H. unfold det, fStrcasecmp in H. destruct args as [|a [|b args]]; [discriminate|destruct a; discriminate|].
  destruct a; try (injection H as <-; solve [lf]). destruct b; try (injection H as <-; solve [lf]). injection H as <-. inversion Hz as [|? ? Z1 Hz']; subst. inversion Hz' as [|? ? Z2 _]; subst. apply proj2 in Z1, Z2.
  apply sound_int, i64_small. change (2 ^ 62) with 4611686018427387904. pose proof (casecmp_in _ (cstr_bytes _ _ Z1) _ (cstr_bytes _ _ Z2)). lia.
Qed.
Lemma onStr_good f : (forall s, exists t, f s = VStr t) -> goodBody (det (onStr f)).
Proof. intros Hf o args v _ _ _ H. unfold det, onStr in H. crunch H; injection H as <-; try solve [lf]. destruct (Hf s) as [t ->]. lf. Qed.
Lemma count_in A (l : list A) : count l -> int64 (sizeOf l).
Proof. unfold count, int64, sizeOf. change (2 ^ 63) with 9223372036854775808. lia. Qed.
Lemma length_good : goodBody (det fLength).
Proof.
  intros o args v _ _ Hz H. unfold det, fLength in H. destruct args as [|a args]; [discriminate|]. inversion Hz as [|? ? Z1 _]; subst.
  destruct a; injection H as <-; try solve [lf]; apply sound_int, count_in; [exact (proj1 Z1)|exact Z1].
Qed.
Lemma size_good : goodBody (det fSize).
Proof.
  intros o args v _ _ Hz H. unfold det, fSize in H. destruct args as [|a args]; [discriminate|]. inversion Hz as [|? ? Z1 _]; subst.
  destruct a; injection H as <-; try solve [lf]; apply sound_int, count_in; first [exact (proj1 Z1)|exact Z1].
Qed.
Lemma left_good : goodBody (det fLeft). Proof. intros o args v _ _ _ H. unfold det, fLeft in H. leafy H. Qed.
Lemma right_good : goodBody (det fRight). Proof. intros o args v _ _ _ H. unfold det, fRight in H. leafy H. Qed.
Lemma substr_good : goodBody (det fSubstr). Proof. intros o args v _ _ _ H. unfold det, fSubstr in H. leafy H. Qed.
Lemma lpad_good n : goodBody (det (fLpad n)). Proof. intros o args v _ _ _ H. unfold det, fLpad in H. leafy H. Qed.
Lemma rpad_good n : goodBody (det (fRpad n)). Proof. intros o args v _ _ _ H. unfold det, fRpad in H. leafy H. Qed.
Lemma replace_good : goodBody (det fReplace). Proof. intros o args v _ _ _ H. unfold det, fReplace in H. leafy H. Qed.
Lemma tostring_good : goodBody (det (fTostring X)). Proof. intros o args v _ _ _ H. unfold det, fTostring in H. leafy H. Qed.
Lemma isin_good : goodBody (det (fIsIn X)). Proof. intros o args v _ _ _ H. unfold det, fIsIn in H. leafy H. Qed.
Lemma near_good : goodBody (det fNear). Proof. intros o args v _ _ _ H. injection H as <-. lf. Qed.
Lemma cossim_good : goodBody (det (fCosSim W)). Proof. intros o args v _ _ _ H. unfold det, fCosSim in H. leafy H. Qed.
Lemma sameEdge_good : goodBody (det (fSameEdge X)). Proof. intros o args v _ _ _ H. unfold det, fSameEdge in H. leafy H. Qed.
Lemma sameVertex_good : goodBody (det (fSameVertex X)). Proof. intros o args v _ _ _ H. unfold det, fSameVertex in H. leafy H. Qed.
Lemma type_good : goodBody (det fType). Proof. intros o args v _ _ _ H. unfold det, fType in H. leafy H. Qed.
Lemma strs_sound l : S (VList (map VStr l)).
Proof. apply sound_list. apply Forall_forall. intros x Hx. apply in_map_iff in Hx as (s & <- & _). lf. Qed.
Lemma split_good : goodBody (det fSplit).
Proof. intros o args v _ _ _ H. unfold det, fSplit in H. crunch H; injection H as <-; first [apply strs_sound|lf]. Qed.
Lemma keys_good : goodBody (det fKeys).
Proof. intros o args v _ _ _ H. unfold det, fKeys in H. crunch H; injection H as <-; first [apply strs_sound|lf]. Qed.
Lemma tags_good : goodBody (det fTags).
Proof.
  intros o args v _ _ _ H. unfold det, fTags in H. crunch H; injection H as <-; try solve [lf]. apply sound_list. apply Forall_forall. intros x Hx. apply in_map_iff in Hx as (s & <- & _). lf.
Qed.
Lemma tobool_good : goodBody (det fTobool).
Proof. intros o args v _ _ _ H. unfold det, fTobool in H. destruct args as [|a args]; [discriminate|]. injection H as <-. destruct a; try solve [lf]. cbn [vtoBool]. destruct (strEqb _ _); [lf|]. destruct (strEqb _ _); lf. Qed.
Lemma tofloat_good : goodBody (det (fTofloat X)).
Proof. intros o args v _ _ _ H. unfold det, fTofloat in H. destruct args as [|a args]; [discriminate|]. injection H as <-. destruct a; try solve [lf]. cbn [vtoFloat]. destruct (xstrtod _ _). destruct (Nat.eqb _ _); lf. Qed.
Lemma toint_good : goodBody (det (fTointeger X)).
Proof.
  intros o args v _ Ha _ H. unfold det, fTointeger in H. destruct args as [|a args]; [discriminate|]. inversion Ha as [|? ? H1 _]; subst. change S with (sound (eX (convEnv X))) in *.
  refine (proj1 (castTo_sound (convEnv X) 4 a VEmpty (v, v) H1 _ _)); [lf|]. unfold castTo. cbn [Z.eqb Pos.eqb]. rewrite H. reflexivity.
Qed.
Lemma hash_good : goodBody (det (fHash X)).
Proof.
  intros o args v _ _ _ H. unfold det, fHash in H. destruct args as [|a args]; [discriminate|].
  assert (G : obind (vhash X a) (fun h => Ret (VInt (wrap64 h))) = Ret v -> S v) by (destruct (vhash X a); try discriminate; intros [= <-]; apply sound_int, wrap64_in).
  destruct a; try exact (G H); injection H as <-; lf.
Qed.
(** * Dates *)
Lemma toDT s d : unixSecondsToDateTime s = Ret d -> S (VDateTime d) /\ dmicro d = 0.
Proof.
  unfold unixSecondsToDateTime. destruct (Z.rem s kSecondsOfDay <? 0); (destruct (yearLoop _ _ _) as [[y ds]| | |]; try discriminate; cbn [obind]; destruct (monthLoop _ _ _ _) as [mi| | |]; try discriminate; cbn [obind];
    destruct (arr _ _) as [b| | |]; try discriminate; cbn [obind]; intros [= <-]; split; [|reflexivity]; lf; cbn [typed dyear dmonth dday dhour dminute dsec dmicro]; split; [apply wrap16_in|];
    unfold bits; repeat split; try (apply Z.mod_pos_bound; reflexivity); try lia).
Qed.
Lemma micro_sound d us : S (VDateTime d) -> bits 22 us -> S (VDateTime (setMicro d us)).
Proof. intros H Hu. apply sound_here in H. destruct d. cbn in *. lf. cbn. tauto. Qed.
Lemma millis_in o : soundClock o -> bits 22 (oMillis o * 1000).
Proof. intros [_ H]. unfold bits. change (2 ^ 22) with 4194304. lia. Qed.
Lemma date_of d : S (VDateTime d) -> S (VDate (mkDate (dyear d) (dmonth d) (dday d))).
Proof.
  intros H. apply sound_here in H. destruct d. cbn in *. lf. cbn. unfold int8, bits in *. change (2 ^ 7) with 128. change (2 ^ 4) with 16 in *. change (2 ^ 5) with 32 in *. splits; try apply H; lia.
Qed.
Lemma time_of d us : S (VDateTime d) -> bits 22 us -> S (VTime (mkTime (dhour d) (dminute d) (dsec d) us)).
Proof.
  intros H Hu. apply sound_here in H. destruct d. cbn in *. lf. cbn. unfold int8, int32, bits in *. change (2 ^ 31) with 2147483648. change (2 ^ 7) with 128. change (2 ^ 4) with 16 in *. change (2 ^ 5) with 32 in *. change (2 ^ 6) with 64 in *. change (2 ^ 22) with 4194304 in *. splits; lia.
Qed.
Lemma fromMap_sound ok m : forall d r, S (VDateTime d) -> fromMapLoop ok m d = Some r -> S (VDateTime r).
Proof.
  induction m as [|[k v] m IH]; intros d r Hd H; cbn [fromMapLoop] in H; [injection H as <-; exact Hd|].
  destruct v; try discriminate. destruct (ok k); [|discriminate]. destruct (fieldRange k) as [[lo hi]|] eqn:R; [|discriminate]. destruct (_ || _) eqn:Q; [discriminate|]. refine (IH _ _ _ H).
  apply sound_here in Hd. destruct d as [y mo da h mi sc us]. cbn [typed dyear dmonth dday dhour dminute dsec dmicro] in Hd. unfold fieldRange in R. unfold setField.
  repeat (destruct (strEqb k _); [injection R as <- <-; lf; unfold typed; cbn [dyear dmonth dday dhour dminute dsec dmicro]; unfold int16, bits in *; change (2 ^ 15) with 32768 in *;
    change (2 ^ 4) with 16 in *; change (2 ^ 5) with 32 in *; change (2 ^ 6) with 64 in *; change (2 ^ 22) with 4194304 in *; splits; lia|]). discriminate.
Qed.
Lemma dt0_sound : S (VDateTime dt0).
Proof. lf. unfold typed, dt0; cbn [dyear dmonth dday dhour dminute dsec dmicro]; unfold int16, bits. splits; lia. Qed.
Lemma date_good : goodBody (fDate W).
Proof.
  intros o args v Ho _ _ H. unfold fDate in H. destruct args as [|a [|]]; [| |destruct a; discriminate].
  - destruct (_ =? _); [injection H as <-; lf|]. unfold utcDate, unixSecondsToDate in H. destruct (unixSecondsToDateTime _) as [d| | |] eqn:Q; try discriminate. injection H as <-.
    apply date_of, (toDT _ _ Q).
  - destruct a; try (injection H as <-; solve [lf]).
    + unfold parseDate in H. destruct (wGetDate W s); [|injection H as <-; lf]. cbv zeta in H. destruct (validateDate _) as [[]| | |]; try discriminate; injection H as <-; [|lf].
      lf. cbn. splits; [apply wrap16_in|apply wrap8_in|apply wrap8_in].
    + unfold dateFromMap in H. destruct (fromMapLoop _ _ _) as [d|] eqn:Q; [|injection H as <-; lf]. cbv zeta in H. destruct (validateDate _) as [[]| | |]; try discriminate; injection H as <-; [|lf].
      apply date_of. exact (fromMap_sound _ _ _ _ dt0_sound Q).
Qed.
Lemma shiftT off t u : S (VTime t) -> timeShift t off = Ret u -> S (VTime u).
Proof.
  intros Ht. unfold timeShift. destruct (off =? 0); [intros [= <-]; exact Ht|]. destruct (addI64 _ _) as [s| | |]; try discriminate. cbn [obind]. unfold unixSecondsToTime.
  destruct (unixSecondsToDateTime s) as [d| | |] eqn:Q; try discriminate. intros [= <-]. apply toDT in Q as [Q _]. apply sound_here in Q. apply sound_here in Ht. destruct d, t. cbn in *.
  lf. cbn. unfold int8, bits in *. change (2 ^ 7) with 128. change (2 ^ 5) with 32 in *. change (2 ^ 6) with 64 in *. splits; try apply Ht; lia.
Qed.
Lemma time_good : goodBody (fTime W).
Proof.
  intros o args v Ho _ _ H. unfold fTime in H. cbv zeta in H.
  assert (G : forall r, (forall t, r = Some t -> S (VTime t)) -> match r with Some t => obind (timeToUTC (wOffset W) t) (fun u => Ret (VTime u)) | None => Ret (VNull NBadData) end = Ret v -> S v).
  { intros [t|] Hr Hc; [|injection Hc as <-; lf]. unfold timeToUTC in Hc. destruct (timeShift _ _) as [u| | |] eqn:Q; try discriminate. injection Hc as <-. exact (shiftT _ _ _ (Hr t eq_refl) Q). }
  destruct args as [|a [|]]; [| |destruct a; discriminate].
  - unfold utcTime, unixSecondsToTime in H. destruct (unixSecondsToDateTime _) as [d| | |] eqn:Q; try discriminate. injection H as <-. apply toDT in Q as [Q _]. cbn [thour tminute tsec]. apply time_of; [exact Q|exact (millis_in o Ho)].
  - destruct a; try (injection H as <-; solve [lf]); refine (G _ _ H); intros t R.
    + unfold parseTime in R. destruct (wGetTime W s); [|discriminate]. injection R as <-. lf. cbn. splits; try apply wrap8_in; unfold int32; lia.
    + unfold timeFromMap in R. destruct (fromMapLoop _ _ _) as [d|] eqn:Q; [|discriminate]. injection R as <-. apply (fromMap_sound _ _ _ _ dt0_sound) in Q. apply time_of; [exact Q|]. apply sound_here in Q. apply Q.
Qed.
Lemma parseDT s r d : parseDateTime W s = Ret r -> r = Some d -> S (VDateTime d).
Proof.
  unfold parseDateTime. destruct (wGetDateTime W s); [|intros [= <-]; discriminate]. cbv zeta. destruct (validateDateTime _) as [[]| | |]; try discriminate; intros [= <-]; [|discriminate]. intros [= <-].
  lf. unfold typed; cbn [dyear dmonth dday dhour dminute dsec dmicro]. splits; try apply wrap16_in; unfold bits; try (apply Z.mod_pos_bound; reflexivity); lia.
Qed.
Lemma datetime_good : goodBody (fDatetime W).
Proof.
  intros o args v Ho _ _ H. unfold fDatetime in H. cbv zeta in H.
  assert (G : forall r, (forall t, r = Some t -> S (VDateTime t)) -> match r with Some t => obind (dateTimeToUTC (wOffset W) t) (fun u => Ret (VDateTime u)) | None => Ret (VNull NBadData) end = Ret v -> S v).
  { intros [t|] Hr Hc; [|injection Hc as <-; lf]. specialize (Hr t eq_refl). unfold dateTimeToUTC, dateTimeShift in Hc. destruct (_ =? 0); [injection Hc as <-; exact Hr|].
    destruct (dateTimeToUnixSeconds t) as [s| | |]; try discriminate. cbn [obind] in Hc. destruct (addI64 _ _) as [s'| | |]; try discriminate. cbn [obind] in Hc. destruct (unixSecondsToDateTime s') as [d| | |] eqn:Q; try discriminate.
    injection Hc as <-. apply micro_sound; [exact (proj1 (toDT _ _ Q))|]. apply sound_here in Hr. apply Hr. }
  destruct args as [|a [|]]; [| |destruct a; discriminate].
  - unfold utcDateTime in H. destruct (unixSecondsToDateTime _) as [d| | |] eqn:Q; try discriminate. injection H as <-. apply toDT in Q as [Q _]. apply micro_sound; [exact Q|exact (millis_in o Ho)].
  - destruct a; try (injection H as <-; solve [lf]).
    + destruct (parseDateTime W s) as [r| | |] eqn:Q; try discriminate. cbn [obind] in H. refine (G r _ H). intros t R. exact (parseDT _ _ _ Q R).
    + destruct (dateTimeFromMap m) as [r| | |] eqn:Q; try discriminate. cbn [obind] in H. refine (G r _ H). intros t ->. unfold dateTimeFromMap in Q. destruct (fromMapLoop _ _ _) as [d|] eqn:R; [|discriminate].
      destruct (validateDateTime _) as [[]| | |]; try discriminate. injection Q as <-. exact (fromMap_sound _ _ _ _ dt0_sound R).
Qed.
Lemma timestamp_good : goodBody (fTimestamp W).
Proof.
  intros o args v Ho _ _ H. unfold fTimestamp in H. destruct args as [|a args]; [injection H as <-; apply sound_int, Ho|].
  assert (G : forall z r, checkTimestamp z = Some r -> int64 r).
  { intros z r. unfold checkTimestamp, kMaxTimestamp, int64_max. destruct (_ || _) eqn:Q; [discriminate|]. intros [= <-]. apply i64_small. change (2 ^ 62) with 4611686018427387904. change (9223372036854775807 / 1000000000) with 9223372036 in Q. lia. }
  destruct (toTimestamp W a) as [[z|]| | |] eqn:Q; try discriminate; injection H as <-; [|lf]. apply sound_int. unfold toTimestamp in Q. destruct a; try discriminate.
  - injection Q as Q. exact (G _ _ Q).
  - destruct (parseDateTime W s) as [[d|]| | |]; try discriminate. cbn [obind] in Q. destruct (negb _); [discriminate|]. destruct (dateTimeToUnixSeconds d); try discriminate. injection Q as Q. exact (G _ _ Q).
Qed.
(** * Lists, vertices, edges and paths *)
Lemma rangeLoop_sound fuel : forall i last step acc r, int64 i -> Forall S acc -> rangeLoop fuel i last step acc = Ret r -> Forall S r.
Proof.
  induction fuel as [|f IH]; intros i last step acc r Hi Ha H; cbn [rangeLoop] in H; [discriminate|]. destruct (if 0 <? step then _ else _); [|injection H as <-; exact Ha].
  destruct (in_int64 _) eqn:Q; [|discriminate]. apply (IH _ _ _ _ _ (proj1 (in64 _) Q)) in H; [exact H|]. apply Forall_app. split; [exact Ha|]. constructor; [apply sound_int, Hi|constructor].
Qed.
Lemma range_good n : goodBody (det (fRange n)).
Proof.
  intros o args v _ Ha _ H. unfold det, fRange in H. cbv zeta in H.
  assert (G : forall i last step, S (VInt i) -> (if step =? 0 then Ret (VNull NBadData) else obind (rangeLoop n i last step []) (fun l => Ret (VList l))) = Ret v -> S v).
  { intros i last step Hi K. destruct (step =? 0); [injection K as <-; lf|]. destruct (rangeLoop _ _ _ _ _) eqn:Q; try discriminate. injection K as <-. apply sound_list. exact (rangeLoop_sound _ _ _ _ [] _ (sound_here _ _ Hi) (Forall_nil _) Q). }
  destruct args as [|a [|b [|c [|d args]]]]; [discriminate|destruct a; discriminate| | |]; repeat args1.
  - destruct a; try (injection H as <-; solve [lf]). destruct b; try (injection H as <-; solve [lf]). refine (G z z0 1 _ H); assumption.
  - destruct a; try (injection H as <-; solve [lf]). destruct b; try (injection H as <-; solve [lf]). destruct c; try (injection H as <-; solve [lf]). refine (G z z0 z1 _ H); assumption.
  - destruct a; try (injection H as <-; solve [lf]). destruct b; try (injection H as <-; solve [lf]). destruct c; injection H as <-; lf.
Qed.
Lemma reverse_good : goodBody (det fReverse).
Proof.
  intros o args v _ Ha _ H. unfold det, fReverse in H. destruct args as [|a args]; [discriminate|]. destruct a; open H. injection H as <-.
  apply sound_list. apply Forall_rev. now apply sound_list.
Qed.
Lemma head_good : goodBody (det fHead).
Proof. intros o args v _ Ha _ H. unfold det, fHead in H. destruct args as [|a args]; [discriminate|]. destruct a; open H. destruct l; [discriminate|]. injection H as <-. apply (sound_sub E (VList (v0 :: l))); [assumption|left; reflexivity]. Qed.
Lemma last_good : goodBody (det fLast).
Proof.
  intros o args v _ Ha _ H. unfold det, fLast in H. destruct args as [|a args]; [discriminate|]. destruct a; open H. destruct (rev l) eqn:R; [discriminate|]. injection H as <-.
  apply (sound_sub E (VList l)); [assumption|]. cbn [subvals]. apply in_rev. rewrite R. left. reflexivity.
Qed.
Lemma tail_good : goodBody (det fTail).
Proof. intros o args v _ Ha _ H. unfold det, fTail in H. destruct args as [|a args]; [discriminate|]. destruct a; open H. injection H as <-. apply sound_list. destruct l; [constructor|]. match goal with K : S (VList _) |- _ => apply sound_list in K; inversion K; assumption end. Qed.
Lemma coalesce_good : goodBody (det (fCoalesce X)).
Proof.
  intros o args v _ Ha _ H. unfold det, fCoalesce in H. destruct args as [|a args]; [discriminate|]. destruct a; open H. injection H as <-. match goal with K : S (VList _) |- _ => apply sound_list in K; induction K end; cbn [firstNotNull]; [lf|]. destruct (negb _); assumption.
Qed.
Lemma insertAll_sound ps : Forall (fun p => S (snd p)) ps -> forall acc, S (VMap acc) -> S (VMap (insertAll acc ps)).
Proof. intros H acc Ha. apply (buildMap_sound E ps H) in Ha. replace (insertAll acc ps) with (buildMap ps acc); [exact Ha|]. clear. revert acc. induction ps as [|[k v] ps IH]; intros acc; [reflexivity|]. cbn. apply IH. Qed.
Lemma properties_good : goodBody (det fProperties).
Proof.
  intros o args v _ Ha _ H. unfold det, fProperties in H. destruct args as [|a args]; [discriminate|]. destruct a as [| | | | | | | | |x|e| | | | |]; open H; injection H as <-.
  - assert (G : forall ts acc, (forall c, In c (flat_map tagVals ts) -> S c) -> S (VMap acc) -> S (VMap (fold_left (fun m t => insertAll m (tgprops t)) ts acc))).
    { induction ts as [|t ts IH]; intros acc Ht Hm; [exact Hm|]. cbn [fold_left]. apply IH; [intros c Hc; apply Ht; cbn [flat_map]; apply in_or_app; now right|]. apply insertAll_sound; [|exact Hm].
      apply Forall_forall. intros [k v] Hv. apply Ht. cbn [flat_map]. apply in_or_app. left. unfold tagVals. apply in_map_iff. exists (k, v). auto. }
    apply G; [|apply sound_intro; [constructor|intros c []]]. intros c Hc. match goal with K : S (VVertex x) |- _ => apply (sound_sub E _ _ K) end. right. exact Hc.
  - match goal with K : S (VEdge e) |- _ => apply sound_intro; [apply (sound_here _ _ K)|intros c Hc; apply (sound_sub _ _ _ K); right; right; exact Hc] end.
Qed.
Lemma id_good : goodBody (det fId).
Proof. intros o args v _ Ha _ H. unfold det, fId in H. destruct args as [|a args]; [discriminate|]. destruct a; open H. injection H as <-. now apply vid_sound. Qed.
Lemma typeid_good : goodBody (det fTypeid).
Proof. intros o args v _ Ha _ H. unfold det, fTypeid in H. destruct args as [|a args]; [discriminate|]. destruct a; open H. injection H as <-. apply sound_int, small32. match goal with K : S (VEdge _) |- _ => apply (sound_here _ _ K) end. Qed.
Lemma rank_good : goodBody (det fRank).
Proof. intros o args v _ Ha _ H. unfold det, fRank in H. destruct args as [|a args]; [discriminate|]. destruct a; open H. injection H as <-. apply sound_int. match goal with K : S (VEdge _) |- _ => apply (sound_here _ _ K) end. Qed.
Lemma ends_sound e : S (VEdge e) -> S (esrc e) /\ S (edst e).
Proof. intros H. split; apply (sound_sub _ _ _ H); [left; reflexivity|right; left; reflexivity]. Qed.
Lemma src_good : goodBody (det fSrc).
Proof. intros o args v _ Ha _ H. unfold det, fSrc in H. destruct args as [|a args]; [discriminate|]. destruct a; open H. injection H as <-. match goal with K : S (VEdge _) |- _ => destruct (ends_sound _ K) end. destruct (_ <? _); assumption. Qed.
Lemma dst_good : goodBody (det fDst).
Proof. intros o args v _ Ha _ H. unfold det, fDst in H. destruct args as [|a args]; [discriminate|]. destruct a; open H. injection H as <-. match goal with K : S (VEdge _) |- _ => destruct (ends_sound _ K) end. destruct (_ <? _); assumption. Qed.
Lemma step_vertex s : soundStep E s -> S (VVertex (sdst s)).
Proof. intros [T H]. apply sound_intro; [apply T|]. intros c Hc. apply H. apply in_or_app. now left. Qed.
Lemma start_good : goodBody (det fStartNode).
Proof.
  intros o args v _ Ha _ H. unfold det, fStartNode in H. destruct args as [|a args]; [discriminate|]. destruct a; open H; injection H as <-.
  - apply bare_vertex. match goal with K : S (VEdge _) |- _ => apply (ends_sound _ K) end.
  - match goal with K : S (VPath _) |- _ => apply (path_parts _ _ K) end.
Qed.
Lemma end_good : goodBody (det fEndNode).
Proof.
  intros o args v _ Ha _ H. unfold det, fEndNode in H. destruct args as [|a args]; [discriminate|]. destruct a; open H; injection H as <-.
  - apply bare_vertex. match goal with K : S (VEdge _) |- _ => apply (ends_sound _ K) end.
  - match goal with K : S (VPath _) |- _ => apply path_parts in K as [K1 K2] end. destruct (rev _) eqn:R; [exact K1|]. apply step_vertex. rewrite Forall_forall in K2. apply K2. apply in_rev. change step with (stepR value). rewrite R. now left.
Qed.
Lemma nodes_good : goodBody (det fNodes).
Proof.
  intros o args v _ Ha _ H. unfold det, fNodes in H. destruct args as [|a args]; [discriminate|]. destruct a; open H; injection H as <-.
  match goal with K : S (VPath _) |- _ => apply path_parts in K as [K1 K2] end. apply sound_list. constructor; [exact K1|]. apply Forall_map. revert K2. apply Forall_impl. intros s. apply step_vertex.
Qed.
Lemma relLoop_sound l : Forall (soundStep E) l -> forall v, S v -> Forall S (relLoop v l).
Proof.
  induction 1 as [|s l Hs _ IH]; intros v Hv; cbn [relLoop]; [constructor|]. pose proof (vid_sound _ _ (step_vertex s Hs)) as Hd. destruct Hs as [(T1 & T2 & T3 & T4) Hs]. constructor; [|now apply IH].
  apply sound_intro; [exact (conj T2 (conj T3 T4))|]. cbn. intros c [<-|[<-|Hc]]; auto. apply Hs. apply in_or_app. now right.
Qed.
Lemma relationships_good : goodBody (det fRelationships).
Proof.
  intros o args v _ Ha _ H. unfold det, fRelationships in H. destruct args as [|a args]; [discriminate|]. destruct a; open H; injection H as <-.
  match goal with K : S (VPath _) |- _ => apply path_parts in K as [K1 K2] end. apply sound_list. apply relLoop_sound; [exact K2|]. now apply vid_sound.
Qed.
Lemma neg_in t r : int32 t -> negType t = Ret r -> int32 r.
Proof. unfold negType, int32, int32_min. change (2 ^ 31) with 2147483648. destruct (_ =? _) eqn:Q; [discriminate|]. intros H [= <-]. lia. Qed.
Lemma turned s d t r : soundStep E s -> S (VVertex d) -> negType (stype s) = Ret t -> r = setType (setDst s d) t -> soundStep E r.
Proof.
  intros [(T1 & T2 & T3 & T4) Hs] Hd N ->. split.
  - exact (conj (typed_vertex _ _ Hd) (conj T2 (conj (neg_in _ _ T3 N) T4))).
  - unfold stepVals. cbn [setType setDst sdst sprops]. intros c Hc. apply in_app_or in Hc as [Hc|Hc]; [exact (sound_sub E (VVertex d) c Hd Hc)|]. apply Hs. apply in_or_app. now right.
Qed.
Lemma reverseLoop_sound l : Forall (soundStep E) l -> forall d r, S (VVertex d) -> reverseLoop d l = Ret r -> Forall (soundStep E) r.
Proof.
  induction 1 as [|s l Hs Hl IH]; intros d r Hd H; cbn [reverseLoop] in H; [injection H as <-; constructor|]. destruct l as [|s2 l].
  - destruct (negType _) as [t| | |] eqn:N; try discriminate. injection H as <-. constructor; [|constructor]. exact (turned _ _ _ _ Hs Hd N eq_refl).
  - destruct (negType _) as [t| | |] eqn:N; try discriminate. cbn [obind] in H. destruct (reverseLoop d (s2 :: l)) as [r'| | |] eqn:R; try discriminate. injection H as <-. constructor; [|exact (IH d r' Hd R)].
    inversion Hl; subst. refine (turned _ _ _ _ Hs _ N eq_refl). now apply step_vertex.
Qed.
Lemma reversePath_good : goodBody (det fReversePath).
Proof.
  intros o args v _ Ha _ H. unfold det, fReversePath in H. destruct args as [|a args]; [discriminate|]. destruct a; open H. unfold pathReverse in H.
  match goal with K : S (VPath ?p) |- _ => pose proof (path_parts _ _ K) as [K1 K2]; destruct (rev (psteps p)) as [|s rest] eqn:R; [injection H as <-; exact K|] end.
  apply Forall_rev in K2. change step with (stepR value) in K2. rewrite R in K2. destruct (reverseLoop _ _) as [l| | |] eqn:Q; try discriminate. injection H as <-. apply path_join; [inversion K2; subst; now apply step_vertex|]. exact (reverseLoop_sound _ K2 _ _ K1 Q).
Qed.
Lemma rowCol_good : goodBody (det fRowCol).
Proof.
  intros o args v _ Ha _ H. unfold det, fRowCol in H. cbv zeta in H. destruct args as [|a args]; [discriminate|]. inversion Ha as [|? ? H1 _]; subst.
  assert (G : forall d row col, a = VDataSet d -> (if (sizeOf (drows d) <? 1) || (sizeOf (dcols d) <? 1) then Ret (VNull NBadData)
    else if (row <? 0) || (col <? 0) then Ret (VNull NBadData)
    else if (sizeOf (drows d) <=? row) || (sizeOf (dcols d) <=? col) then Ret (VNull NBadData)
    else match nth_error (drows d) (Z.to_nat row) with
         | None => UB
         | Some r => match nth_error r (Z.to_nat col) with None => UB | Some v => Ret v end
         end) = Ret v -> S v).
  { intros d row col -> K. do 3 (destruct (_ || _); [injection K as <-; lf|]). destruct (nth_error _ _) as [r|] eqn:N1; [|discriminate]. destruct (nth_error r _) as [w|] eqn:N2; [|discriminate]. injection K as <-.
    apply (sound_sub _ _ _ H1). cbn [subvals]. apply in_concat. exists r. split; [exact (nth_error_In _ _ N1)|exact (nth_error_In _ _ N2)]. }
  destruct args as [|b [|c [|]]]; try (destruct a; discriminate); try (destruct a, b; discriminate).
  - destruct a; try (injection H as <-; solve [lf]). destruct b; try (injection H as <-; solve [lf]). destruct c; try (injection H as <-; solve [lf]); exact (G _ _ _ eq_refl H).
  - destruct a; try discriminate; destruct b; try discriminate; destruct c; discriminate.
Qed.

Lemma good_all : Forall (fun e => goodBody (body (snd e))) (functions X W).
Proof.
  unfold functions.
  repeat (apply Forall_cons; [cbn [snd body];
    first [ exact abs_good | apply bit_good; auto | apply math_good | exact sqrt_good | exact hypot_good | exact pow_good | apply const_good | apply log_good | exact radians_good | exact sign_good
          | exact rand_good | exact rand32_good | exact rand64_good | exact now_good | exact casecmp_good | apply onStr_good; intros ?s; eexists; reflexivity | exact length_good | exact left_good | exact right_good
          | exact replace_good | exact reverse_good | exact split_good | exact tostring_good | exact tobool_good | exact tofloat_good | exact toint_good | apply lpad_good | apply rpad_good | exact substr_good
          | exact hash_good | exact isin_good | exact near_good | exact cossim_good | exact size_good | exact date_good | exact time_good | exact datetime_good | exact timestamp_good | apply range_good | exact id_good
          | exact tags_good | exact properties_good | exact type_good | exact typeid_good | exact src_good | exact dst_good | exact rank_good | exact start_good | exact end_good | exact head_good | exact last_good
          | exact coalesce_good | exact keys_good | exact nodes_good | exact tail_good | exact relationships_good | exact sameEdge_good | exact sameVertex_good | exact reversePath_good | exact rowCol_good ]|]).
  apply Forall_nil.
Qed.
End Funcs.
