(** C184: the mathematical functions, FunctionManager.cpp 323-820, by name as in FuncLawProps. What the math library computes is [wMath], [wHypot], [wPow]. *)
From Coq Require Import String List SpecFloat.
From Verif Require Import Prelude TimeModel ValueBase ValueModel ValueProofs FloatProofs FloatExact ExprModel EvalModel FuncModel FuncTableModel FuncLawProps FuncGuardProps.
Import ListNotations.
Local Open Scope list_scope.
Open Scope Z_scope.

(** * Specification *)
(** which function of the math library a name stands for *)
Definition library : list (string * mathFn) := [
  ("floor", MFloor); ("ceil", MCeil); ("round", MRound); ("sqrt", MSqrt); ("cbrt", MCbrt); ("exp", MExp); ("exp2", MExp2); ("log", MLog); ("log2", MLog2); ("log10", MLog10);
  ("sin", MSin); ("asin", MAsin); ("cos", MCos); ("acos", MAcos); ("tan", MTan); ("atan", MAtan)]%string.
(** the numbers left out: a negative one has no root, one that counts as zero no logarithm *)
Definition leftOut (g : mathFn) (f : f64) : Prop :=
  match g with
  | MSqrt => SFcompare f (f64ofZ 0) = Some Lt
  | MLog | MLog2 | MLog10 => SFcompare (f64abs f) kEpsilon = Some Lt \/ SFcompare (f64abs f) kEpsilon = Some Eq
  | _ => False
  end.
(** a number as a double *)
Definition number (v : value) : Prop := match v with VInt _ | VFloat _ => True | _ => False end.
Definition floated (v : value) : value := match v with VInt z => VFloat (f64ofZ z) | _ => v end.

(** * Integers as doubles *)
Lemma round_big s p e : 54 <= Z.pos (digits2_pos p) -> 1 <= Z.pos (digits2_pos p) + e ->
  match binary_round_aux 53 1024 s (Z.pos p) e loc_Exact with S754_infinity t => t = s | S754_finite t _ e' => t = s /\ -52 <= e' | _ => False end.
Proof.
  intros Hd He. unfold binary_round_aux, shr_fexp. cbn [Zdigits2 shr_record_of_loc]. set (d := Z.pos (digits2_pos p)) in *.
  assert (F1 : fexp 53 1024 (d + e) = d + e - 53) by (unfold fexp, emin; lia). rewrite F1. replace (d + e - 53 - e) with (d - 53) by lia.
  unfold shr at 1. destruct (d - 53) as [|n|n] eqn:En; try lia. set (r1 := iter_pos shr_1 n (Build_shr_record (Z.pos p) false false)).
  assert (M1 : 2 ^ 52 <= shr_m r1).
  { unfold r1. rewrite shr_div by (cbn; lia). cbn [shr_m]. pose proof (digits2_bounds p) as D. fold d in D. apply Z.div_le_lower_bound; [apply Z.pow_pos_nonneg; lia|].
    replace (d - 1) with (Z.pos n + 52) in D by lia. rewrite Z.pow_add_r in D by lia. lia. }
  assert (M2 : 2 ^ 52 <= round_nearest_even (shr_m r1) (loc_of_shr_record r1)).
  { destruct (loc_of_shr_record r1) as [|[]]; cbn [round_nearest_even]; try lia. destruct (Z.even _); lia. }
  clearbody r1. set (m2 := round_nearest_even (shr_m r1) (loc_of_shr_record r1)) in *. clearbody m2. destruct m2 as [|m2|m2]; try lia. cbn [Zdigits2].
  pose proof (digits2_bounds m2) as D2. set (d2 := Z.pos (digits2_pos m2)) in *.
  assert (53 <= d2). { destruct (Z.le_gt_cases 53 d2) as [|G]; auto. exfalso. assert (2 ^ d2 <= 2 ^ 52) by (apply Z.pow_le_mono_r; lia). lia. }
  assert (F2 : fexp 53 1024 (d2 + (e + Z.pos n)) = d2 + (e + Z.pos n) - 53) by (unfold fexp, emin; lia). rewrite F2. replace (d2 + (e + Z.pos n) - 53 - (e + Z.pos n)) with (d2 - 53) by lia.
  unfold shr. destruct (d2 - 53) as [|k|k] eqn:Ek; try lia.
  - cbn [shr_m]. destruct (_ <=? _); [|reflexivity]. split; [reflexivity|lia].
  - rewrite shr_div by (cbn; lia). cbn [shr_m]. assert (0 < 2 ^ Z.pos k) by (apply Z.pow_pos_nonneg; lia).
    assert (0 < Z.pos m2 / 2 ^ Z.pos k). { apply Z.div_str_pos. split; [lia|]. apply Z.le_trans with (2 ^ (d2 - 1)); [apply Z.pow_le_mono_r; lia|apply D2]. }
    destruct (Z.pos m2 / 2 ^ Z.pos k) as [|m3|m3]; try lia. destruct (_ <=? _); [|reflexivity]. split; [reflexivity|lia].
Qed.
Lemma ofZ_shape z : z <> 0 -> match f64ofZ z with S754_infinity t => t = (z <? 0) | S754_finite t _ e => t = (z <? 0) /\ -52 <= e | _ => False end.
Proof.
  intros N. destruct (Z.lt_ge_cases (Z.abs z) (2 ^ 53)) as [L|G].
  - destruct (ofZ_form z N L) as (s & M & F & -> & _ & _ & _ & _ & HF & ->). split; [reflexivity|lia].
  - assert (K : forall s p, 2 ^ 53 <= Z.pos p -> match binary_round 53 1024 s p 0 with S754_infinity t => t = s | S754_finite t _ e => t = s /\ -52 <= e | _ => False end).
    { intros s p Hp. pose proof (digits2_bounds p) as D. assert (54 <= Z.pos (digits2_pos p)).
      { destruct (Z.le_gt_cases 54 (Z.pos (digits2_pos p))) as [|L]; auto. exfalso. assert (2 ^ Z.pos (digits2_pos p) <= 2 ^ 53) by (apply Z.pow_le_mono_r; lia). lia. }
      assert (shl_align p 0 (fexp 53 1024 (Z.pos (digits2_pos p) + 0)) = (p, 0)) as K.
      { unfold shl_align. replace (fexp 53 1024 (Z.pos (digits2_pos p) + 0) - 0) with (Z.pos (digits2_pos p) - 53) by (unfold fexp, emin; lia).
        destruct (Z.pos (digits2_pos p) - 53) eqn:E; try lia; reflexivity. }
      unfold binary_round. rewrite K.
      apply round_big; lia. }
    destruct z as [|p|p]; [congruence| |]; cbn in G; unfold f64ofZ; cbn [binary_normalize]; apply (K _ p); exact G.
Qed.
Lemma ofZ_neg z : f64ltb (f64ofZ z) f64zero = (z <? 0) /\ f64ltb f64zero (f64ofZ z) = (0 <? z).
Proof.
  destruct (Z.eq_dec z 0) as [->|N]; [split; reflexivity|]. pose proof (ofZ_shape z N) as H. destruct (f64ofZ z) as [|t| |t m e]; try contradiction.
  - subst t. destruct (Z.ltb_spec z 0), (Z.ltb_spec 0 z); try lia; split; reflexivity.
  - destruct H as [-> _]. destruct (Z.ltb_spec z 0), (Z.ltb_spec 0 z); try lia; split; reflexivity.
Qed.
Lemma ofZ_tiny z : f64leb (f64neg kEpsilon) (f64ofZ z) && f64leb (f64ofZ z) kEpsilon = (z =? 0).
Proof.
  destruct (Z.eq_dec z 0) as [->|N]; [reflexivity|]. pose proof (ofZ_shape z N) as H. replace (z =? 0) with false by lia. destruct (f64ofZ z) as [|t| |t m e]; try contradiction.
  - destruct t; reflexivity.
  - destruct H as [_ H]. unfold f64leb, SFleb, f64neg, kEpsilon. cbn [SFopp SFcompare negb]. destruct t.
    + replace (-79 ?= e) with Lt by (symmetry; apply Z.compare_lt_iff; lia). reflexivity.
    + replace (e ?= -79) with Gt by (symmetry; apply Z.compare_gt_iff; lia). reflexivity.
Qed.
Lemma tiny_spec f : f64leb (f64neg kEpsilon) f && f64leb f kEpsilon = true <-> SFcompare (f64abs f) kEpsilon = Some Lt \/ SFcompare (f64abs f) kEpsilon = Some Eq.
Proof.
  destruct f as [s|[]| |s m e]; try (split; [discriminate|intros [H|H]; discriminate H]).
  - split; [intros _; left; reflexivity|reflexivity].
  - unfold f64leb, SFleb, f64neg, kEpsilon, f64abs. cbn [SFopp SFabs SFcompare negb].
    generalize 6044629098073146%positive as k. generalize (-79) as x. intros x k. destruct s; cbn iota.
    + rewrite (Z.compare_antisym x e), (Pos.compare_cont_antisym k m Eq). change (CompOpp Eq) with Eq. destruct (x ?= e); [cbn [CompOpp]; destruct (Pos.compare_cont Eq m k)|..]; cbn; intuition congruence.
    + destruct (e ?= x); [destruct (Pos.compare_cont Eq m k)|..]; cbn; intuition congruence.
Qed.

(** * C184 *)
Ltac names H := cbn in H; repeat destruct H as [H|H]; try contradiction H; injection H as <- <-.
(** Each name stands for its function of the library; numbers without a root or logarithm give null. *)
Theorem C184_each : forall X W o name g f, In (name, g) library ->
  (leftOut g f -> calls X W o name [VFloat f] (VNull NNull)) /\ (~ leftOut g f -> calls X W o name [VFloat f] (VFloat (wMath W g f))).
Proof.
  intros X W o name g f H. names H; cbn [leftOut]; (split; [intros K; try contradiction K|intros K]); try reflexivity.
  - transitivity (Some (if f64ltb f f64zero then Ret (VNull NNull) else Ret (VFloat (wMath W MSqrt f)))); [reflexivity|]. unfold f64ltb, SFltb, f64zero. now rewrite K.
  - transitivity (Some (if f64ltb f f64zero then Ret (VNull NNull) else Ret (VFloat (wMath W MSqrt f)))); [reflexivity|]. unfold f64ltb, SFltb, f64zero. destruct (SFcompare f (f64ofZ 0)) as [[]|]; congruence.
  - apply tiny_spec in K. transitivity (Some (if f64leb (f64neg kEpsilon) f && f64leb f kEpsilon then Ret (VNull NNull) else Ret (VFloat (wMath W MLog f)))); [reflexivity|]. now rewrite K.
  - rewrite <- tiny_spec in K. transitivity (Some (if f64leb (f64neg kEpsilon) f && f64leb f kEpsilon then Ret (VNull NNull) else Ret (VFloat (wMath W MLog f)))); [reflexivity|]. destruct (_ && _); congruence.
  - apply tiny_spec in K. transitivity (Some (if f64leb (f64neg kEpsilon) f && f64leb f kEpsilon then Ret (VNull NNull) else Ret (VFloat (wMath W MLog2 f)))); [reflexivity|]. now rewrite K.
  - rewrite <- tiny_spec in K. transitivity (Some (if f64leb (f64neg kEpsilon) f && f64leb f kEpsilon then Ret (VNull NNull) else Ret (VFloat (wMath W MLog2 f)))); [reflexivity|]. destruct (_ && _); congruence.
  - apply tiny_spec in K. transitivity (Some (if f64leb (f64neg kEpsilon) f && f64leb f kEpsilon then Ret (VNull NNull) else Ret (VFloat (wMath W MLog10 f)))); [reflexivity|]. now rewrite K.
  - rewrite <- tiny_spec in K. transitivity (Some (if f64leb (f64neg kEpsilon) f && f64leb f kEpsilon then Ret (VNull NNull) else Ret (VFloat (wMath W MLog10 f)))); [reflexivity|]. destruct (_ && _); congruence.
Qed.
(** An integer is taken as the double it is. *)
Theorem C184_integers : forall X W o name z, In name (map fst library ++ ["radians"; "sign"]%string) ->
  callFunction X W (B name) o [VInt z] = callFunction X W (B name) o [VFloat (f64ofZ z)].
Proof.
  intros X W o name z H. pose proof (ofZ_neg z) as [N1 N2]. pose proof (ofZ_tiny z) as T.
  assert (L : forall g, fLog W g [VInt z] = fLog W g [VFloat (f64ofZ z)]) by (intros g; cbn [fLog]; now rewrite T).
  cbn in H. repeat destruct H as [<-|H]; try contradiction H; try reflexivity.
  - change (Some (fSqrt W [VInt z]) = Some (fSqrt W [VFloat (f64ofZ z)])). cbn [fSqrt]. now rewrite N1.
  - exact (f_equal Some (L MLog)).
  - exact (f_equal Some (L MLog2)).
  - exact (f_equal Some (L MLog10)).
  - change (Some (fSign [VInt z]) = Some (fSign [VFloat (f64ofZ z)])). cbn [fSign]. now rewrite N1, N2.
Qed.
(** So an integer has no root if it is negative, and no logarithm if it is zero. *)
Theorem C184_integers_out : forall X W o z, (calls X W o "sqrt" [VInt z] (VNull NNull) <-> z < 0) /\
  forall name, In name ["log"; "log2"; "log10"]%string -> (calls X W o name [VInt z] (VNull NNull) <-> z = 0).
Proof.
  intros X W o z. split.
  - change (calls X W o "sqrt" [VInt z] (VNull NNull)) with (Some (if z <? 0 then Ret (VNull NNull) else Ret (VFloat (wMath W MSqrt (f64ofZ z)))) = Some (Ret (VNull NNull))).
    destruct (Z.ltb_spec z 0); split; (congruence || lia).
  - intros name H.
    assert (K : exists g, calls X W o name [VInt z] (VNull NNull) = (Some (if z =? 0 then Ret (VNull NNull) else Ret (VFloat (wMath W g (f64ofZ z)))) = Some (Ret (VNull NNull)))).
    { cbn in H. repeat destruct H as [<-|H]; try contradiction H; eexists; reflexivity. }
    destruct K as [g ->]. destruct (Z.eqb_spec z 0); split; (congruence || lia).
Qed.
(** Null gives null, and what is no number the null of a bad type. *)
Theorem C184_others : forall X W o name v, In name (map fst library ++ ["radians"; "sign"]%string) ->
  (isNull v = true -> calls X W o name [v] (VNull NNull)) /\ (isNull v = false -> ~ number v -> calls X W o name [v] (VNull NBadType)).
Proof.
  intros X W o name v H. split.
  - destruct v; try discriminate. intros _. cbn in H. repeat destruct H as [<-|H]; try contradiction H; reflexivity.
  - intros N1 N2. destruct v; try discriminate; cbn in N2; try tauto; cbn in H; repeat destruct H as [<-|H]; try contradiction H; reflexivity.
Qed.
(** The functions of several numbers take them as doubles too; pow of two integers is an integer: the power without its fraction. *)
Lemma numeric_number v : isNumeric v = true <-> number v.
Proof. destruct v; cbn; intuition congruence. Qed.
Lemma floated_double v : isNumeric (floated v) = isNumeric v /\ (number v -> asDouble (floated v) = asDouble v).
Proof. destruct v; split; reflexivity. Qed.
Lemma cosLoop_floated : forall l r a b c, cosLoop (map floated l) (map floated r) a b c = cosLoop l r a b c.
Proof.
  induction l as [|x l IH]; intros [|y r] a b c; cbn [map cosLoop]; try reflexivity. destruct (floated_double x) as [-> Dx], (floated_double y) as [-> Dy].
  destruct (isNumeric x) eqn:Ex, (isNumeric y) eqn:Ey; cbn [andb]; try reflexivity. apply numeric_number in Ex, Ey. rewrite (Dx Ex), (Dy Ey). apply IH.
Qed.
Theorem C184_several : forall X W o,
  (forall a b, callFunction X W (B "hypot") o [a; b] = callFunction X W (B "hypot") o [floated a; floated b]) /\
  (forall args, callFunction X W (B "cos_similarity") o args = callFunction X W (B "cos_similarity") o (map floated args)) /\
  (forall a b, (forall i j, ~ (a = VInt i /\ b = VInt j)) -> callFunction X W (B "pow") o [a; b] = callFunction X W (B "pow") o [floated a; floated b]) /\
  (forall a b, number a -> number b -> calls X W o "hypot" [a; b] (VFloat (wHypot W (asDouble a) (asDouble b)))) /\
  (forall f g, calls X W o "pow" [VFloat f; VFloat g] (VFloat (wPow W f g))) /\
  (forall i j z, calls X W o "pow" [VInt i; VInt j] (VInt z) <-> truncated (wPow W (f64ofZ i) (f64ofZ j)) z /\ in_int64 z = true).
Proof.
  intros X W o. split; [|split; [|split; [|split; [|split]]]].
  - intros a b. change (Some (fHypot W [a; b]) = Some (fHypot W [floated a; floated b])). f_equal. destruct a, b; reflexivity.
  - intros args. unfold callFunction, getInternal. replace (sizeOf (map floated args)) with (sizeOf args) by (unfold sizeOf; now rewrite map_length).
    change (findName (lower (B "cos_similarity")) (functions X W)) with (Some (mkAttr 2 int64_max true (det (fCosSim W)))). cbn [minArity maxArity]. destruct (_ || _); [reflexivity|]. cbn [body]. unfold det. f_equal.
    change (fCosSim W args = fCosSim W (map floated args)). unfold fCosSim. now rewrite map_length, firstn_map, skipn_map, cosLoop_floated.
  - intros a b N. change (Some (fPow W [a; b]) = Some (fPow W [floated a; floated b])). f_equal. destruct a as [| | |i| | | | | | | | | | | |], b as [| | |j| | | | | | | | | | | |]; try reflexivity. destruct (N i j). auto.
  - intros a b Na Nb. destruct a, b; try contradiction; reflexivity.
  - reflexivity.
  - intros i j z. change (calls X W o "pow" [VInt i; VInt j] (VInt z)) with (Some (let* y := f64toInt (wPow W (f64ofZ i) (f64ofZ j)) in Ret (VInt y)) = Some (Ret (VInt z))).
    unfold f64toInt. rewrite <- trunc_spec. destruct (f64trunc (wPow W (f64ofZ i) (f64ofZ j))) as [y|].
    + destruct (in_int64 y) eqn:R; split.
      * intros [= <-]. auto.
      * intros [[= <-] _]. reflexivity.
      * discriminate.
      * intros [[= <-] E]. congruence.
    + split; [discriminate|intros [E _]; discriminate E].
Qed.
(** What is no number gives the null of a bad type - null too, unlike with one argument. *)
Theorem C184_several_others : forall X W o a b, ~ number a \/ ~ number b -> calls X W o "hypot" [a; b] (VNull NBadType) /\ calls X W o "pow" [a; b] (VNull NBadType).
Proof. intros X W o a b [H|H]; destruct a, b; cbn in H; try tauto; split; reflexivity. Qed.
(** radians is the angle times pi over 180, each rounded. *)
Theorem C184_radians : forall X W o f, exists p, calls X W o "pi" [] (VFloat p) /\ calls X W o "radians" [VFloat f] (VFloat (f64div (f64mul f p) (f64ofZ 180))).
Proof. intros X W o f. exists kPi. split; reflexivity. Qed.
(** Null is not answered with null everywhere. *)
Theorem C184_null_refuted : forall X W o, calls X W o "sqrt" [VNull NNull] (VNull NNull) /\ calls X W o "hypot" [VNull NNull; VInt 1] (VNull NBadType) /\ calls X W o "pow" [VInt 2; VNull NNull] (VNull NBadType).
Proof. intros. splits; reflexivity. Qed.
(** Not every number without a result gives null: with a library that gives NaN for the logarithm of a negative number, so does log. *)
Theorem C184_domain_refuted : forall X W o, wMath W MLog (f64ofZ (-1)) = S754_nan -> calls X W o "log" [VInt (-1)] (VFloat S754_nan) /\ calls X W o "sqrt" [VInt (-1)] (VNull NNull).
Proof. intros X W o H. split; [|reflexivity]. transitivity (Some (Ret (VFloat (wMath W MLog (f64ofZ (-1)))))); [reflexivity|]. now rewrite H. Qed.
Definition W184 : world := mkWorld (fun _ _ => S754_nan) (fun _ _ => S754_nan) (fun a b => f64mul a b) (fun _ => None) (fun _ => None) (fun _ => None) 0 10.
Example C184_ex : forall X o, In ("atan"%string, MAtan) library /\ leftOut MSqrt (f64ofZ (-4)) /\ ~ leftOut MLog (f64ofZ 1) /\ ~ number VEmpty /\
  calls X W184 o "radians" [VInt 180] (VFloat kPi) /\ calls X W184 o "pow" [VInt 3; VInt 4] (VInt 12) /\ calls X W184 o "sign" [VFloat (f64ofZ (-7))] (VInt (-1)).
Proof.
  intros X o. split; [cbn; tauto|]. split; [reflexivity|]. split; [intros [H|H]; discriminate H|]. split; [exact (fun H => H)|]. splits; vm_compute; reflexivity.
Qed.
Print Assumptions C184_each.
Print Assumptions C184_integers.
Print Assumptions C184_integers_out.
Print Assumptions C184_others.
Print Assumptions C184_several.
Print Assumptions C184_several_others.
Print Assumptions C184_radians.
Print Assumptions C184_null_refuted.
Print Assumptions C184_domain_refuted.
