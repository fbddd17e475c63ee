(** Theorems about + and - of texts, lists and dates (C180). *)
From Coq Require Import String.
From Verif Require Import ValueBase DateModel DateSpec DateProofs ValueModel ValueProps GraphModel ExprModel EvalModel EvalSpec EvalProofs EvalProps OpLawProps.
Local Open Scope list_scope.
Local Open Scope Z_scope.

(** A text with no NUL in it. *)
Definition noNul (s : str) : Prop := ~ In 0 s.
Lemma cstr_noNul s : noNul s -> cstr s = s.
Proof.
  induction s as [|b s IH]; intros N; [reflexivity|]. cbn. destruct (Z.eqb_spec b 0) as [->|_]; [destruct N; left; reflexivity|].
  rewrite IH; [reflexivity|]. intros H. apply N. right. exact H.
Qed.
(** What a number or a truth value looks like: the digits of the number after its sign (decZ reads back, C169), true or false. *)
Definition shown (v : value) : option str :=
  match v with VBool true => Some (B "true") | VBool false => Some (B "false") | VInt z => Some (decZ z) | _ => None end.

(** + joins texts, in the order in which they are given; a sum of texts may be grouped in any way. *)
Theorem C180_texts : forall E c p q r s t u, yields E c p (VStr s) -> yields E c q (VStr t) -> yields E c r (VStr u) ->
  yields E c (bin OAdd p q) (VStr (s ++ t)) /\
  yields E c (bin OAdd (bin OAdd p q) r) (VStr (s ++ t ++ u)) /\ yields E c (bin OAdd p (bin OAdd q r)) (VStr (s ++ t ++ u)).
Proof.
  intros E c p q r s t u Yp Yq Yr.
  assert (A : yields E c (bin OAdd p q) (VStr (s ++ t))) by (eapply arith_run; [exact Yp|exact Yq|reflexivity]).
  assert (A' : yields E c (bin OAdd q r) (VStr (t ++ u))) by (eapply arith_run; [exact Yq|exact Yr|reflexivity]).
  splits; [exact A| |].
  - eapply arith_run; [exact A|exact Yr|]. cbn. rewrite <- app_assoc. reflexivity.
  - eapply arith_run; [exact Yp|exact A'|reflexivity].
Qed.
(** A number or a truth value is joined as it is shown, before or after a text without NUL. *)
Theorem C180_shown : forall E c p q v w s, yields E c p v -> yields E c q (VStr s) -> shown v = Some w -> noNul s ->
  yields E c (bin OAdd p q) (VStr (w ++ s)) /\ yields E c (bin OAdd q p) (VStr (s ++ w)).
Proof.
  intros E c p q v w s Yp Yq Hw N. pose proof (cstr_noNul s N) as C.
  destruct v as [| |b|z| | | | | | | | | | | |]; try discriminate Hw.
  - assert (Hb : boolStr b = w) by (destruct b; injection Hw as <-; reflexivity).
    split; (eapply arith_run; [eassumption..|]); cbn; rewrite C, Hb; reflexivity.
  - injection Hw as <-. split; (eapply arith_run; [eassumption..|]); cbn; rewrite C; reflexivity.
Qed.
(** With a NUL the text ends there, whatever follows; and a sum with numbers and texts may not be regrouped. *)
Theorem C180_shown_refuted : forall E c,
  yields E c (bin OAdd (konst (VStr [97; 0; 98])) (konst (VInt 1))) (VStr (B "a1")) /\
  yields E c (bin OAdd (konst (VInt 1)) (konst (VStr [97; 0; 98]))) (VStr (B "1a")) /\
  yields E c (bin OAdd (konst (VStr [97; 0; 98])) (konst (VStr (B "1")))) (VStr ([97; 0; 98] ++ B "1")) /\
  yields E c (bin OAdd (bin OAdd (konst (VInt 1)) (konst (VInt 2))) (konst (VStr (B "a")))) (VStr (B "3a")) /\
  yields E c (bin OAdd (konst (VInt 1)) (bin OAdd (konst (VInt 2)) (konst (VStr (B "a"))))) (VStr (B "12a")).
Proof.
  intros E c. splits; try (eapply arith_run; [apply konst_yields..|reflexivity]).
  - eapply arith_run; [eapply arith_run; [apply konst_yields..|reflexivity]|apply konst_yields|reflexivity].
  - eapply arith_run; [apply konst_yields|eapply arith_run; [apply konst_yields..|reflexivity]|reflexivity].
Qed.

(** A value that can be put into a list with +: not null, empty, a list itself or a data set. *)
Definition item (v : value) : Prop := match v with VNull _ | VEmpty | VList _ | VDataSet _ => False | _ => True end.
(** + joins lists, puts a value on its right at the end and one on its left at the beginning. *)
Theorem C180_lists : forall E c p q r x y l k, yields E c p (VList l) -> yields E c q (VList k) -> yields E c r x -> item x ->
  yields E c (bin OAdd p q) (VList (l ++ k)) /\
  yields E c (bin OAdd p r) (VList (l ++ [x])) /\ yields E c (bin OAdd r p) (VList (x :: l)) /\
  (forall t, yields E c t y -> item y ->
     yields E c (bin OAdd (bin OAdd r p) t) (VList (x :: l ++ [y])) /\ yields E c (bin OAdd r (bin OAdd p t)) (VList (x :: l ++ [y]))).
Proof.
  intros E c p q r x y l k Yp Yq Yr Hx.
  assert (R : forall a m, item a -> varith E OAdd (VList m) a = Ret (VList (m ++ [a]))) by (intros a m Ha; destruct a; try contradiction; reflexivity).
  assert (L : forall a m, item a -> varith E OAdd a (VList m) = Ret (VList (a :: m))) by (intros a m Ha; destruct a; try contradiction; reflexivity).
  splits.
  - eapply arith_run; [exact Yp|exact Yq|reflexivity].
  - eapply arith_run; [exact Yp|exact Yr|apply R; exact Hx].
  - eapply arith_run; [exact Yr|exact Yp|apply L; exact Hx].
  - intros t Yt Hy. split.
    + eapply arith_run; [eapply arith_run; [exact Yr|exact Yp|apply L; exact Hx]|exact Yt|apply (R y (x :: l) Hy)].
    + eapply arith_run; [exact Yr|eapply arith_run; [exact Yp|exact Yt|apply R; exact Hy]|apply L; exact Hx].
Qed.
(** Null and empty swallow the list instead; a list is not nested; and two values before a list are not both put into it. *)
Theorem C180_lists_refuted : forall E c,
  yields E c (bin OAdd (konst (VList [VInt 1])) (konst (VNull NNaN))) (VNull NNaN) /\
  yields E c (bin OAdd (konst VEmpty) (konst (VList [VInt 1]))) VEmpty /\
  yields E c (bin OAdd (konst (VList [VInt 1])) (konst (VList [VInt 2]))) (VList [VInt 1; VInt 2]) /\
  yields E c (bin OAdd (konst (VInt 1)) (bin OAdd (konst (VInt 2)) (konst (VList [])))) (VList [VInt 1; VInt 2]) /\
  yields E c (bin OAdd (bin OAdd (konst (VInt 1)) (konst (VInt 2))) (konst (VList []))) (VList [VInt 3]).
Proof.
  intros E c. splits; try (eapply arith_run; [apply konst_yields..|reflexivity]).
  - eapply arith_run; [apply konst_yields|eapply arith_run; [apply konst_yields..|reflexivity]|reflexivity].
  - eapply arith_run; [eapply arith_run; [apply konst_yields..|reflexivity]|apply konst_yields|reflexivity].
Qed.

(** The difference of two dates is the number of days to be added to the second to get the first, before or after it; it is
    positive, zero or negative as the first date is later than, the same as or before the second.  Dates of the calendar in which
    every fourth year is a leap year (C03). *)
Theorem C180_dates : forall E c p q d e, valid_date julian_leap d -> valid_date julian_leap e -> yields E c p (VDate d) -> yields E c q (VDate e) ->
  exists n, yields E c (bin OMinus p q) (VInt n) /\
    yields E c (bin OAdd q (bin OMinus p q)) (VDate d) /\ yields E c (bin OAdd (bin OMinus p q) q) (VDate d) /\
    yields E c (bin OMinus p (bin OMinus p q)) (VDate e) /\
    yields E c (bin OMinus q p) (VInt (- n)) /\
    (n < 0 <-> date_before d e) /\ (n = 0 <-> d = e) /\ (0 < n <-> date_before e d).
Proof.
  intros E c p q d e Vd Ve Yp Yq. destruct (toInt_range d Vd) as (a & Ha & Ra). destruct (toInt_range e Ve) as (b & Hb & Rb).
  assert (D : yields E c (bin OMinus p q) (VInt (a - b))).
  { eapply arith_run; [exact Yp|exact Yq|]. cbn. rewrite Ha. cbn. rewrite Hb. reflexivity. }
  assert (A : addDays e (a - b) = Ret d).
  { destruct (addDays_ok e (a - b) b Ve Hb ltac:(lia)) as (d' & F & Vd' & Hd'). rewrite F. f_equal.
    apply (toInt_inj d' d a); auto. rewrite Hd'. f_equal. lia. }
  assert (S' : subDays d (a - b) = Ret e).
  { rewrite subDays_addDays. destruct (addDays_ok d (- (a - b)) a Vd Ha ltac:(lia)) as (d' & F & Vd' & Hd'). rewrite F. f_equal.
    apply (toInt_inj d' e b); auto. rewrite Hd'. f_equal. lia. }
  exists (a - b). splits.
  - exact D.
  - eapply arith_run; [exact Yq|exact D|]. cbn. rewrite A. reflexivity.
  - eapply arith_run; [exact D|exact Yq|]. cbn. rewrite A. reflexivity.
  - eapply arith_run; [exact Yp|exact D|]. cbn. rewrite S'. reflexivity.
  - eapply arith_run; [exact Yq|exact Yp|]. cbn. rewrite Hb. cbn. rewrite Ha. cbn. do 2 f_equal. lia.
  - rewrite <- (toInt_iff_before d e a b Vd Ve Ha Hb). lia.
  - split; [intros H; apply (toInt_inj d e a Vd Ve Ha); rewrite Hb; f_equal; lia|].
    intros ->. rewrite Ha in Hb. injection Hb as <-. lia.
  - rewrite <- (toInt_iff_before e d b a Ve Vd Hb Ha). lia.
Qed.
(** A number of days on either side moves a date by as many days, as long as the years can be represented: taking the date away
    gives the number back, taking the number away the date; and two numbers may be added one after the other or at once. *)
Theorem C180_days : forall E c p q r d n m a, valid_date julian_leap d -> toInt d = Ret a ->
  0 <= a + n < total_days -> 0 <= a + n + m < total_days -> int64_min <= n + m <= int64_max ->
  yields E c p (VDate d) -> yields E c q (VInt n) -> yields E c r (VInt m) ->
  same_ E c (bin OAdd p q) (bin OAdd q p) /\
  yields E c (bin OMinus (bin OAdd p q) p) (VInt n) /\ yields E c (bin OMinus (bin OAdd p q) q) (VDate d) /\
  same_ E c (bin OAdd (bin OAdd p q) r) (bin OAdd p (bin OAdd q r)).
Proof.
  intros E c p q r d n m a Vd Ha Rn Rm Fi Yp Yq Yr.
  destruct (addDays_ok d n a Vd Ha Rn) as (d1 & F1 & V1 & T1). destruct (addDays_ok d1 m (a + n) V1 T1 Rm) as (d2 & F2 & V2 & T2).
  destruct (toInt_range d Vd) as (a' & Ha' & Ra). rewrite Ha in Ha'. injection Ha' as <-.
  assert (Y1 : yields E c (bin OAdd p q) (VDate d1)) by (eapply arith_run; [exact Yp|exact Yq|cbn; rewrite F1; reflexivity]).
  splits.
  - exists (VDate d1). split; [exact Y1|]. eapply arith_run; [exact Yq|exact Yp|cbn; rewrite F1; reflexivity].
  - eapply arith_run; [exact Y1|exact Yp|]. cbn. rewrite T1. cbn. rewrite Ha. cbn. do 2 f_equal. lia.
  - eapply arith_run; [exact Y1|exact Yq|]. cbn. rewrite subDays_addDays.
    destruct (addDays_ok d1 (- n) (a + n) V1 T1 ltac:(lia)) as (d3 & F3 & V3 & T3). rewrite F3. cbn. do 2 f_equal.
    apply (toInt_inj d3 d a); auto. rewrite T3. f_equal. lia.
  - exists (VDate d2). split; [eapply arith_run; [exact Y1|exact Yr|cbn; rewrite F2; reflexivity]|].
    eapply arith_run; [exact Yp|apply (int_add _ _ _ _ _ _ Yq Yr Fi)|]. cbn.
    destruct (addDays_ok d (n + m) a Vd Ha ltac:(lia)) as (d3 & F3 & V3 & T3). rewrite F3. cbn. do 2 f_equal.
    apply (toInt_inj d3 d2 (a + n + m)); auto. rewrite T3. f_equal. lia.
Qed.
(** A number too large for the years that can be represented gives a date all the same, another one; a still larger one is undefined. *)
Theorem C180_days_refuted : forall E c,
  yields E c (bin OAdd (konst (VDate last_date)) (konst (VInt 1))) (VDate first_date) /\
  yields E c (bin OMinus (bin OAdd (konst (VDate last_date)) (konst (VInt 1))) (konst (VDate last_date))) (VInt (1 - total_days)) /\
  varith E OAdd (VDate last_date) (VInt int64_max) = UB.
Proof.
  intros E c. splits.
  - eapply arith_run; [apply konst_yields..|vm_compute; reflexivity].
  - eapply arith_run; [eapply arith_run; [apply konst_yields..|vm_compute; reflexivity]|apply konst_yields|vm_compute; reflexivity].
  - vm_compute. reflexivity.
Qed.
Example C180_ex : forall E c,
  shown (VInt (-12)) = Some (B "-12") /\ noNul (B "ab") /\ item (VInt 1) /\ valid_date julian_leap (mkDate 2020 2 29) /\
  yields E c (bin OMinus (konst (VDate (mkDate 2020 3 1))) (konst (VDate (mkDate 2020 2 28)))) (VInt 2) /\
  yields E c (bin OAdd (konst (VInt 2)) (konst (VDate (mkDate 2020 2 28)))) (VDate (mkDate 2020 3 1)) /\
  yields E c (bin OAdd (konst (VInt (-12))) (konst (VStr (B "ab")))) (VStr (B "-12ab")) /\
  yields E c (bin OAdd (konst (VList [VInt 1])) (konst (VStr (B "a")))) (VList [VInt 1; VStr (B "a")]).
Proof.
  intros E c. splits; try reflexivity; try (eapply arith_run; [apply konst_yields..|vm_compute; reflexivity]).
  - unfold noNul. cbn. intuition discriminate.
  - repeat split; vm_compute; discriminate.
Qed.
Print Assumptions C180_texts.
Print Assumptions C180_shown.
Print Assumptions C180_shown_refuted.
Print Assumptions C180_lists.
Print Assumptions C180_lists_refuted.
Print Assumptions C180_dates.
Print Assumptions C180_days.
Print Assumptions C180_days_refuted.
