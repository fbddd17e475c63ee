(** C84, continued: for each function that does not return on all arguments, exactly on which it does. *)
From Coq Require Import String List SpecFloat.
From Verif Require Import Prelude Trans DateModel DateSpec DateProofs TimeModel TimeSpec TimeProofs ValueBase ValueModel GraphModel FloatProofs EvalModel FuncModel
  FuncProps GraphFuncProps FuncTableModel FuncTableProofs FuncTableProps FromMapProps.
Import ListNotations.
Local Open Scope list_scope.
Local Open Scope string_scope.
Open Scope Z_scope.

(** * hash *)
(** [x] is nested in the list [v], at any depth of lists *)
Inductive nested : value -> value -> Prop :=
  | nestedHere x l : In x l -> nested x (VList l)
  | nestedDeep x y l : In y l -> nested x y -> nested x (VList l).
Definition noHash (v : value) : Prop := match v with VMap _ | VSet _ | VDataSet _ => True | _ => False end.
Fixpoint hashBad (v : value) : bool :=
  match v with VMap _ | VSet _ | VDataSet _ => true | VList l => existsb hashBad l | _ => false end.
Lemma vhash_bad X : forall v, if hashBad v then vhash X v = Fatal else exists h, vhash X v = Ret h.
Proof.
  fix IH 1. intros v. destruct v; cbn [hashBad vhash]; try (eexists; reflexivity); try reflexivity.
  generalize 0. induction l as [|x l IHl]; intros seed; cbn [existsb]; [eexists; reflexivity|].
  pose proof (IH x) as Hx. destruct (hashBad x); cbn [orb].
  - rewrite Hx. reflexivity.
  - destruct Hx as [h ->]. cbn [obind]. apply IHl.
Qed.
Lemma hashBad_nested : forall v, hashBad v = true <-> noHash v \/ exists x, nested x v /\ noHash x.
Proof.
  fix IH 1. intros v. destruct v; cbn [hashBad noHash]; try (split; [discriminate|intros [[]|(x & H & _)]; inversion H]); try (split; [intros _; left; exact I|reflexivity]).
  assert (G : existsb hashBad l = true <-> exists y, In y l /\ (noHash y \/ exists x, nested x y /\ noHash x)).
  { induction l as [|y l IHl]; cbn [existsb].
    - split; [discriminate|]. intros (y & [] & _).
    - rewrite orb_true_iff, IHl, (IH y). split.
      + intros [H|(z & H1 & H2)]; [exists y; split; [left; reflexivity|exact H]|exists z; split; [right; exact H1|exact H2]].
      + intros (z & [<-|H1] & H2); [left; exact H2|right; exists z; split; assumption]. }
  rewrite G. split.
  - intros (y & H1 & [H2|(x & H2 & H3)]); right; [exists y; split; [constructor; exact H1|exact H2]|exists x; split; [exact (nestedDeep _ _ _ H1 H2)|exact H3]].
  - intros [[]|(x & H & Hx)]. inversion H as [x' l' H1|x' y l' H1 H2]; subst; [exists x; split; [exact H1|left; exact Hx]|].
    exists y. split; [exact H1|right; exists x; split; assumption].
Qed.
(** hash() returns unless a map, a set or a data set is nested in a list. *)
Theorem C84_hash : forall X W o v, (exists r, callFunction X W (B "hash") o [v] = Some (Ret r)) <-> forall x, nested x v -> ~ noHash x.
Proof.
  intros X W o v. change (callFunction X W (B "hash") o [v]) with (Some (fHash X [v])).
  pose proof (vhash_bad X v) as H. pose proof (hashBad_nested v) as B. destruct (hashBad v) eqn:E.
  - destruct (proj1 B eq_refl) as [N|(x & N1 & N2)].
    + destruct v; try destruct N; cbn [fHash]; (split; [intros _ x N2; inversion N2|intros _; eexists; reflexivity]).
    + split; [|intros K; destruct (K x N1 N2)]. inversion N1; subst; cbn [fHash]; rewrite H; intros [r R]; discriminate.
  - destruct H as [h H]. split.
    + intros _ x N1 N2. assert (false = true) by (apply B; right; exists x; split; assumption). discriminate.
    + intros _. destruct v; cbn [fHash]; try (eexists; reflexivity); rewrite H; cbn [obind]; eexists; reflexivity.
Qed.
Example C84_hash_ex : (exists r, callFunction tX tW (B "hash") tO [VList [VInt 1; VList [VStr (B "a")]]] = Some (Ret r)) /\
  nested (VMap []) (VList [VInt 1; VList [VMap []]]) /\ callFunction tX tW (B "hash") tO [VList [VInt 1; VList [VMap []]]] = Some Fatal.
Proof.
  splits; [eexists; reflexivity| |reflexivity].
  apply nestedDeep with (y := VList [VMap []]); [right; left; reflexivity|]. constructor. left. reflexivity.
Qed.

(** * Doubles as integers *)
(** [z] is the double without its fraction; the value of a finite double is m * 2^e. NaN and infinities have none. *)
Definition truncated (f : f64) (z : Z) : Prop :=
  match f with
  | S754_zero _ => z = 0
  | S754_finite s m e =>
      let n := if s : bool then - z else z in
      0 <= n /\ n * 2 ^ (Z.max 0 (- e)) <= Z.pos m * 2 ^ (Z.max 0 e) < (n + 1) * 2 ^ (Z.max 0 (- e))
  | _ => False
  end.
Lemma trunc_spec f z : f64trunc f = Some z <-> truncated f z.
Proof.
  destruct f as [s|s| |s m e]; cbn [f64trunc truncated]; try (split; [discriminate|contradiction]).
  - split; [intros [= <-]; reflexivity|intros ->; reflexivity].
  - destruct (Z.leb_spec 0 e) as [E|E].
    + rewrite (Z.max_l 0 (- e)), (Z.max_r 0 e) by lia. rewrite Z.pow_0_r. set (k := Z.pos m * 2 ^ e). assert (0 < k) by (unfold k; pose proof (Z.pow_pos_nonneg 2 e ltac:(lia) E); nia).
      destruct s; (split; [intros [= <-]; lia|intros H1; f_equal; lia]).
    + rewrite (Z.max_r 0 (- e)), (Z.max_l 0 e) by lia. rewrite Z.pow_0_r, Z.mul_1_r. assert (P : 0 < 2 ^ (- e)) by (apply Z.pow_pos_nonneg; lia). set (p := 2 ^ (- e)) in *.
      pose proof (Z.div_mod (Z.pos m) p ltac:(lia)) as D. pose proof (Z.mod_pos_bound (Z.pos m) p P) as Bm.
      assert (G : forall n, Z.pos m / p = n <-> 0 <= n /\ n * p <= Z.pos m < (n + 1) * p).
      { intros n. split; [intros <-; split; [apply Z.div_pos; lia|nia]|]. intros [H1 H2]. symmetry. apply (Z.div_unique_pos _ _ n (Z.pos m - n * p)); nia. }
      destruct s; rewrite <- G; (split; [intros [= <-]|intros H; f_equal]); lia.
Qed.
Definition fits (f : f64) : Prop := exists z, truncated f z /\ -9223372036854775808 <= z <= 9223372036854775807.
Lemma toInt_spec f : (exists z, f64toInt f = Ret z) <-> fits f.
Proof.
  unfold f64toInt, fits. split.
  - intros [z H]. destruct (f64trunc f) as [y|] eqn:E; [|discriminate]. destruct (in_int64 y) eqn:R; [|discriminate]. exists y.
    split; [apply trunc_spec, E|]. unfold in_int64, int64_min, int64_max in R. lia.
  - intros (z & H & R). apply trunc_spec in H. rewrite H. replace (in_int64 z) with true by (unfold in_int64, int64_min, int64_max; lia). exists z. reflexivity.
Qed.
(** pow() returns unless both arguments are integers and the power is not in the range of integers. *)
Theorem C84_pow : forall X W o a b, (exists r, callFunction X W (B "pow") o [a; b] = Some (Ret r)) <->
  (forall i j, a = VInt i -> b = VInt j -> fits (wPow W (f64ofZ i) (f64ofZ j))).
Proof.
  intros X W o a b. change (callFunction X W (B "pow") o [a; b]) with (Some (fPow W [a; b])).
  assert (G : (forall i j, ~ (a = VInt i /\ b = VInt j)) -> exists r, fPow W [a; b] = Ret r).
  { intros N. unfold fPow. destruct a, b; cbn [isNumeric andb]; try (eexists; reflexivity). destruct (N z z0). split; reflexivity. }
  destruct a as [| | |i| | | | | | | | | | | |];
    try (split; [intros _ i j E; discriminate E|intros _; destruct G as [r ->]; [intros i j [E _]; discriminate E|exists r; reflexivity]]).
  destruct b as [| | |j| | | | | | | | | | | |];
    try (split; [intros _ i' j E E'; discriminate E'|intros _; destruct G as [r ->]; [intros i' j [_ E]; discriminate E|exists r; reflexivity]]).
  cbn [fPow isNumeric andb asDouble]. split.
  - intros [r H] i' j' [= <-] [= <-]. apply toInt_spec. destruct (f64toInt (wPow W (f64ofZ i) (f64ofZ j))) as [z| | |]; [exists z; reflexivity|discriminate..].
  - intros H. specialize (H i j eq_refl eq_refl). apply toInt_spec in H. destruct H as [z ->]. exists (VInt z). reflexivity.
Qed.
Lemma two63_key : fkey (f64ofZ int64_max) = 2 ^ 1137 /\ fkey (f64ofZ int64_min) = - 2 ^ 1137 /\ f64valid (f64ofZ int64_max) = true /\ f64valid (f64ofZ int64_min) = true.
Proof. splits; vm_compute; reflexivity. Qed.
Lemma key_fits f : f64valid f = true -> f64isNaN f = false -> - 2 ^ 1137 < fkey f < 2 ^ 1137 -> fits f.
Proof.
  intros V N [H1 H2]. destruct f as [s|s| |s m e]; try discriminate.
  - exists 0. split; [reflexivity|lia].
  - exfalso. cbn [fkey] in *. assert (2 ^ 1137 < 2 ^ 2098) by (apply Z.pow_lt_mono_r; lia). destruct s; lia.
  - pose proof (valid_finite _ _ _ V) as Vf. cbn [fkey] in *.
    assert (Hk : Z.pos m * 2 ^ (e + 1074) < 2 ^ 1137) by (destruct s; lia).
    assert (E : -1074 <= e) by (destruct Vf; lia).
    destruct (f64trunc (S754_finite s m e)) as [z|] eqn:T; [|discriminate]. exists z. split; [apply trunc_spec, T|].
    cbn [f64trunc] in T. destruct (Z.leb_spec 0 e) as [E0|E0].
    + assert (Z.pos m * 2 ^ e < 2 ^ 63).
      { rewrite Z.pow_add_r in Hk by lia. replace (2 ^ 1137) with (2 ^ 63 * 2 ^ 1074) in Hk by (rewrite <- Z.pow_add_r by lia; reflexivity).
        rewrite Z.mul_assoc in Hk. apply Z.mul_lt_mono_pos_r in Hk; [exact Hk|apply Z.pow_pos_nonneg; lia]. }
      change (2 ^ 63) with 9223372036854775808 in *. assert (0 < Z.pos m * 2 ^ e) by (pose proof (Z.pow_pos_nonneg 2 e ltac:(lia) E0); nia).
      destruct s; injection T as <-; lia.
    + assert (Hd : Z.pos m < 2 ^ 63 * 2 ^ (- e)).
      { rewrite <- Z.pow_add_r by lia. replace (2 ^ 1137) with (2 ^ (63 + - e) * 2 ^ (e + 1074)) in Hk by (rewrite <- Z.pow_add_r by lia; f_equal; lia).
        apply Z.mul_lt_mono_pos_r in Hk; [exact Hk|apply Z.pow_pos_nonneg; lia]. }
      assert (0 <= Z.pos m / 2 ^ (- e) < 2 ^ 63).
      { assert (0 < 2 ^ (- e)) by (apply Z.pow_pos_nonneg; lia). split; [apply Z.div_pos; lia|]. apply Z.div_lt_upper_bound; [assumption|]. lia. }
      change (2 ^ 63) with 9223372036854775808 in *. destruct s; injection T as <-; lia.
Qed.
(** toInteger() returns unless the argument is NaN or a text with a dot that stands for a number that is not in the range of integers. *)
Theorem C84_tointeger : forall X W o v, (forall f, v = VFloat f -> f64valid f = true) ->
  ((exists r, callFunction X W (B "tointeger") o [v] = Some (Ret r)) <->
   v <> VFloat S754_nan /\ forall s, v = VStr s -> In 46 s -> fits (fst (xstrtod X (cstr s)))).
Proof.
  intros X W o v V. change (callFunction X W (B "tointeger") o [v]) with (Some (vtoInt (convEnv X) v)).
  destruct v as [| | | |f|s| | | | | | | | | |]; cbn [vtoInt];
    try (split; [intros _; split; [discriminate|intros ? E; discriminate E]|intros _; eexists; reflexivity]).
  - destruct (f64isNaN f) eqn:N.
    + destruct f; try discriminate. cbn. split; [intros [r H]; discriminate H|intros [H _]; destruct H; reflexivity].
    + assert (v_ok : VFloat f <> VFloat S754_nan) by (intros E; injection E as ->; discriminate).
      split; [intros _; split; [exact v_ok|intros ? E; discriminate E]|]. intros _. specialize (V f eq_refl).
      destruct two63_key as (K1 & K2 & V1 & V2).
      rewrite !leb_ltb by (try exact N; apply f64ofZ_not_nan). rewrite !SFltb_key by (try assumption; apply f64ofZ_not_nan). rewrite K1, K2.
      destruct (Z.ltb_spec (- 2 ^ 1137) (fkey f)) as [L1|L1]; cbn [negb]; [|eexists; reflexivity].
      destruct (Z.ltb_spec (fkey f) (2 ^ 1137)) as [L2|L2]; cbn [negb]; [|eexists; reflexivity].
      destruct (proj2 (toInt_spec f) (key_fits f V N (conj L1 L2))) as [z ->]. eexists; reflexivity.
  - cbn [convEnv eX]. destruct (existsb (fun b => b =? 46) s) eqn:E.
    + assert (Hin : In 46 s) by (apply existsb_exists in E; destruct E as (x & H1 & H2); apply Z.eqb_eq in H2; subst x; exact H1).
      destruct (xstrtod X (cstr s)) as [d n] eqn:D. split.
      * intros [r H]. split; [discriminate|]. intros s' [= <-] _. rewrite D. cbn [fst]. apply toInt_spec.
        destruct (f64toInt d) as [z| | |]; [exists z; reflexivity|discriminate..].
      * intros [_ H]. specialize (H s eq_refl Hin). rewrite D in H. apply toInt_spec in H. destruct H as [z Hz]. cbn [fst] in Hz. rewrite Hz. eexists; reflexivity.
    + destruct (strtoll (cstr s)) as [[z n] er]. split; [|intros _; eexists; reflexivity].
      intros _. split; [discriminate|]. intros s' [= <-] Hin. exfalso. assert (existsb (fun b => b =? 46) s = true) by (apply existsb_exists; exists 46; split; [exact Hin|reflexivity]). congruence.
Qed.
Example C84_integers_ex : callFunction tX tW (B "tointeger") tO [VFloat (f64ofZ (10 ^ 300))] = Some (Ret (VInt int64_max)) /\ fits (f64ofZ (- 9223372036854775808)) /\
  ~ fits (f64ofZ 9223372036854775808) /\ ~ fits S754_nan.
Proof.
  splits; [vm_compute; reflexivity| | |intros (z & [] & _)].
  - exists (- 9223372036854775808). split; [apply trunc_spec; vm_compute; reflexivity|lia].
  - intros (z & H & R). apply trunc_spec in H. vm_compute in H. injection H as <-. lia.
Qed.

(** * lpad, rpad, range, datasetrowcol *)
(** lpad and rpad return (given the time) exactly if the pad is not empty when the text has to grow. *)
Theorem C84_pad : forall X args name, In name [B "lpad"; B "rpad"] -> List.length args = 3%nat ->
  ((exists enough, forall W o, (enough <= wFuel W)%nat -> exists r, callFunction X W name o args = Some (Ret r)) <->
   forall s n, args = [VStr s; VInt n; VStr []] -> n <= sizeOf s).
Proof.
  intros X args name Hn Hl. destruct args as [|a [|b [|c [|? ?]]]]; try discriminate. split.
  - intros [enough H] s n [= -> -> ->]. destruct (Z.leb_spec n (sizeOf s)); [assumption|exfalso].
    destruct (H (mkWorld (wMath tW) (wHypot tW) (wPow tW) (wGetDate tW) (wGetTime tW) (wGetDateTime tW) (wOffset tW) enough) tO (Nat.le_refl _)) as [r Hr].
    destruct (C40_empty_pad_refuted s n H0 enough) as [D1 D2].
    cbn [In] in Hn. destruct Hn as [<-|[<-|[]]].
    + change (Some (fLpad enough [VStr s; VInt n; VStr []]) = Some (Ret r)) in Hr. rewrite D1 in Hr. discriminate.
    + change (Some (fRpad enough [VStr s; VInt n; VStr []]) = Some (Ret r)) in Hr. rewrite D2 in Hr. discriminate.
  - intros H.
    assert (G : exists enough, forall fuel, (enough <= fuel)%nat -> (exists r, fLpad fuel [a; b; c] = Ret r) /\ (exists r, fRpad fuel [a; b; c] = Ret r)).
    { destruct a as [| | | | |s| | | | | | | | | |]; try (exists 0%nat; intros; split; eexists; reflexivity).
      destruct b as [| | |n| | | | | | | | | | | |]; try (exists 0%nat; intros; split; eexists; reflexivity).
      destruct c as [| | | | |pad| | | | | | | | | |]; try (exists 0%nat; intros; split; eexists; reflexivity).
      destruct (Z.ltb_spec n 0) as [N|N]; [exists 0%nat; intros fuel _; destruct (C40_negative fuel s n pad N) as [-> ->]; split; eexists; reflexivity|].
      destruct (Z.ltb_spec n (sizeOf s)) as [L|L].
      - exists 0%nat. intros fuel _. cbn [fLpad fRpad]. replace (n <? 0) with false by lia. replace (n <? sizeOf s) with true by lia. split; eexists; reflexivity.
      - destruct (C40_pad s n pad N ltac:(lia)) as (rl & rr & enough & E).
        + destruct pad; [right; exact (H s n eq_refl)|left; discriminate].
        + exists enough. intros fuel Hf. destruct (E fuel Hf) as (-> & _ & -> & _). split; eexists; reflexivity. }
    destruct G as [enough G]. exists enough. intros W o Hf. destruct (G (wFuel W) Hf) as [[r1 R1] [r2 R2]].
    cbn [In] in Hn. destruct Hn as [<-|[<-|[]]].
    + exists r1. change (Some (fLpad (wFuel W) [a; b; c]) = Some (Ret r1)). rewrite R1. reflexivity.
    + exists r2. change (Some (fRpad (wFuel W) [a; b; c]) = Some (Ret r2)). rewrite R2. reflexivity.
Qed.
(** range returns (given the time) exactly if no element is followed by a number outside of the range of integers. *)
Theorem C84_range : forall X start last step, in_int64 start = true -> step <> 0 ->
  ((exists enough, forall W o, (enough <= wFuel W)%nat -> exists r, callFunction X W (B "range") o [VInt start; VInt last; VInt step] = Some (Ret r)) <->
   forall k, within last step (start + Z.of_nat k * step) -> in_int64 (start + Z.of_nat (S k) * step) = true).
Proof.
  intros X start last step Hs N. split.
  - intros [enough H] k Hw. destruct (in_int64 (start + Z.of_nat (S k) * step)) eqn:E; [reflexivity|exfalso].
    destruct (C42_overflow_refuted start last step N Hs k Hw E) as [en D].
    set (fuel := Nat.max enough en).
    destruct (H (mkWorld (wMath tW) (wHypot tW) (wPow tW) (wGetDate tW) (wGetTime tW) (wGetDateTime tW) (wOffset tW) fuel) tO (Nat.le_max_l _ _)) as [r Hr].
    change (Some (fRange fuel [VInt start; VInt last; VInt step]) = Some (Ret r)) in Hr. rewrite (D fuel (Nat.le_max_r _ _)) in Hr. discriminate.
  - intros H. destruct (C42_range start last step N Hs H) as (r & enough & _ & E). exists enough. intros W o Hf. exists (VList r).
    change (Some (fRange (wFuel W) [VInt start; VInt last; VInt step]) = Some (Ret (VList r))). rewrite (proj1 (E _ Hf)). reflexivity.
Qed.
(** datasetrowcol returns exactly if the row that is asked for is not too short. *)
Theorem C84_rowcol : forall X W o d row col, (exists r, callFunction X W (B "datasetrowcol") o [VDataSet d; VInt row; VInt col] = Some (Ret r)) <->
  forall r, 0 <= row -> 0 <= col < sizeOf (dcols d) -> nth_error (drows d) (Z.to_nat row) = Some r -> col < sizeOf r.
Proof.
  intros X W o d row col. change (callFunction X W (B "datasetrowcol") o [VDataSet d; VInt row; VInt col]) with (Some (fRowCol [VDataSet d; VInt row; VInt col])).
  cbn [fRowCol]. destruct ((sizeOf (drows d) <? 1) || (sizeOf (dcols d) <? 1)) eqn:E1.
  { split; [|intros _; eexists; reflexivity]. intros _ r H1 H2 H3. exfalso. apply nth_error_Some_lt in H3 || (assert (nth_error (drows d) (Z.to_nat row) <> None) by congruence; apply nth_error_Some in H; unfold sizeOf in *; lia). }
  destruct ((row <? 0) || (col <? 0)) eqn:E2; [split; [intros _ r H1 H2; lia|intros _; eexists; reflexivity]|].
  destruct ((sizeOf (drows d) <=? row) || (sizeOf (dcols d) <=? col)) eqn:E3.
  { split; [|intros _; eexists; reflexivity]. intros _ r H1 H2 H3. assert (nth_error (drows d) (Z.to_nat row) <> None) by congruence. apply nth_error_Some in H. unfold sizeOf in *. lia. }
  destruct (nth_error (drows d) (Z.to_nat row)) as [r|] eqn:R.
  - destruct (nth_error r (Z.to_nat col)) as [v|] eqn:C.
    + split; [|intros _; eexists; reflexivity]. intros _ r' H1 H2 [= <-]. assert (nth_error r (Z.to_nat col) <> None) by congruence. apply nth_error_Some in H. unfold sizeOf. lia.
    + split; [intros [x X']; discriminate|]. intros H. specialize (H r ltac:(lia) ltac:(lia) eq_refl). apply nth_error_None in C. unfold sizeOf in H. lia.
  - apply nth_error_None in R. unfold sizeOf in *. lia.
Qed.

(** * The duplicate checks on paths *)
Definition canHash (v : value) : Prop := ~ noHash v /\ forall x, nested x v -> ~ noHash x.
Lemma canHash_ok X v : canHash v -> exists h, vhash X v = Ret h.
Proof.
  intros [H1 H2]. pose proof (vhash_bad X v) as H. pose proof (hashBad_nested v) as B. destruct (hashBad v); [|exact H].
  destruct (proj1 B eq_refl) as [N|(x & N1 & N2)]; [destruct (H1 N)|destruct (H2 x N1 N2)].
Qed.
Lemma dupVertices_ret X l : forall seen, (forall s, In s l -> canHash (vvid (sdst s))) -> exists b, dupVertices X seen l = Ret b.
Proof.
  induction l as [|s l IH]; intros seen H; [eexists; reflexivity|]. cbn [dupVertices]. destruct (canHash_ok X _ (H s (or_introl eq_refl))) as [h ->]. cbn [obind].
  destruct (memberOf X (vvid (sdst s)) seen); [eexists; reflexivity|]. apply IH. intros; apply H; right; assumption.
Qed.
Lemma dupEdges_ret X l : forall seen src, canHash src -> (forall s, In s l -> canHash (vvid (sdst s)) /\ stype s <> int32_min) -> exists b, dupEdges X seen src l = Ret b.
Proof.
  induction l as [|s l IH]; intros seen src Hs H; [eexists; reflexivity|]. cbn [dupEdges]. destruct (H s (or_introl eq_refl)) as [Hd Ht].
  destruct (canHash_ok X _ Hs) as [h1 ->]. destruct (canHash_ok X _ Hd) as [h2 ->]. cbn [obind].
  assert (G : exists k, (if 0 <? stype s then Ret (src, vvid (sdst s), stype s, srank s) else let* t := negType (stype s) in Ret (vvid (sdst s), src, t, srank s)) = Ret k).
  { destruct (0 <? stype s); [eexists; reflexivity|]. unfold negType. destruct (Z.eqb_spec (stype s) int32_min); [contradiction|]. eexists; reflexivity. }
  destruct G as [k ->]. cbn [obind]. destruct (existsb (keyFound X k) seen); [eexists; reflexivity|]. apply IH; [exact Hd|]. intros; apply H; right; assumption.
Qed.
(** hasSameVertexInPath and hasSameEdgeInPath return if the ids can be hashed and, for edges, no type is -2^31. *)
Theorem C84_path_checks : forall X W o v,
  (forall p, v = VPath p -> canHash (vvid (psrc p)) /\ forall s, In s (psteps p) -> canHash (vvid (sdst s))) ->
  (exists r, callFunction X W (B "hassamevertexinpath") o [v] = Some (Ret r)) /\
  ((forall p s, v = VPath p -> In s (psteps p) -> stype s <> int32_min) -> exists r, callFunction X W (B "hassameedgeinpath") o [v] = Some (Ret r)).
Proof.
  intros X W o v H. change (callFunction X W (B "hassamevertexinpath") o [v]) with (Some (fSameVertex X [v])).
  change (callFunction X W (B "hassameedgeinpath") o [v]) with (Some (fSameEdge X [v])).
  destruct v as [| | | | | | | | | | |p| | | |]; try (split; [|intros _]; eexists; reflexivity). destruct (H p eq_refl) as [H1 H2]. split; [|intros Ht].
  - unfold fSameVertex, hasDuplicateVertices. destruct (psteps p) as [|s l]; [eexists; reflexivity|].
    destruct (canHash_ok X _ H1) as [h ->]. cbn [obind]. destruct (dupVertices_ret X (s :: l) [vvid (psrc p)] H2) as [b ->]. eexists; reflexivity.
  - unfold fSameEdge, hasDuplicateEdges. specialize (Ht p). destruct (psteps p) as [|s [|s2 l]]; try (eexists; reflexivity).
    destruct (dupEdges_ret X (s :: s2 :: l) [] (vvid (psrc p)) H1) as [b ->]; [intros x Hx; split; [exact (H2 x Hx)|exact (Ht x eq_refl Hx)]|]. eexists; reflexivity.
Qed.
Example C84_path_ex : canHash (VList [VInt 1; VStr (B "x")]).
Proof. split; [intros []|]. intros x H. inversion H as [? ? Hi|? y ? Hi Hn]; subst; destruct Hi as [<-|[<-|[]]]; try (intros []); inversion Hn. Qed.

(** * datetime *)
(** isLeapYear takes the year as an int16_t, but this makes no difference up to the year 32835, either way. *)
Lemma leap_wide y : -32831 <= y <= 32830 -> isLeapYear y = gregorian_leap y.
Proof.
  intros H. destruct (Z_le_gt_dec (-32768) y) as [L|L]; [destruct (Z_le_gt_dec y 32767) as [U|U]; [apply isLeapYear_greg; lia|]|].
  - assert (T : forallb (fun k => Bool.eqb (isLeapYear (32768 + Z.of_nat k)) (gregorian_leap (32768 + Z.of_nat k))) (seq 0 64) = true) by (vm_compute; reflexivity).
    rewrite forallb_forall in T. specialize (T (Z.to_nat (y - 32768))). rewrite Z2Nat.id in T by lia. replace (32768 + (y - 32768)) with y in T by lia.
    apply Bool.eqb_prop, T, in_seq. lia.
  - assert (T : forallb (fun k => Bool.eqb (isLeapYear (-32769 - Z.of_nat k)) (gregorian_leap (-32769 - Z.of_nat k))) (seq 0 64) = true) by (vm_compute; reflexivity).
    rewrite forallb_forall in T. specialize (T (Z.to_nat (-32769 - y))). rewrite Z2Nat.id in T by lia. replace (-32769 - (-32769 - y)) with y in T by lia.
    apply Bool.eqb_prop, T, in_seq. lia.
Qed.
Definition inWide (T : Z) : Prop := gB (-32830) <= T < gB 32830.
Lemma term_last_wide T : inWide T -> term T 2 (fun d => -1 <= d <= 365).
Proof.
  intros HT y days Heq Hd. rewrite (yearLoop_unfold 1 y days T Heq).
  destruct (_ || _) eqn:E; [|discriminate].
  assert (days = -1 \/ days = 365) as [-> | ->].
  { destruct (isLeapYear y); lia. }
  - change (-1 / 365) with (-1).
    assert (Hs : T - gB (y + -1) = glen (y + -1) - 1).
    { pose proof (gB_step (y + -1)). replace (y + -1 + 1) with y in H by lia. lia. }
    rewrite (yearLoop_unfold 0 (y + -1) (T - gB (y + -1)) T) by lia.
    pose proof (glen_cases (y + -1)).
    assert (Hy : -32830 <= y + -1 <= 32829).
    { destruct HT as [Hlo Hhi]. split.
      - assert (gB (-32830) < gB y) by lia. pose proof (gB_lt_inv _ _ H0). lia.
      - assert (gB (y + -1) < gB 32830) by lia. pose proof (gB_lt_inv _ _ H0). lia. }
    rewrite leap_wide by lia. fold (glen (y + -1)). rewrite Hs.
    replace (_ || _) with false by lia. discriminate.
  - change (365 / 365) with 1.
    assert (Hs : 0 <= T - gB (y + 1) -> yearLoop 1 (y + 1) (T - gB (y + 1)) <> Diverge).
    { intros H0. pose proof (gB_step y). pose proof (glen_cases y).
      rewrite (yearLoop_unfold 0 (y + 1) (T - gB (y + 1)) T) by lia.
      replace (_ || _) with false; [discriminate|].
      destruct (isLeapYear (y + 1)); lia. }
    apply Hs. pose proof (gB_step y).
    assert (isLeapYear y = false) by (destruct (isLeapYear y); [lia|reflexivity]).
    destruct (Z_le_gt_dec (-32830) y), (Z_le_gt_dec y 32829).
    + rewrite leap_wide in H0 by lia. unfold glen in H. rewrite H0 in H. lia.
    + destruct HT as [_ Hhi]. pose proof (gB_le 32830 y ltac:(lia)). lia.
    + destruct HT as [Hlo _]. pose proof (gB_le (y + 1) (-32830) ltac:(lia)). lia.
    + lia.
Qed.
Lemma term_wide T : inWide T -> term T 5 (fun d => -13000000 <= d <= 13000000).
Proof.
  intros HT.
  eapply (term_step T 4 _ (fun d => -10000 <= d <= 10000)).
  2:{ intros y days Heq Hd. pose proof (guess_bound y days T Heq) as [H1 H2]. cbn zeta in *. destruct (Z_lt_ge_dec days 0); lia. }
  eapply (term_step T 3 _ (fun d => -380 <= d <= 380)).
  2:{ intros y days Heq Hd. pose proof (guess_bound y days T Heq) as [H1 H2]. cbn zeta in *. destruct (Z_lt_ge_dec days 0); lia. }
  eapply (term_step T 2 _ (fun d => -1 <= d <= 365)).
  2:{ intros y days Heq Hd. pose proof (guess_bound y days T Heq) as [H1 H2]. cbn zeta in *. destruct (Z_lt_ge_dec days 0); lia. }
  apply term_last_wide. assumption.
Qed.
Lemma yearLoop_exit f : forall y days r, yearLoop f y days = Ret r -> 0 <= snd r < (if isLeapYear (fst r) then 366 else 365).
Proof.
  induction f as [|f IH]; intros y days r; [discriminate|]. cbn [yearLoop]. destruct (_ || _) eqn:E; [apply IH|]. intros [= <-]. cbn [fst snd]. destruct (isLeapYear y); lia.
Qed.
Lemma seconds_wide s : min_unix - 1100000000 <= s <= max_unix + 1100000000 -> exists d, unixSecondsToDateTime s = Ret d.
Proof.
  intros Hs. unfold unixSecondsToDateTime, kSecondsOfDay, kSecondsOfHour, kSecondsOfMinute.
  set (T := s / 86400). set (r := s mod 86400).
  assert (Hpair : (if Z.rem s 86400 <? 0 then (Z.rem s 86400 + 86400, Z.quot s 86400 - 1) else (Z.rem s 86400, Z.quot s 86400)) = (r, T)).
  { unfold r, T. destruct (Z.rem s 86400 <? 0) eqn:E; f_equal; lia. }
  rewrite Hpair.
  assert (HT : inWide T).
  { unfold inWide, T. assert (gB (-32830) <= -12710000) by (vm_compute; discriminate). assert (11271000 <= gB 32830) by (vm_compute; discriminate).
    unfold min_unix, max_unix in Hs. lia. }
  assert (H0 : gB 1970 + T = T) by (change (gB 1970) with 0; lia).
  assert (B : -13000000 <= T <= 13000000) by (unfold T; unfold min_unix, max_unix in Hs; lia).
  pose proof (term_wide T HT 1970 T H0 B) as Ht.
  destruct (yearLoop_ret 5 1970 T) as [Hd|[[y d] Hr]]; [contradiction|].
  assert (H64 : yearLoop yearFuel 1970 T = Ret (y, d)) by (eapply yearLoop_fuel; [|exact Hr]; unfold yearFuel; lia).
  rewrite H64. cbn [obind]. pose proof (yearLoop_exit _ _ _ _ Hr) as Hx. cbn [fst snd] in Hx. unfold daysSoFar. set (leap := isLeapYear y) in *.
  assert (Hd' : d < cum leap (11 + 2)) by (change (11 + 2) with 13; rewrite cum_13; lia).
  destruct (monthLoop_correct leap d ltac:(lia) 13 11 ltac:(lia) ltac:(lia) Hd') as (mi & Hm & Hmr & Hc).
  rewrite Hm. cbn [obind]. pose proof (arr_cum leap (mi + 1) ltac:(lia)) as Ha. replace (mi + 1 - 1) with mi in Ha by lia. rewrite Ha. cbn [obind]. eexists; reflexivity.
Qed.
Lemma gday_bounds y m d : -32768 <= y <= 32767 -> 1 <= m <= 12 -> 0 <= d <= 31 -> -12687795 <= gday (mkDate y m d) <= 11248800.
Proof.
  intros Hy Hm Hd. unfold gday. cbn [year month day]. pose proof (gB_le (-32768) y ltac:(lia)) as L. pose proof (gB_le y 32767 ltac:(lia)) as U.
  change (gB (-32768)) with (-12687794) in L. assert (E : gB 32767 = 11248373) by (vm_compute; reflexivity). rewrite E in U.
  assert (C : forall lp, 0 <= cum lp m <= 335).
  { intros lp. assert (m = 1 \/ m = 2 \/ m = 3 \/ m = 4 \/ m = 5 \/ m = 6 \/ m = 7 \/ m = 8 \/ m = 9 \/ m = 10 \/ m = 11 \/ m = 12) as K by lia.
    repeat (destruct K as [->|K]; [destruct lp; vm_compute; split; discriminate|]). subst m. destruct lp; vm_compute; split; discriminate. }
  specialize (C (gregorian_leap y)). lia.
Qed.
Lemma toUTC_ret off d : -1000000000 < off < 1000000000 -> -32768 <= dyear d <= 32767 -> 1 <= dmonth d <= 12 -> 0 <= dday d <= 31 ->
  0 <= dhour d <= 23 -> 0 <= dminute d <= 59 -> 0 <= dsec d <= 60 -> exists u, dateTimeToUTC off d = Ret u.
Proof.
  intros Ho Hy Hm Hd Hh Hmi Hse. unfold dateTimeToUTC, dateTimeShift. destruct (- off =? 0); [eexists; reflexivity|].
  rewrite unix_eq by assumption. cbn [obind]. pose proof (gday_bounds (dyear d) (dmonth d) (dday d) Hy Hm Hd) as G. fold (date_of d) in G.
  set (k := 86400 * gday (date_of d) + second_of_day (dhour d) (dminute d) (dsec d)).
  assert (Bk : min_unix - 1100000000 <= k + - off <= max_unix + 1100000000) by (unfold k, second_of_day, min_unix, max_unix; lia).
  unfold addI64. replace (in_int64 (k + - off)) with true by (unfold in_int64, int64_min, int64_max, min_unix, max_unix in *; lia). cbn [obind].
  destruct (seconds_wide _ Bk) as [u ->]. eexists; reflexivity.
Qed.
(** datetime() returns on every accepted call, also when the zone takes the result beyond the years a DateTime can hold; zones up to thirty years. *)
Theorem C84_datetime : forall X W o args, goodWorld W -> goodClock o -> -1000000000 < wOffset W < 1000000000 -> sizeOf args <= 1 ->
  (forall m, args = [VMap m] -> NoDup (map fst m)) -> exists v, callFunction X W (B "datetime") o args = Some (Ret v).
Proof.
  intros X W o args (_ & _ & Gdt & _) (Gu & Gm) Goff Ha Hmap.
  destruct args as [|v [|w args]]; [| |rewrite !sizeOf_cons in Ha; pose proof (sizeOf_nonneg args); lia].
  - destruct (unixSecondsToDateTime_spec (oUnix o)) as (d & Hd & _); [unfold min_unix; lia|].
    assert (G : exists v, fDatetime W o [] = Ret v) by (unfold fDatetime, utcDateTime; rewrite Hd; cbn; eexists; reflexivity).
    destruct G as [v G]. exists v. rewrite <- G. reflexivity.
  - assert (G : exists r, fDatetime W o [v] = Ret r).
    { destruct v; try (eexists; reflexivity).
      - unfold fDatetime, parseDateTime. destruct (wGetDateTime W s) as [t|] eqn:E; [|eexists; reflexivity].
        destruct (Gdt _ _ E) as (T1 & T2 & T3 & T4 & T5 & T6). unfold validateDateTime. cbn [dyear dmonth dday].
        replace (wrap16 (tmYear t + 1900)) with (tmYear t + 1900) by (unfold wrap16; lia).
        replace ((tmMon t + 1) mod 16) with (tmMon t + 1) by lia.
        destruct (validate_tm (tmYear t + 1900) (tmMon t + 1) (tmDay t mod 32)) as [b Hb]; [lia|lia|]. rewrite Hb. cbn [obind].
        destruct b; [|eexists; reflexivity].
        edestruct (toUTC_ret (wOffset W)) as [u ->]; cbn [dyear dmonth dday dhour dminute dsec]; try lia. eexists; reflexivity.
      - destruct (C85_datetime_from_map m (Hmap m eq_refl)) as (r & Hr & Hr2). unfold fDatetime. rewrite Hr. cbn [obind].
        destruct r as [d|]; [|eexists; reflexivity]. destruct (proj1 (Hr2 d) eq_refl) as (_ & _ & (Hy & Hm & Hd) & (Hh & Hmi & Hs) & _). cbn in Hy, Hm, Hd.
        pose proof (month_len_bounds (gregorian_leap (dyear d)) (dmonth d)).
        destruct (toUTC_ret (wOffset W) d) as [u ->]; try lia. eexists; reflexivity. }
    destruct G as [r G]. exists r. rewrite <- G. reflexivity.
Qed.
Example C84_datetime_ex : let m := [(B "year", VInt 32767); (B "month", VInt 12); (B "day", VInt 31); (B "hour", VInt 23)] in
  let W := mkWorld (wMath tW) (wHypot tW) (wPow tW) (wGetDate tW) (wGetTime tW) (wGetDateTime tW) (-28800) (wFuel tW) in
  NoDup (map fst m) /\ callFunction tX W (B "datetime") tO [VMap m] = Some (Ret (VDateTime (mkDT (-32768) 1 1 7 0 0 0))).
Proof. split; [repeat constructor; cbn; intros H; repeat (destruct H as [H|H]; [discriminate H|]); contradiction|vm_compute; reflexivity]. Qed.

Print Assumptions C84_hash.
Print Assumptions C84_pow.
Print Assumptions C84_tointeger.
Print Assumptions C84_pad.
Print Assumptions C84_range.
Print Assumptions C84_rowcol.
Print Assumptions C84_path_checks.
Print Assumptions C84_datetime.
