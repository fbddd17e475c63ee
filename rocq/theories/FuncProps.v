(** Properties C40, C41, C42: padding, substrings and ranges. *)
From Coq Require Import String List.
From Verif Require Import Prelude Trans ValueBase ValueModel GraphModel EvalModel FuncModel FuncProofs.
Import ListNotations.
Open Scope Z_scope.

(** * C40: lpad and rpad *)

(** [fill] consists of repeated copies of [pad], the last one cut. *)
Definition repeats (pad fill : str) : Prop :=
  forall i, (i < List.length fill)%nat -> nth_error fill i = nth_error pad (i mod List.length pad).
(** The documented result of padding [s] to [n] bytes: the first n bytes of s, or all of s and a fill. *)
Definition padded (left : bool) (s pad r : str) (n : Z) : Prop :=
  sizeOf r = n /\
  ((n < sizeOf s /\ exists rest, s = r ++ rest) \/
   (sizeOf s <= n /\ exists fill, repeats pad fill /\ r = if left then fill ++ s else s ++ fill)).

Lemma pad_fill pad m : 0 <= m -> pad <> [] \/ m = 0 -> forall fuel stream, (Z.to_nat m < fuel)%nat ->
  exists r k, padLoop fuel pad m stream = Ret (r, stream ++ List.concat (repeat pad k)) /\
    repeats pad (List.concat (repeat pad k) ++ substrAt pad 0 r) /\
    sizeOf (List.concat (repeat pad k) ++ substrAt pad 0 r) = m.
Proof.
  intros Hm Hp fuel stream Hf. destruct pad as [|x pad'].
  - destruct Hp as [Hp | ->]; [congruence|]. destruct fuel; [lia|].
    exists 0, 0%nat. rewrite padLoop_zero. cbn [repeat List.concat]. rewrite app_nil_r. splits; auto.
    intros i Hi. apply Nat.nlt_0_r in Hi. destruct Hi.
  - set (pad := x :: pad') in *.
    assert (Hpos : (0 < List.length pad)%nat) by (cbn; lia).
    destruct (padLoop_ok pad ltac:(discriminate) fuel m stream Hm Hf) as (k & r & E & Hr & Hk).
    exists r, k. assert (Hs : substrAt pad 0 r = firstn (Z.to_nat r) pad).
    { unfold substrAt. change (Z.to_nat 0) with 0%nat. cbn [skipn]. f_equal. f_equal. unfold sizeOf in *. lia. }
    assert (Hl : List.length (List.concat (repeat pad k) ++ firstn (Z.to_nat r) pad) =
                 (k * List.length pad + Z.to_nat r)%nat).
    { rewrite app_length, concat_repeat_length, firstn_length. unfold sizeOf in *. lia. }
    splits; [assumption| |].
    + intros i Hi. rewrite Hs in *. rewrite Hl in Hi. apply cycle_nth; unfold sizeOf in *; lia.
    + rewrite Hs. unfold sizeOf in *. rewrite Hl. lia.
Qed.

(** Both functions terminate with the documented string, for every string, every size and every pad that
    is not empty (or not needed). The size must be below 2^31 when the string is cut; see the refutation. *)
Theorem C40_pad : forall s n pad, 0 <= n -> (n < sizeOf s -> n < 2 ^ 31) -> (pad <> [] \/ n <= sizeOf s) ->
  exists rl rr enough, forall fuel, (enough <= fuel)%nat ->
    fLpad fuel [VStr s; VInt n; VStr pad] = Ret (VStr rl) /\ padded true s pad rl n /\
    fRpad fuel [VStr s; VInt n; VStr pad] = Ret (VStr rr) /\ padded false s pad rr n.
Proof.
  intros s n pad Hn Hcut Hpad. unfold fLpad, fRpad, padded.
  replace (n <? 0) with false by (symmetry; apply Z.ltb_ge; lia).
  destruct (Z.ltb_spec n (sizeOf s)) as [H | H].
  - specialize (Hcut H).
    assert (Hw : u64 (wrap32 n) = n).
    { unfold wrap32. rewrite Z.mod_small by lia. unfold u64, two64. rewrite Z.mod_small; lia. }
    rewrite Hw. exists (substrAt s 0 n), (substrAt s 0 n), 0%nat. intros fuel _.
    destruct (substrAt_spec s 0 n) as (pre & post & E & Hp & Hl); [lia|lia|].
    assert (pre = []) by (destruct pre; [reflexivity|unfold sizeOf in Hp; cbn in Hp; lia]). subst pre.
    cbn [app] in E.
    splits; auto; try lia; left; (split; [assumption|]); exists post; exact E.
  - set (m := n - sizeOf s).
    assert (Hm : 0 <= m) by (unfold m; lia).
    assert (Hp : pad <> [] \/ m = 0) by (destruct Hpad; [auto|right; unfold m; lia]).
    assert (Huniq : forall f1 f2 st, (Z.to_nat m < f1)%nat -> (Z.to_nat m < f2)%nat ->
                      padLoop f1 pad m st = padLoop f2 pad m st).
    { assert (G : forall f1 f2 z st, 0 <= z -> (pad <> [] \/ z = 0) -> (Z.to_nat z < f1)%nat -> (Z.to_nat z < f2)%nat ->
                    padLoop f1 pad z st = padLoop f2 pad z st).
      { induction f1 as [|f1 IH]; intros [|f2] z st Hz Hpz H1 H2; try lia. cbn [padLoop].
        destruct (Z.ltb_spec (sizeOf pad) z); [|reflexivity].
        destruct Hpz as [Hpz | ->]; [|pose proof (sizeOf_nonneg pad); lia].
        assert (0 < sizeOf pad) by (destruct pad; [congruence|unfold sizeOf; cbn; lia]).
        apply IH; auto; lia. }
      intros; apply G; auto. }
    destruct (pad_fill pad m Hm Hp (S (Z.to_nat m)) [] ltac:(lia)) as (r & k & E & Hrep & Hsz).
    destruct (pad_fill pad m Hm Hp (S (Z.to_nat m)) s ltac:(lia)) as (r' & k' & E' & Hrep' & Hsz').
    eexists _, _, (S (Z.to_nat m)). intros fuel Hf.
    rewrite (Huniq fuel (S (Z.to_nat m)) []) by lia.
    rewrite (Huniq fuel (S (Z.to_nat m)) s) by lia.
    fold m. rewrite E, E'. cbn [obind fst snd app]. splits; try reflexivity.
    + rewrite app_assoc, sizeOf_app, Hsz. unfold m. lia.
    + right. split; [assumption|]. eexists. split; [exact Hrep|]. rewrite app_assoc. reflexivity.
    + rewrite <- app_assoc, sizeOf_app, Hsz'. unfold m. lia.
    + right. split; [assumption|]. eexists. split; [exact Hrep'|]. rewrite <- app_assoc. reflexivity.
Qed.

(** A negative size gives the empty string. *)
Theorem C40_negative : forall fuel s n pad, n < 0 ->
  fLpad fuel [VStr s; VInt n; VStr pad] = Ret (VStr []) /\ fRpad fuel [VStr s; VInt n; VStr pad] = Ret (VStr []).
Proof.
  intros fuel s n pad H. unfold fLpad, fRpad. apply Z.ltb_lt in H. rewrite H. auto.
Qed.

(** "always terminate" is false: an empty pad loops for ever whenever there is something to fill. *)
Theorem C40_empty_pad_refuted : forall s n, sizeOf s < n -> forall fuel,
  fLpad fuel [VStr s; VInt n; VStr []] = Diverge /\ fRpad fuel [VStr s; VInt n; VStr []] = Diverge.
Proof.
  intros s n H fuel. unfold fLpad, fRpad. pose proof (sizeOf_nonneg s).
  replace (n <? 0) with false by (symmetry; apply Z.ltb_ge; lia).
  replace (n <? sizeOf s) with false by (symmetry; apply Z.ltb_ge; lia).
  rewrite !padLoop_stuck by lia. auto.
Qed.

(** "exactly n bytes" is false for strings longer than 2^31 bytes: the size is cut to 32 bits and the
    whole string comes back. *)
Theorem C40_huge_refuted : exists (s : str) n, 0 <= n < sizeOf s /\
  forall fuel pad, fLpad fuel [VStr s; VInt n; VStr pad] = Ret (VStr s) /\
                   fRpad fuel [VStr s; VInt n; VStr pad] = Ret (VStr s).
Proof.
  assert (G : forall s : str, sizeOf s = 2 ^ 31 + 1 -> exists (s : str) n, 0 <= n < sizeOf s /\
    forall fuel pad, fLpad fuel [VStr s; VInt n; VStr pad] = Ret (VStr s) /\
                     fRpad fuel [VStr s; VInt n; VStr pad] = Ret (VStr s)).
  { intros s Hs. exists s, (2 ^ 31). split; [lia|]. intros fuel pad. unfold fLpad, fRpad.
    replace (2 ^ 31 <? 0) with false by reflexivity.
    replace (2 ^ 31 <? sizeOf s) with true by (symmetry; apply Z.ltb_lt; lia).
    rewrite substrAt_all; [auto|]. rewrite Hs. change (u64 (wrap32 (2 ^ 31))) with (2 ^ 64 - 2 ^ 31). lia. }
  apply (G (repeat 97 (Z.to_nat (2 ^ 31 + 1)))). unfold sizeOf. rewrite repeat_length. apply Z2Nat.id. lia.
Qed.

Example C40_ex : fLpad 9 [VStr (B "abc"); VInt 8; VStr (B "xy")] = Ret (VStr (B "xyxyxabc")) /\
  fRpad 9 [VStr (B "abc"); VInt 8; VStr (B "xy")] = Ret (VStr (B "abcxyxyx")) /\
  fLpad 9 [VStr (B "abc"); VInt 2; VStr (B "xy")] = Ret (VStr (B "ab")).
Proof. splits; reflexivity. Qed.

(** * C41: left, right, substr *)

Theorem C41_left : forall s n, 0 <= n -> exists r rest,
  fLeft [VStr s; VInt n] = Ret (VStr r) /\ s = r ++ rest /\ sizeOf r = Z.min n (sizeOf s).
Proof.
  intros s n H. unfold fLeft. replace (n <? 0) with false by (symmetry; apply Z.ltb_ge; lia).
  pose proof (sizeOf_nonneg s).
  destruct (substrAt_spec s 0 n) as (pre & post & E & Hp & Hl); [lia|lia|].
  assert (pre = []) by (destruct pre; [reflexivity|unfold sizeOf in Hp; cbn in Hp; lia]). subst pre.
  exists (substrAt s 0 n), post. splits; [reflexivity|exact E|lia].
Qed.

Theorem C41_right : forall s n, 0 <= n -> exists r rest,
  fRight [VStr s; VInt n] = Ret (VStr r) /\ s = rest ++ r /\ sizeOf r = Z.min n (sizeOf s).
Proof.
  intros s n H. unfold fRight. replace (n <? 0) with false by (symmetry; apply Z.ltb_ge; lia).
  cbv zeta. pose proof (sizeOf_nonneg s).
  set (l := if sizeOf s <? n then sizeOf s else n).
  assert (Hl : l = Z.min n (sizeOf s)) by (unfold l; destruct (Z.ltb_spec (sizeOf s) n); lia).
  destruct (substrAt_spec s (sizeOf s - l) (sizeOf s)) as (pre & post & E & Hp & Hz); [lia|lia|].
  assert (post = []).
  { assert (sizeOf post = 0); [|destruct post; [reflexivity|unfold sizeOf in *; cbn in *; lia]].
    pose proof (f_equal sizeOf E) as E2. rewrite !sizeOf_app in E2. lia. }
  subst post. rewrite app_nil_r in E.
  exists (substrAt s (sizeOf s - l) (sizeOf s)), pre. splits; [reflexivity|exact E|lia].
Qed.

(** substr(s, start, len) for lengths below 2^31, and substr(s, start) for strings below 2^31 bytes:
    the bytes from [start] on, at most [len] of them. *)
Theorem C41_substr : forall s start len, 0 <= start -> 0 <= len < 2 ^ 31 -> exists pre r post,
  fSubstr [VStr s; VInt start; VInt len] = Ret (VStr r) /\ s = pre ++ r ++ post /\
  sizeOf pre = Z.min start (sizeOf s) /\ sizeOf r = Z.min len (sizeOf s - sizeOf pre).
Proof.
  intros s start len Hs Hlen. unfold fSubstr. cbv zeta.
  assert (Hw : wrap32 len = len) by (unfold wrap32; rewrite Z.mod_small; lia). rewrite Hw.
  replace (start <? 0) with false by (symmetry; apply Z.ltb_ge; lia).
  replace (len <? 0) with false by (symmetry; apply Z.ltb_ge; lia). cbn [orb].
  pose proof (sizeOf_nonneg s).
  destruct (Z.leb_spec (sizeOf s) start) as [H1 | H1]; cbn [orb].
  - exists s, [], []. splits; [reflexivity|rewrite !app_nil_r; reflexivity|lia|].
    change (sizeOf (@nil Z)) with 0. lia.
  - destruct (Z.eqb_spec len 0) as [-> | H2].
    + exists (firstn (Z.to_nat start) s), [], (skipn (Z.to_nat start) s).
      splits; [reflexivity|cbn [app]; symmetry; apply firstn_skipn|rewrite sizeOf_firstn; lia|].
      rewrite sizeOf_firstn by lia. change (sizeOf (@nil Z)) with 0. lia.
    + destruct (substrAt_spec s start len) as (pre & post & E & Hp & Hl); [lia|lia|].
      exists pre, (substrAt s start len), post. splits; [reflexivity|exact E|lia|lia].
Qed.

Theorem C41_substr_to_end : forall s start, 0 <= start < two64 -> sizeOf s < 2 ^ 31 -> exists pre r,
  fSubstr [VStr s; VInt start] = Ret (VStr r) /\ s = pre ++ r /\ sizeOf pre = Z.min start (sizeOf s).
Proof.
  intros s start Hs Hz. unfold fSubstr. cbv zeta. pose proof (sizeOf_nonneg s).
  assert (Hu : u64 start = start)
    by (unfold u64; apply Z.mod_small; unfold two64 in Hs; lia). rewrite Hu.
  set (l := if sizeOf s <=? start then 0 else sizeOf s - start).
  assert (Hl : l = Z.max 0 (sizeOf s - start)) by (unfold l; destruct (Z.leb_spec (sizeOf s) start); lia).
  assert (Hw : wrap32 l = l) by (unfold wrap32; rewrite Z.mod_small; lia). rewrite Hw.
  replace (start <? 0) with false by (symmetry; apply Z.ltb_ge; lia).
  replace (l <? 0) with false by (symmetry; apply Z.ltb_ge; lia). cbn [orb].
  destruct (Z.leb_spec (sizeOf s) start) as [H1 | H1]; cbn [orb].
  - exists s, []. splits; [reflexivity|rewrite app_nil_r; reflexivity|lia].
  - destruct (Z.eqb_spec l 0) as [E0 | H2]; [lia|].
    destruct (substrAt_spec s start l) as (pre & post & E & Hp & Hll); [lia|lia|].
    assert (post = []).
    { assert (sizeOf post = 0); [|destruct post; [reflexivity|unfold sizeOf in *; cbn in *; lia]].
      pose proof (f_equal sizeOf E) as E2. rewrite !sizeOf_app in E2. lia. }
    subst post. rewrite app_nil_r in E. exists pre, (substrAt s start l). splits; [reflexivity|exact E|lia].
Qed.

(** Negative arguments give an error null; a negative length must not be below -2^31. *)
Theorem C41_negative : forall s n, n < 0 ->
  fLeft [VStr s; VInt n] = Ret (VNull NBadType) /\ fRight [VStr s; VInt n] = Ret (VNull NBadType) /\
  fSubstr [VStr s; VInt n] = Ret (VNull NBadData) /\
  (forall len, fSubstr [VStr s; VInt n; VInt len] = Ret (VNull NBadData)) /\
  (- 2 ^ 31 <= n -> forall start, fSubstr [VStr s; VInt start; VInt n] = Ret (VNull NBadData)).
Proof.
  intros s n H. unfold fLeft, fRight, fSubstr. cbv zeta.
  replace (n <? 0) with true by (symmetry; apply Z.ltb_lt; lia). cbn [orb]. splits; auto.
  intros Hlow start. assert (Hw : wrap32 n = n).
  { unfold wrap32. replace (n + _) with (n + 2147483648) by reflexivity. rewrite Z.mod_small; lia. }
  rewrite Hw. replace (n <? 0) with true by (symmetry; apply Z.ltb_lt; lia). rewrite orb_true_r. reflexivity.
Qed.

(** "no argument is truncated" is false: the length of substr is cut to 32 bits. A huge length yields one
    byte, a huge negative one is accepted. *)
Theorem C41_length_truncated_refuted :
  fSubstr [VStr (B "hello"); VInt 1; VInt (2 ^ 32 + 1)] = Ret (VStr (B "e")) /\
  fSubstr [VStr (B "hello"); VInt 1; VInt (- 2 ^ 32 + 1)] = Ret (VStr (B "e")) /\
  fSubstr [VStr (B "hello"); VInt 1; VInt (2 ^ 31)] = Ret (VNull NBadData).
Proof. splits; reflexivity. Qed.

Example C41_ex : fLeft [VStr (B "hello"); VInt 2] = Ret (VStr (B "he")) /\
  fRight [VStr (B "hello"); VInt 2] = Ret (VStr (B "lo")) /\
  fSubstr [VStr (B "hello"); VInt 1; VInt 3] = Ret (VStr (B "ell")) /\
  fSubstr [VStr (B "hello"); VInt 3] = Ret (VStr (B "lo")) /\
  fLeft [VStr (B "hello"); VInt int64_max] = Ret (VStr (B "hello")).
Proof. splits; reflexivity. Qed.

(** * C42: range *)

(** Position k of the result is start + k * step exactly while that value does not pass the end. *)
Definition within (last step z : Z) : Prop := if 0 <? step then z <= last else last <= z.
Definition isRange (start last step : Z) (r : list value) : Prop :=
  forall k, (within last step (start + Z.of_nat k * step) -> nth_error r k = Some (VInt (start + Z.of_nat k * step))) /\
            (~ within last step (start + Z.of_nat k * step) -> nth_error r k = None).

Lemma goesOn_within i last step : goesOn i last step = true <-> within last step i.
Proof. unfold goesOn, within. destruct (0 <? step); apply Z.leb_le. Qed.

(** Number of elements. *)
Definition rangeCount (start last step : Z) : nat :=
  if 0 <? step then Z.to_nat ((last - start) / step + 1) else Z.to_nat ((start - last) / - step + 1).

Lemma rangeCount_spec start last step k : step <> 0 ->
  (within last step (start + Z.of_nat k * step) <-> (k < rangeCount start last step)%nat).
Proof.
  intros Hs. unfold within, rangeCount. destruct (Z.ltb_spec 0 step) as [H | H].
  - pose proof (Z.div_mod (last - start) step ltac:(lia)). pose proof (Z.mod_pos_bound (last - start) step ltac:(lia)).
    set (q := (last - start) / step) in *. split; intros Hk; nia.
  - pose proof (Z.div_mod (start - last) (- step) ltac:(lia)).
    pose proof (Z.mod_pos_bound (start - last) (- step) ltac:(lia)).
    set (q := (start - last) / - step) in *. split; intros Hk; nia.
Qed.

(** The range is computed exactly when the value after the last element still is an int64. *)
Theorem C42_range : forall start last step, step <> 0 -> in_int64 start = true ->
  (forall k, within last step (start + Z.of_nat k * step) -> in_int64 (start + Z.of_nat (S k) * step) = true) ->
  exists r enough, isRange start last step r /\ forall fuel, (enough <= fuel)%nat ->
    fRange fuel [VInt start; VInt last; VInt step] = Ret (VList r) /\
    (step = 1 -> fRange fuel [VInt start; VInt last] = Ret (VList r)).
Proof.
  intros start last step Hs Hi Hin. set (n := rangeCount start last step).
  exists (progression n start step), (S n). split.
  - intros k. rewrite progression_nth. pose proof (rangeCount_spec start last step k Hs) as Hk. fold n in Hk.
    destruct (Nat.ltb_spec k n) as [H | H]; split; intros W; auto.
    + exfalso. apply W, Hk. assumption.
    + apply Hk in W. lia.
  - intros fuel Hf.
    assert (E : rangeLoop fuel start last step [] = Ret (progression n start step)).
    { rewrite (rangeLoop_ok last step n fuel start []); [reflexivity|lia| |].
      - intros k Hk. apply (rangeCount_spec start last step k Hs) in Hk. split; [apply goesOn_within|apply Hin]; assumption.
      - destruct (goesOn _ _ _) eqn:G; [|reflexivity].
        apply goesOn_within, (rangeCount_spec start last step n Hs) in G. unfold n in G. lia. }
    unfold fRange. cbv zeta. replace (step =? 0) with false by (symmetry; apply Z.eqb_neq; lia).
    rewrite E. split; [reflexivity|]. intros ->. cbn [Z.eqb]. rewrite E. reflexivity.
Qed.

(** A zero step is an error null. *)
Theorem C42_zero_step : forall fuel start last,
  fRange fuel [VInt start; VInt last; VInt 0] = Ret (VNull NBadData).
Proof. reflexivity. Qed.

(** "defined for all arguments" is false: when the value after the last element is out of int64, the
    loop's addition overflows. This happens for every such argument triple. *)
Theorem C42_overflow_refuted : forall start last step, step <> 0 -> in_int64 start = true ->
  forall k, within last step (start + Z.of_nat k * step) -> in_int64 (start + Z.of_nat (S k) * step) = false ->
  exists enough, forall fuel, (enough <= fuel)%nat -> fRange fuel [VInt start; VInt last; VInt step] = UB.
Proof.
  intros start last step Hs Hi k Hw Hov.
  (* the first such k *)
  assert (Hfirst : exists k, within last step (start + Z.of_nat k * step) /\
             in_int64 (start + Z.of_nat (S k) * step) = false /\
             forall j, (j < k)%nat -> in_int64 (start + Z.of_nat (S j) * step) = true).
  { induction k as [k IH] using lt_wf_ind.
    destruct (forallb (fun j => in_int64 (start + Z.of_nat (S j) * step)) (seq 0 k)) eqn:F.
    - exists k. splits; auto. intros j Hj. rewrite forallb_forall in F. apply F. apply in_seq. lia.
    - apply not_true_iff_false in F. assert (exists j, (j < k)%nat /\ in_int64 (start + Z.of_nat (S j) * step) = false) as (j & Hj & Hjo).
      { clear -F. induction k as [|k IH]; [cbn in F; congruence|].
        destruct (in_int64 (start + Z.of_nat (S k) * step)) eqn:E.
        - destruct IH as (j & ? & ?); [|eauto].
          intros G. apply F. rewrite seq_S, forallb_app, G. cbn [forallb Nat.add]. rewrite E. reflexivity.
        - exists k. split; [lia|assumption]. }
      apply (IH j Hj); auto.
      apply rangeCount_spec; [assumption|]. apply rangeCount_spec in Hw; [|assumption]. lia. }
  clear k Hw Hov. destruct Hfirst as (k & Hw & Hov & Hj).
  exists (S k). intros fuel Hf. unfold fRange. cbv zeta.
  replace (step =? 0) with false by (symmetry; apply Z.eqb_neq; lia).
  rewrite (rangeLoop_ub last step k fuel start []); [reflexivity|lia| |apply goesOn_within; assumption|assumption].
  intros j Hlt. split; [|apply Hj; assumption]. apply goesOn_within, rangeCount_spec; [assumption|].
  apply rangeCount_spec in Hw; [|assumption]. lia.
Qed.
Example C42_overflow_ex : fRange 9 [VInt int64_max; VInt int64_max; VInt 1] = UB /\
  fRange 9 [VInt int64_min; VInt int64_min; VInt (-1)] = UB /\
  fRange 9 [VInt (int64_max - 10); VInt (int64_max - 1); VInt 6] = UB.
Proof. splits; reflexivity. Qed.

Example C42_ex : fRange 9 [VInt 1; VInt 10; VInt 4] = Ret (VList [VInt 1; VInt 5; VInt 9]) /\
  fRange 9 [VInt 5; VInt 1; VInt (-2)] = Ret (VList [VInt 5; VInt 3; VInt 1]) /\
  fRange 9 [VInt 5; VInt 1] = Ret (VList []).
Proof. splits; reflexivity. Qed.

Print Assumptions C40_pad.
Print Assumptions C40_huge_refuted.
Print Assumptions C41_substr.
Print Assumptions C42_range.
Print Assumptions C42_overflow_refuted.
