(** Theorems about casts (C145). *)
From Coq Require Import String List SpecFloat.
From Verif Require Import Prelude TimeModel ValueBase FloatProofs ValueModel ValueProofs ValueProps GraphModel ExprModel EvalModel EvalSpec EvalProofs EvalProps DecProofs FuncGuardProps CastModel.
Import ListNotations.
Local Open Scope list_scope.
Open Scope Z_scope.

Definition cast (t : Z) (e : expr) : expr := Node (KCast t) [e].
Lemma cast_run E c t e v w : yields E c e v -> (forall r0, exists r1, castTo E t v r0 = Ret (w, r1)) -> yields E c (cast t e) w.
Proof.
  intros Y H. eapply run_node; [|reflexivity]. intros r0. destruct (H r0) as [r1 H']. exists r1. cbn [evalNode].
  eapply gives_bind; [apply (gives_child E [e]) with (e := e); [reflexivity|exact Y]|]. apply gives_lift, H'.
Qed.
Lemma int_run E c e v w : yields E c e v -> vtoInt E v = Ret w -> yields E c (cast tInt e) w.
Proof. intros Y H. eapply cast_run; [exact Y|]. intros r0. exists w. unfold castTo. cbn. rewrite H. reflexivity. Qed.

(** * Texts to integers *)
(** A numeral: blanks, a sign or none, digits; and the number it stands for *)
Definition valueOf (ds : str) : Z := fold_left (fun a d => a * 10 + (d - 48)) ds 0.
Definition blank (b : Z) : Prop := b = 32 \/ 9 <= b <= 13.
Definition digit (b : Z) : Prop := 48 <= b <= 57.
Definition numeral (s : str) (z : Z) : Prop :=
  exists bs sign ds, s = bs ++ sign ++ ds /\ Forall blank bs /\ ds <> [] /\ Forall digit ds /\
    (sign = [45] /\ z = - valueOf ds \/ (sign = [43] \/ sign = []) /\ z = valueOf ds).
Lemma digits_spec s : forall acc, exists ds rest, s = ds ++ rest /\ Forall digit ds /\ stops rest = true /\ digits s acc = (List.length ds, fold_left (fun a d => a * 10 + (d - 48)) ds acc).
Proof.
  induction s as [|b s IH]; intros acc; cbn [digits].
  - exists [], []. splits; constructor.
  - destruct ((48 <=? b) && (b <=? 57)) eqn:D.
    + destruct (IH (acc * 10 + (b - 48))) as (ds & rest & -> & F & S & ->). exists (b :: ds), rest. splits; [reflexivity|constructor; [unfold digit; lia|exact F]|exact S|reflexivity].
    + exists [], (b :: s). splits; [reflexivity|constructor| |reflexivity]. cbn. unfold isDigit. rewrite D. reflexivity.
Qed.
Lemma blanks_spec s : exists bs rest, s = bs ++ rest /\ Forall blank bs /\ (forall b r, rest = b :: r -> ~ blank b) /\ skipBlanks s = (List.length bs, rest).
Proof.
  induction s as [|b s IH]; cbn [skipBlanks].
  - exists [], []. splits; try constructor. discriminate.
  - destruct (isBlank b) eqn:D.
    + destruct IH as (bs & rest & -> & F & S & ->). exists (b :: bs), rest. splits; [reflexivity|constructor; [unfold isBlank in D; unfold blank; lia|exact F]|exact S|reflexivity].
    + exists [], (b :: s). splits; [reflexivity|constructor| |reflexivity]. intros b' r [= <- <-]. unfold isBlank in D. unfold blank. lia.
Qed.
Lemma split_unique (P : Z -> Prop) : forall a b x y, Forall P a -> Forall P b -> (forall c r, x = c :: r -> ~ P c) -> (forall c r, y = c :: r -> ~ P c) -> a ++ x = b ++ y -> a = b /\ x = y.
Proof.
  induction a as [|c a IH]; intros [|d b] x y Fa Fb Hx Hy Q; cbn [app] in Q.
  - split; [reflexivity|exact Q].
  - destruct (Hx d (b ++ y) Q). apply (Forall_inv Fb).
  - destruct (Hy c (a ++ x) (eq_sym Q)). apply (Forall_inv Fa).
  - injection Q as <- Q. destruct (IH b x y (Forall_inv_tail Fa) (Forall_inv_tail Fb) Hx Hy Q) as [-> ->]. split; reflexivity.
Qed.
Definition signOf (s : str) : nat * bool * str := match s with 45 :: r => (1%nat, true, r) | 43 :: r => (1%nat, false, r) | _ => (O, false, s) end.
Lemma strtoll_eq s : strtoll s =
  let '(n1, s1) := skipBlanks s in
  let '(n2, neg, s2) := signOf s1 in
  let '(n3, z) := digits s2 0 in
  match n3 with
  | O => (0, O, false)
  | _ => let v := if neg then - z else z in
         if v <? int64_min then (int64_min, (n1 + n2 + n3)%nat, true)
         else if int64_max <? v then (int64_max, (n1 + n2 + n3)%nat, true)
         else (v, (n1 + n2 + n3)%nat, false)
  end.
Proof. reflexivity. Qed.
(** what strtoll makes of a whole text *)
Lemma strtoll_spec s : s <> [] ->
  (forall z, numeral s z -> strtoll s = (if z <? int64_min then int64_min else if int64_max <? z then int64_max else z, List.length s, (z <? int64_min) || (int64_max <? z))) /\
  ((forall z, ~ numeral s z) -> snd (fst (strtoll s)) <> List.length s).
Proof.
  intros Ns. rewrite strtoll_eq. destruct (blanks_spec s) as (bs & rest & Es & Fb & Hr & ->).
  assert (K : forall (neg : bool) (n2 : nat) s2 sign, rest = sign ++ s2 -> List.length sign = n2 -> (neg = true /\ sign = [45] \/ neg = false /\ (sign = [43] \/ sign = [] /\ forall c r, rest = c :: r -> c <> 45 /\ c <> 43)) ->
    let '(n3, z) := digits s2 0 in
    let R := match n3 with O => (0, O, false) | _ => let v := if neg then - z else z in
         if v <? int64_min then (int64_min, (List.length bs + n2 + n3)%nat, true)
         else if int64_max <? v then (int64_max, (List.length bs + n2 + n3)%nat, true)
         else (v, (List.length bs + n2 + n3)%nat, false) end in
    (forall z, numeral s z -> R = (if z <? int64_min then int64_min else if int64_max <? z then int64_max else z, List.length s, (z <? int64_min) || (int64_max <? z))) /\
    ((forall z, ~ numeral s z) -> snd (fst R) <> List.length s)).
  { intros neg n2 s2 sign Er Ls Hs. destruct (digits_spec s2 0) as (ds & tl & E2 & Fd & St & ->). cbv zeta.
    set (v := if neg then - valueOf ds else valueOf ds). change (fold_left (fun a d => a * 10 + (d - 48)) ds 0) with (valueOf ds). fold v.
    assert (U : forall z, numeral s z -> ds <> [] /\ tl = [] /\ z = v).
    { intros z (bs' & sign' & ds' & Es' & Fb' & Nd & Fd' & Hz).
      assert (Q : bs = bs' /\ rest = sign' ++ ds').
      { apply (split_unique blank); auto; [|congruence]. intros c r Ec Hc.
        destruct Hz as [[-> _]|[[->| ->] _]]; [injection Ec as <- _; unfold blank in Hc; lia..|]. cbn [app] in Ec. subst ds'. inversion Fd' as [|? ? Dc _]; subst. unfold blank, digit in *. lia. }
      destruct Q as [<- Q].
      assert (Q2 : sign = sign' /\ s2 = ds').
      { rewrite Er in Q. assert (Dh : forall c r, ds' = c :: r -> digit c) by (intros c r ->; inversion Fd'; assumption).
        assert (Rh : sign = [] -> forall c r, s2 = c :: r -> c <> 45 /\ c <> 43).
        { intros -> c r Ec. destruct Hs as [[_ X]|[_ [X|[_ X]]]]; try discriminate X. apply (X c r). rewrite Er. exact Ec. }
        destruct Hs as [[_ ->]|[_ [->|[-> _]]]]; destruct Hz as [[-> _]|[[->| ->] _]]; cbn [app] in Q; try (injection Q as Q; split; [reflexivity|assumption]); try discriminate Q; try (split; [reflexivity|assumption]).
        - destruct ds' as [|c r]; [contradiction|]. injection Q as <- _. pose proof (Dh 45 r eq_refl) as X. unfold digit in X. lia.
        - destruct ds' as [|c r]; [contradiction|]. injection Q as <- _. pose proof (Dh 43 r eq_refl) as X. unfold digit in X. lia.
        - destruct (Rh eq_refl _ _ Q) as [X _]. congruence.
        - destruct (Rh eq_refl _ _ Q) as [_ X]. congruence. }
      destruct Q2 as [<- Q2]. assert (Q3 : ds = ds' /\ tl = []).
      { apply (split_unique digit); auto; [|discriminate|rewrite app_nil_r; congruence]. intros c r -> Hc. cbn in St. unfold isDigit, digit in *. lia. }
      destruct Q3 as [<- ->]. splits; auto. unfold v. destruct Hs as [[-> ->]|[-> X]]; destruct Hz as [[Y ->]|[Y ->]]; try reflexivity.
      - destruct Y; discriminate.
      - destruct X as [->|[-> _]]; discriminate. }
    assert (Ln : List.length s = (List.length bs + n2 + List.length ds + List.length tl)%nat) by (rewrite Es, Er, E2, !app_length; lia).
    split.
    - intros z Hz. destruct (U z Hz) as (Nd & -> & ->). destruct ds as [|d ds]; [contradiction|]. cbn [List.length] in *. rewrite Ln.
      replace (List.length bs + n2 + S (List.length ds) + 0)%nat with (List.length bs + n2 + S (List.length ds))%nat by lia.
      destruct (v <? int64_min); [reflexivity|]. destruct (int64_max <? v); reflexivity.
    - intros No. destruct ds as [|d ds].
      + cbn [List.length fst snd]. intros Q. apply Ns. destruct s; [reflexivity|discriminate].
      + assert (Nt : tl <> []).
        { intros ->. apply (No v). exists bs, sign, (d :: ds). rewrite app_nil_r in E2. splits; auto; [congruence|discriminate|]. unfold v. destruct Hs as [[-> ->]|[-> X]]; [left|right]; split; auto. destruct X as [X|[X _]]; auto. }
        cbn [List.length] in *. intros Q. apply Nt. destruct tl; [reflexivity|]. exfalso. cbn [List.length] in Ln. revert Q. destruct (v <? int64_min); [|destruct (int64_max <? v)]; cbn [fst snd]; lia. }
  destruct (signOf rest) as [[n2 neg] s2] eqn:Q. unfold signOf in Q.
  assert (G : exists sign, rest = sign ++ s2 /\ List.length sign = n2 /\ (neg = true /\ sign = [45] \/ neg = false /\ (sign = [43] \/ sign = [] /\ forall c r, rest = c :: r -> c <> 45 /\ c <> 43))).
  { clear - Q. destruct rest as [|b rest]; [injection Q as <- <- <-; exists []; splits; auto; right; split; auto; right; split; [reflexivity|discriminate]|].
    destruct (Z.eq_dec b 45) as [->|N1]; [injection Q as <- <- <-; exists [45]; splits; auto|].
    destruct (Z.eq_dec b 43) as [->|N2]; [injection Q as <- <- <-; exists [43]; splits; auto|].
    exists []. assert (X : (0%nat, false, b :: rest) = (n2, neg, s2)).
    { rewrite <- Q. clear Q. destruct b as [|b|b]; try reflexivity. do 7 (try (destruct b as [b|b|]; try reflexivity)); congruence. }
    injection X as <- <- <-. splits; auto. right. split; [reflexivity|]. right. split; [reflexivity|]. intros c r [= <- <-]. split; assumption. }
  destruct G as (sign & G1 & G2 & G3). specialize (K neg n2 s2 sign G1 G2 G3). destruct (digits s2 0) as [n3 z0]. cbv zeta in K. destruct n3; exact K.
Qed.

Lemma numeral_unique s z y : numeral s z -> numeral s y -> z = y.
Proof.
  intros (b1 & g1 & d1 & E1 & B1 & N1 & D1 & H1) (b2 & g2 & d2 & E2 & B2 & N2 & D2 & H2).
  assert (Nb : forall g d, (g = [45] \/ g = [43] \/ g = []) -> d <> [] -> Forall digit d -> forall c r, g ++ d = c :: r -> ~ blank c).
  { intros g d G N D c r Q X. destruct G as [->|[->| ->]]; cbn [app] in Q; [injection Q as <- _; unfold blank in X; lia..|]. subst d. pose proof (Forall_inv D) as Y. unfold blank, digit in *. lia. }
  destruct (split_unique blank b1 b2 (g1 ++ d1) (g2 ++ d2)) as [-> Q]; auto; [apply Nb; intuition|apply Nb; intuition|congruence|].
  assert (Hd : forall d c r, Forall digit d -> d = c :: r -> digit c) by (intros d c r F ->; apply (Forall_inv F)).
  destruct H1 as [[-> ->]|[[->| ->] ->]]; destruct H2 as [[-> ->]|[[->| ->] ->]]; cbn [app] in Q; try (injection Q as ->; reflexivity); try discriminate Q; try (subst d1; reflexivity);
    exfalso; [assert (X := Hd d2 45 d1 D2 (eq_sym Q))|assert (X := Hd d2 43 d1 D2 (eq_sym Q))|assert (X := Hd d1 45 d2 D1 Q)|assert (X := Hd d1 43 d2 D1 Q)]; unfold digit in X; lia.
Qed.
(** Casting a text without a dot to an integer gives the number the text, up to its first zero byte, stands for; overflow if that is no 64 bit integer; null if it stands for none. *)
Theorem C145_int_text : forall E c e s, yields E c e (VStr s) -> ~ In 46 s -> cstr s <> [] ->
  (forall z, numeral (cstr s) z -> int64_min <= z <= int64_max -> yields E c (cast tInt e) (VInt z)) /\
  (forall z, numeral (cstr s) z -> z < int64_min \/ int64_max < z -> yields E c (cast tInt e) (VNull NOverflow)) /\
  ((forall z, ~ numeral (cstr s) z) -> yields E c (cast tInt e) (VNull NNull)).
Proof.
  intros E c e s Y D N. destruct (strtoll_spec (cstr s) N) as [S1 S2].
  assert (X : existsb (fun b => b =? 46) s = false).
  { destruct (existsb (fun b => b =? 46) s) eqn:X; [|reflexivity]. destruct D. apply existsb_exists in X as (b & H & Q). apply Z.eqb_eq in Q. subst b. exact H. }
  splits; [intros z Hz R; apply (int_run _ _ _ _ _ Y); cbn [vtoInt]; rewrite X; cbv zeta; rewrite (S1 z Hz)..|].
  - rewrite Nat.eqb_refl. replace (z <? int64_min) with false by lia. replace (int64_max <? z) with false by lia. reflexivity.
  - rewrite Nat.eqb_refl. replace ((z <? int64_min) || (int64_max <? z)) with true by lia. reflexivity.
  - intros No. apply (int_run _ _ _ _ _ Y). cbn [vtoInt]. rewrite X. cbv zeta. specialize (S2 No). destruct (strtoll (cstr s)) as [[z n] er]. cbn [fst snd] in S2.
    replace (Nat.eqb n (List.length (cstr s))) with false by (symmetry; apply Nat.eqb_neq; exact S2). reflexivity.
Qed.
Example C145_int_text_ex : numeral (B "  -042") (-42) /\ numeral (B "+99999999999999999999") 99999999999999999999 /\ (forall z, ~ numeral (B "12x") z).
Proof.
  splits.
  - exists (B "  "), [45], (B "042"). splits; [reflexivity|repeat (apply Forall_cons; [left; reflexivity|]); apply Forall_nil|discriminate|repeat (apply Forall_cons; [unfold digit; vm_compute; split; discriminate|]); apply Forall_nil|left; split; reflexivity].
  - exists [], [43], (B "99999999999999999999"). splits; [reflexivity|constructor|discriminate|repeat (apply Forall_cons; [unfold digit; vm_compute; split; discriminate|]); apply Forall_nil|right; split; [left|]; reflexivity].
  - intros z (bs & g & ds & Q & _ & N & D & _). destruct (exists_last N) as (d' & x & ->). apply Forall_app in D as [_ D]. apply Forall_inv in D.
    rewrite app_assoc, app_assoc in Q. change (B "12x") with ([49; 50] ++ [120]) in Q. apply app_inj_tail in Q as [_ <-]. unfold digit in D. lia.
Qed.
(** The decimal text of an integer is cast back to it. *)
Lemma valueOf_dec z : 0 <= z -> valueOf (decZ z) = z /\ Forall digit (decZ z) /\ decZ z <> [].
Proof.
  intros H. destruct (decZ_nonneg z H) as (N & F & R). specialize (R [] eq_refl). rewrite app_nil_r in R.
  assert (Fd : Forall digit (decZ z)). { apply Forall_forall. intros b Hb. rewrite forallb_forall in F. specialize (F b Hb). unfold isDigit, digit in *. lia. }
  splits; auto. destruct (digits_spec (decZ z) 0) as (ds & tl & Q & Fs & St & Q2). rewrite R in Q2. injection Q2 as L V. rewrite Q in L at 1. rewrite app_length in L. destruct tl; [|cbn in L; lia].
  rewrite app_nil_r in Q. rewrite Q. unfold valueOf. congruence.
Qed.
Lemma dec_numeral z : numeral (decZ z) z.
Proof.
  destruct (Z.ltb_spec z 0) as [H|H].
  - destruct (valueOf_dec (- z) ltac:(lia)) as (V & F & N). exists [], [45], (decZ (- z)). splits; auto; [apply decZ_neg, H|]. left. split; [reflexivity|lia].
  - destruct (valueOf_dec z H) as (V & F & N). exists [], [], (decZ z). splits; auto.
Qed.
Lemma numeral_bytes s z : numeral s z -> ~ In 46 s /\ ~ In 0 s /\ s <> [].
Proof.
  intros (bs & g & ds & -> & Fb & N & D & G).
  assert (K : forall b, In b (bs ++ g ++ ds) -> blank b \/ b = 45 \/ b = 43 \/ digit b).
  { intros b H. rewrite !in_app_iff in H. rewrite Forall_forall in Fb, D. destruct H as [H|[H|H]]; [left; auto| |right; right; right; auto].
    destruct G as [[-> _]|[[->| ->] _]]; cbn in H; intuition. }
  splits.
  - intros H. apply K in H. unfold blank, digit in H. lia.
  - intros H. apply K in H. unfold blank, digit in H. lia.
  - destruct ds; [contradiction|]. destruct bs, g; discriminate.
Qed.
Lemma cstr_nul s : ~ In 0 s -> cstr s = s.
Proof. induction s as [|b s IH]; intros H; [reflexivity|]. cbn [cstr]. cbn in H. destruct (Z.eqb_spec b 0) as [->|N]; [destruct H; auto|]. rewrite IH; auto. Qed.
Theorem C145_round_trip : forall E c e n, int64_min <= n <= int64_max ->
  (yields E c e (VStr (decZ n)) -> yields E c (cast tInt e) (VInt n)) /\ (yields E c e (VInt n) -> yields E c (cast tInt (cast tString e)) (VInt n)).
Proof.
  intros E c e n R.
  assert (G : forall e', yields E c e' (VStr (decZ n)) -> yields E c (cast tInt e') (VInt n)).
  { intros e' Y. destruct (numeral_bytes _ _ (dec_numeral n)) as (B1 & B2 & B3).
    pose proof (cstr_nul _ B2) as Q. pose proof (C145_int_text E c e' (decZ n) Y B1) as H. rewrite Q in H. apply (proj1 (H B3)); [apply dec_numeral|exact R]. }
  split; [apply G|]. intros Y. apply G. eapply cast_run; [exact Y|]. intros r0. eexists. reflexivity.
Qed.
Example C145_round_trip_ex : forall E c, yields E c (cast tInt (konst (VStr (B "-9223372036854775808")))) (VInt (-9223372036854775808)).
Proof. intros E c. apply (C145_round_trip E c _ (-9223372036854775808)); [unfold int64_min, int64_max; lia|apply konst_yields]. Qed.
(** The statement that only texts that are numerals as a whole become integers is false: the empty text becomes 0, and text behind a zero byte is not seen. *)
Theorem C145_int_text_refuted : exists s t z y, (forall x, ~ numeral s x) /\ (forall x, ~ numeral t x) /\
  forall E c, yields E c (cast tInt (konst (VStr s))) (VInt z) /\ yields E c (cast tInt (konst (VStr t))) (VInt y).
Proof.
  exists [], (B "12" ++ 0 :: B "x"), 0, 12. splits.
  - intros x H. apply numeral_bytes in H as (_ & _ & H). destruct H; reflexivity.
  - intros x H. apply numeral_bytes in H as (_ & H & _). destruct H. cbn. auto.
  - intros E c. split; (eapply int_run; [apply konst_yields|vm_compute; reflexivity]).
Qed.

(** * Floats to integers *)
Lemma trunc_key f z : f64valid f = true -> truncated f z -> 0 <= z * 2 ^ 1074 <= fkey f /\ fkey f < (z + 1) * 2 ^ 1074 \/ fkey f <= z * 2 ^ 1074 <= 0 /\ (z - 1) * 2 ^ 1074 < fkey f.
Proof.
  intros V T. assert (P : 0 < 2 ^ 1074) by (apply Z.pow_pos_nonneg; lia). destruct f as [s|s| |s m e]; cbn [truncated] in T; try contradiction.
  - subst z. left. cbn [fkey]. lia.
  - pose proof (valid_finite _ _ _ V) as Vf. assert (E : -1074 <= e) by (destruct Vf; lia). cbn [fkey].
    set (n := if s then - z else z) in *. destruct T as [Hn [T1 T2]].
    assert (Q : 0 < 2 ^ (1074 + Z.min 0 e)) by (apply Z.pow_pos_nonneg; lia).
    assert (M1 : 2 ^ Z.max 0 (- e) * 2 ^ (1074 + Z.min 0 e) = 2 ^ 1074) by (rewrite <- Z.pow_add_r by lia; f_equal; lia).
    assert (M2 : 2 ^ Z.max 0 e * 2 ^ (1074 + Z.min 0 e) = 2 ^ (e + 1074)) by (rewrite <- Z.pow_add_r by lia; f_equal; lia).
    set (q := 2 ^ (1074 + Z.min 0 e)) in *. set (k := 2 ^ (e + 1074)) in *. set (u := 2 ^ 1074) in *. set (a := 2 ^ Z.max 0 (- e)) in *. set (b := 2 ^ Z.max 0 e) in *.
    assert (L1 : n * u <= Z.pos m * k) by (rewrite <- M1, <- M2; nia). assert (L2 : Z.pos m * k < (n + 1) * u) by (rewrite <- M1, <- M2; nia).
    destruct s; unfold n in *; [right|left]; split; nia.
Qed.
(** Casting a float that is a number to an integer cuts off its fraction, and gives the nearest end of the range beyond it. *)
Theorem C145_int_float : forall E c e f, yields E c e (VFloat f) -> f64valid f = true ->
  (forall z, truncated f z -> yields E c (cast tInt e) (VInt (Z.max int64_min (Z.min int64_max z)))) /\
  (forall s, f = S754_infinity s -> yields E c (cast tInt e) (VInt (if s then int64_min else int64_max))).
Proof.
  intros E c e f Y V. split.
  - intros z T. apply (int_run _ _ _ _ _ Y). cbn [vtoInt].
    assert (N : f64isNaN f = false) by (destruct f; try reflexivity; destruct T).
    destruct two63_key as (K1 & K2 & V1 & V2).
    rewrite !leb_ltb by (try exact N; apply f64ofZ_not_nan). rewrite !SFltb_key by (try assumption; apply f64ofZ_not_nan). rewrite K1, K2.
    pose proof (trunc_key f z V T) as K. assert (P : 0 < 2 ^ 1074) by (apply Z.pow_pos_nonneg; lia).
    assert (Q : 2 ^ 1137 = 9223372036854775808 * 2 ^ 1074) by (change 9223372036854775808 with (2 ^ 63); rewrite <- Z.pow_add_r by lia; reflexivity).
    rewrite Q in *. set (u := 2 ^ 1074) in *. set (k := fkey f) in *. clearbody u k. clear Q K1 K2.
    destruct (Z.ltb_spec (- (9223372036854775808 * u)) k) as [L1|L1]; cbn [negb].
    + destruct (Z.ltb_spec k (9223372036854775808 * u)) as [L2|L2]; cbn [negb].
      * apply trunc_spec in T. unfold f64toInt. rewrite T.
        assert (R : -9223372036854775808 < z < 9223372036854775808) by (split; nia).
        replace (in_int64 z) with true by (unfold in_int64, int64_min, int64_max; lia). cbn [obind]. do 2 f_equal. unfold int64_min, int64_max. lia.
      * assert (9223372036854775808 <= z) by nia. do 2 f_equal. unfold int64_min, int64_max. lia.
    + assert (z <= -9223372036854775808) by nia. do 2 f_equal. unfold int64_min, int64_max. lia.
  - intros s ->. apply (int_run _ _ _ _ _ Y). destruct s; vm_compute; reflexivity.
Qed.
Example C145_int_float_ex : exists f, f64valid f = true /\ truncated f (-2) /\ fkey f = - (5 * 2 ^ 1073).
Proof. exists (f64div (f64ofZ (-5)) (f64ofZ 2)). splits; [vm_compute; reflexivity|apply trunc_spec; vm_compute; reflexivity|vm_compute; reflexivity]. Qed.
(** False for every float: the cast of a NaN is undefined behaviour. *)
Theorem C145_int_float_refuted : forall E c k, eval E (cast tInt (konst (VFloat S754_nan))) k c = UB.
Proof.
  intros E c [r0 ks]. unfold cast. rewrite eval_eq. cbn [evalNode map]. unfold mbind at 1.
  destruct (gives_child E [konst (VFloat S754_nan)] 0 (konst (VFloat S754_nan)) c (VFloat S754_nan) c eq_refl (konst_yields E c _) ks) as [ks' G]. cbn [map] in G. rewrite G. reflexivity.
Qed.

(** * To floats and back *)
(** An integer of no more than 53 bits is cast to the float of the same value, and back to itself. *)
Theorem C145_float_int : forall E c e n, yields E c e (VInt n) -> -9007199254740992 <= n <= 9007199254740992 ->
  exists f, yields E c (cast tFloat e) (VFloat f) /\ f64valid f = true /\ fkey f = n * 2 ^ 1074 /\ yields E c (cast tInt (cast tFloat e)) (VInt n).
Proof.
  intros E c e n Y R. destruct (f64ofZ_small n) as (V & N & K); [unfold isSmall; lia|]. exists (f64ofZ n).
  assert (Yf : yields E c (cast tFloat e) (VFloat (f64ofZ n))) by (eapply cast_run; [exact Y|intros r0; eexists; reflexivity]).
  splits; auto. assert (P : 0 < 2 ^ 1074) by (apply Z.pow_pos_nonneg; lia).
  destruct (f64trunc (f64ofZ n)) as [z|] eqn:T.
  - apply trunc_spec in T. pose proof (trunc_key _ _ V T) as Kz. rewrite K in Kz. assert (z = n) by (set (u := 2 ^ 1074) in *; clearbody u; nia). subst z.
    pose proof (proj1 (C145_int_float E c _ _ Yf V) n T) as H. replace (Z.max int64_min (Z.min int64_max n)) with n in H by (unfold int64_min, int64_max; lia). exact H.
  - exfalso. destruct (f64ofZ n) as [s|s| |s m x]; try discriminate. cbn [fkey] in K.
    assert (B : 2 ^ 2098 = 2 ^ 1024 * 2 ^ 1074) by (rewrite <- Z.pow_add_r by lia; reflexivity). assert (2 ^ 54 < 2 ^ 1024) by (apply Z.pow_lt_mono_r; lia). change (2 ^ 54) with 18014398509481984 in *.
    set (u := 2 ^ 1074) in *. set (w := 2 ^ 1024) in *. clearbody u w. rewrite B in K. destruct s; nia.
Qed.
Example C145_float_int_ex : forall E c, yields E c (cast tInt (cast tFloat (konst (VInt (-9007199254740991))))) (VInt (-9007199254740991)).
Proof. intros E c. destruct (C145_float_int E c _ _ (konst_yields E c (VInt (-9007199254740991)))) as (f & _ & _ & _ & H); [lia|exact H]. Qed.
(** Longer integers may change on the way. *)
Theorem C145_float_int_refuted : exists n, int64_min <= n <= int64_max /\ forall E c, yields E c (cast tInt (cast tFloat (konst (VInt n)))) (VInt (n - 1)).
Proof.
  exists 9007199254740993. split; [unfold int64_min, int64_max; lia|]. intros E c. eapply int_run; [eapply cast_run; [apply konst_yields|intros r0; eexists; reflexivity]|]. vm_compute. reflexivity.
Qed.

(** * To truth values *)
Definition sameButCase (s t : str) : Prop := Forall2 (fun a b => a = b \/ 65 <= a <= 90 /\ b = a + 32) s t.
Lemma lower_same s t : Forall (fun b => 97 <= b <= 122) t -> (lower s = t <-> sameButCase s t).
Proof.
  unfold lower, sameButCase. revert t. induction s as [|a s IH]; intros t F; cbn [map].
  - split; [intros <-; constructor|intros H; inversion H; reflexivity].
  - destruct t as [|b t]; [split; [discriminate|intros H; inversion H]|]. pose proof (Forall_inv F) as Hb. apply Forall_inv_tail in F. cbv beta in Hb. split.
    + intros [= H1 H2]. constructor; [unfold lowerByte in H1; destruct ((65 <=? a) && (a <=? 90)) eqn:Q; lia|apply IH; assumption].
    + intros H. inversion H as [|? ? ? ? H1 H2]; subst. f_equal; [unfold lowerByte; destruct ((65 <=? a) && (a <=? 90)) eqn:Q; lia|apply IH; assumption].
Qed.
(** Exactly the texts true and false, in any case, are cast to truth values, and casting the text of a truth value gives it back. *)
Theorem C145_bool_text : forall E c e s, yields E c e (VStr s) ->
  (sameButCase s (B "true") -> yields E c (cast tBool e) (VBool true)) /\ (sameButCase s (B "false") -> yields E c (cast tBool e) (VBool false)) /\
  (~ sameButCase s (B "true") -> ~ sameButCase s (B "false") -> yields E c (cast tBool e) (VNull NNull)).
Proof.
  intros E c e s Y.
  assert (H1 := lower_same s (B "true") ltac:(repeat (apply Forall_cons; [vm_compute; split; discriminate|]); apply Forall_nil)).
  assert (H2 := lower_same s (B "false") ltac:(repeat (apply Forall_cons; [vm_compute; split; discriminate|]); apply Forall_nil)).
  assert (G : forall w, vtoBool (VStr s) = w -> yields E c (cast tBool e) w) by (intros w <-; eapply cast_run; [exact Y|intros r0; eexists; reflexivity]).
  cbn [vtoBool] in G. splits.
  - intros H. apply G. apply H1 in H. rewrite H. reflexivity.
  - intros H. apply G. apply H2 in H. rewrite H. reflexivity.
  - intros N1 N2. apply G. destruct (strEqb (lower s) (B "true")) eqn:Q1; [apply strEqb_eq in Q1; tauto|]. destruct (strEqb (lower s) (B "false")) eqn:Q2; [apply strEqb_eq in Q2; tauto|]. reflexivity.
Qed.
Example C145_bool_text_ex : sameButCase (B "TrUe") (B "true") /\ ~ sameButCase (B "1") (B "true").
Proof. split; [repeat (apply Forall2_cons; [vm_compute; (left; reflexivity) || (right; repeat split; discriminate)|]); apply Forall2_nil|intros H; inversion H as [|? ? ? ? _ H2]; inversion H2]. Qed.
Theorem C145_bool_trip : forall E c e b, yields E c e (VBool b) -> yields E c (cast tBool (cast tString e)) (VBool b).
Proof. intros E c e b Y. eapply cast_run; [eapply cast_run; [exact Y|intros r0; eexists; reflexivity]|]. intros r0. eexists. destruct b; reflexivity. Qed.

(** * Validation *)
Definition numberToTruth (v : value) (t : Z) : Prop := t = tBool /\ (typeBit v = tInt \/ typeBit v = tFloat \/ typeBit v = tDate).
(** What the cast to an integer needs: no NaN, and no text with a dot for a number that is no 64 bit integer *)
Definition integral (E : env) (v : value) : Prop :=
  (forall f, v = VFloat f -> f64valid f = true /\ f64isNaN f = false) /\ (forall s, v = VStr s -> In 46 s -> fits (fst (xstrtod (eX E) (cstr s)))).
(** A validated cast gives a value of the type asked for, or null, or overflow; but for numbers and dates to truth values. *)
Theorem C145_validated : forall E c e v t, yields E c e v -> validateTypeCast (typeBit v) t = true -> ~ numberToTruth v t -> (t = tInt -> integral E v) ->
  exists w, yields E c (cast t e) w /\ (typeBit w = t \/ w = VNull NNull \/ t = tInt /\ w = VNull NOverflow).
Proof.
  intros E c e v t Y Val N I.
  assert (T : t = tInt \/ t = tString \/ t = tBool \/ t = tFloat).
  { unfold validateTypeCast, typeCastMap in Val. apply existsb_exists in Val as ([a b] & Hin & Q). cbn [fst snd] in Q. apply andb_true_iff in Q as [_ Q]. apply Z.eqb_eq in Q. subst b.
    cbn [In] in Hin. repeat (destruct Hin as [Hin|Hin]; [injection Hin as _ <-; auto|]). destruct Hin. }
  destruct T as [->|[->|[->| ->]]].
  - destruct (I eq_refl) as [I1 I2]. assert (G : forall w, vtoInt E v = Ret w -> (typeBit w = tInt \/ w = VNull NNull \/ tInt = tInt /\ w = VNull NOverflow) ->
      exists w, yields E c (cast tInt e) w /\ (typeBit w = tInt \/ w = VNull NNull \/ tInt = tInt /\ w = VNull NOverflow)) by (intros w Hw Hv; exists w; split; [apply (int_run _ _ _ _ _ Y Hw)|exact Hv]).
    destruct v; try discriminate Val; try (eapply G; [reflexivity|auto]; fail).
    + destruct (I1 f eq_refl) as [V Nn]. destruct (C145_int_float E c e f Y V) as [C1 C2]. destruct f as [s|s| |s m x]; try discriminate Nn.
      * eexists. split; [apply (C1 0); reflexivity|]. left. reflexivity.
      * eexists. split; [apply (C2 s); reflexivity|]. left. destruct s; reflexivity.
      * destruct (f64trunc (S754_finite s m x)) as [z|] eqn:Tr; [|discriminate]. eexists. split; [apply (C1 z); apply trunc_spec, Tr|]. left. reflexivity.
    + cbn [vtoInt] in G. destruct (existsb (fun b => b =? 46) s) eqn:X.
      * assert (Hin : In 46 s) by (apply existsb_exists in X as (b & H1 & H2); apply Z.eqb_eq in H2; subst b; exact H1). specialize (I2 s eq_refl Hin). apply toInt_spec in I2 as [z Hz].
        destruct (xstrtod (eX E) (cstr s)) as [d n]. cbn [fst] in Hz. rewrite Hz in G. cbn [obind] in G. destruct (Nat.eqb n (List.length (cstr s))); (eapply G; [reflexivity|auto]).
      * destruct (strtoll (cstr s)) as [[z n] er]. destruct (negb (Nat.eqb n (List.length (cstr s)))); [eapply G; [reflexivity|auto]|]. destruct er; (eapply G; [reflexivity|auto]).
  - eexists. split; [eapply cast_run; [exact Y|intros r0; eexists; reflexivity]|]. left. reflexivity.
  - eexists. split; [eapply cast_run; [exact Y|intros r0; eexists; reflexivity]|]. destruct v; try discriminate Val; try (destruct N; split; [reflexivity|cbn; auto]; fail); cbn [vtoBool]; auto.
    destruct (strEqb (lower s) (B "true")); [auto|]. destruct (strEqb (lower s) (B "false")); auto.
  - eexists. split; [eapply cast_run; [exact Y|intros r0; eexists; reflexivity]|]. destruct v; try discriminate Val; cbn [vtoFloat]; auto.
    destruct (xstrtod (eX E) (cstr s)) as [d n]. destruct (Nat.eqb n (List.length (cstr s))); auto.
Qed.
Example C145_validated_ex : forall E, validateTypeCast (typeBit (VStr (B "7"))) tInt = true /\ ~ numberToTruth (VStr (B "7")) tInt /\ integral E (VStr (B "7")) /\
  validateTypeCast (typeBit (VMap [])) tString = true.
Proof.
  intros E. splits; try reflexivity; [intros [H _]; discriminate H|]. split; [intros f H; discriminate H|]. intros s [= <-] H. cbn in H. destruct H as [H|[]]. discriminate H.
Qed.
(** As said without the exception it is false: the casts of integers, floats and dates to truth values are validated, and none can be done. *)
Theorem C145_validated_refuted : forall v, typeBit v = tInt \/ typeBit v = tFloat \/ typeBit v = tDate ->
  validateTypeCast (typeBit v) tBool = true /\ forall E c e, yields E c e v -> yields E c (cast tBool e) (VNull NBadType).
Proof.
  intros v H. split; [destruct H as [->|[->| ->]]; reflexivity|]. intros E c e Y. eapply cast_run; [exact Y|]. intros r0. eexists.
  destruct v; try reflexivity; cbn in H; unfold tInt, tFloat, tDate in H; lia.
Qed.
(** What is not validated to integers, floats and truth values cannot be done, nulls excepted; to texts every value can be cast, though times are not validated. *)
Theorem C145_not_validated : forall E c e v t, yields E c e v -> t = tInt \/ t = tFloat \/ t = tBool -> validateTypeCast (typeBit v) t = false -> typeBit v <> tNull -> yields E c (cast t e) (VNull NBadType).
Proof.
  intros E c e v t Y T Val N. destruct T as [->|[->| ->]].
  - eapply int_run; [exact Y|]. destruct v; try discriminate Val; try reflexivity. destruct N. reflexivity.
  - eapply cast_run; [exact Y|]. intros r0. eexists. destruct v; try discriminate Val; try reflexivity. destruct N. reflexivity.
  - eapply cast_run; [exact Y|]. intros r0. eexists. destruct v; try discriminate Val; try reflexivity.
Qed.
Example C145_not_validated_ex : validateTypeCast (typeBit (VList [])) tInt = false /\ typeBit (VList []) <> tNull.
Proof. split; [reflexivity|discriminate]. Qed.
Theorem C145_not_validated_refuted : exists t, forall E c, validateTypeCast (typeBit (VTime t)) tString = false /\ validateTypeCast (typeBit (VNull NNull)) tInt = false /\
  (exists s, yields E c (cast tString (konst (VTime t))) (VStr s)) /\ yields E c (cast tInt (konst (VNull NNull))) (VNull NNull).
Proof.
  exists (mkTime 1 2 3 4). intros E c. splits; try reflexivity.
  - eexists. eapply cast_run; [apply konst_yields|]. intros r0. eexists. reflexivity.
  - eapply int_run; [apply konst_yields|reflexivity].
Qed.
(** A text is cast to itself, every other value to the text that shows it. *)
Theorem C145_text : forall E c e v, yields E c e v -> exists s, yields E c (cast tString e) (VStr s) /\ (forall t, v = VStr t -> s = t) /\ (forall n, v = VInt n -> s = decZ n) /\ (forall b : bool, v = VBool b -> s = if b then B "true" else B "false").
Proof.
  intros E c e v Y. eexists. split; [eapply cast_run; [exact Y|intros r0; eexists; reflexivity]|]. splits; [intros t ->; reflexivity|intros n ->; reflexivity|intros b ->; reflexivity].
Qed.
Example C145_text_ex : forall E c, yields E c (cast tString (konst (VInt (-5)))) (VStr (B "-5")).
Proof. intros E c. destruct (C145_text E c _ _ (konst_yields E c (VInt (-5)))) as (s & H & _ & H2 & _). rewrite (H2 (-5) eq_refl) in H. exact H. Qed.
Print Assumptions C145_int_text.
Print Assumptions C145_round_trip.
Print Assumptions C145_int_text_refuted.
Print Assumptions C145_int_float.
Print Assumptions C145_int_float_refuted.
Print Assumptions C145_float_int.
Print Assumptions C145_float_int_refuted.
Print Assumptions C145_bool_text.
Print Assumptions C145_bool_trip.
Print Assumptions C145_validated.
Print Assumptions C145_validated_refuted.
Print Assumptions C145_not_validated.
Print Assumptions C145_not_validated_refuted.
Print Assumptions C145_text.
