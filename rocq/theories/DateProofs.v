(** Proofs about the Date model. *)
From Verif Require Import Prelude DateModel DateSpec.

(** Cumulative days before month [m] (1-based), for both table kinds. *)
Definition cum (leap : bool) (m : Z) : Z :=
  match arr (if leap then kLeapDaysSoFar else kDaysSoFar) (m - 1) with
  | Ret x => x | _ => 0
  end.

Definition jbefore (Y : Z) : Z := 365 * Y + (Y + 3) / 4.   (* Y = year + 32768 *)
Definition jlen (Y : Z) : Z := if Y mod 4 =? 0 then 366 else 365.

Lemma month_cases m : 1 <= m <= 12 ->
  m = 1 \/ m = 2 \/ m = 3 \/ m = 4 \/ m = 5 \/ m = 6 \/ m = 7 \/ m = 8 \/ m = 9 \/ m = 10 \/ m = 11 \/ m = 12.
Proof. lia. Qed.

Ltac month_split H :=
  apply month_cases in H;
  repeat (destruct H as [H | H]); subst.

Lemma arr_cum (leap : bool) m : 1 <= m <= 13 ->
  arr (if leap then kLeapDaysSoFar else kDaysSoFar) (m - 1) = Ret (cum leap m).
Proof.
  intros H. unfold cum.
  assert (m = 13 \/ 1 <= m <= 12) as [-> | H'] by lia.
  - destruct leap; reflexivity.
  - month_split H'; destruct leap; reflexivity.
Qed.

Lemma cum_step leap m : 1 <= m <= 12 -> cum leap (m + 1) = cum leap m + month_len leap m.
Proof. intros H. month_split H; destruct leap; reflexivity. Qed.

Lemma cum_1 leap : cum leap 1 = 0.
Proof. destruct leap; reflexivity. Qed.

Lemma cum_13 leap : cum leap 13 = if leap then 366 else 365.
Proof. destruct leap; reflexivity. Qed.

Lemma month_len_bounds leap m : 28 <= month_len leap m <= 31.
Proof.
  unfold month_len. destruct leap;
  repeat match goal with |- context[match ?x with _ => _ end] => destruct x end; lia.
Qed.

Lemma cum_mono leap m1 m2 : 1 <= m1 <= 12 -> 1 <= m2 <= 12 -> m1 < m2 ->
  cum leap m1 + month_len leap m1 <= cum leap m2.
Proof.
  intros H1 H2 Hlt. month_split H1; month_split H2; destruct leap; try lia; vm_compute; discriminate.
Qed.

Lemma cum_bound leap m : 1 <= m <= 12 ->
  0 <= cum leap m /\ cum leap m + month_len leap m <= (if leap then 366 else 365).
Proof.
  intros H. month_split H; destruct leap; vm_compute; split; discriminate.
Qed.

Lemma leap_quot y : Z.rem (y + 32768) 4 =? 0 = (y mod 4 =? 0).
Proof. lia. Qed.

(** Closed form of [toInt]. *)
Lemma toInt_eq d : -32768 <= year d <= 32767 -> 1 <= month d <= 12 ->
  toInt d = Ret (jbefore (year d + 32768) + cum (julian_leap (year d)) (month d) + day d - 1).
Proof.
  intros Hy Hm. unfold toInt, julian_leap.
  rewrite leap_quot.
  assert (Ha : (if year d mod 4 =? 0 then arr kLeapDaysSoFar (month d - 1)
                else arr kDaysSoFar (month d - 1)) =
               Ret (cum (year d mod 4 =? 0) (month d))).
  { rewrite <- (arr_cum (year d mod 4 =? 0) (month d)) by lia.
    destruct (year d mod 4 =? 0); reflexivity. }
  rewrite Ha. cbn [obind]. unfold jbefore.
  destruct (0 <? year d + 32768) eqn:E; f_equal; lia.
Qed.

Lemma jlen_cases Y : jlen Y = 365 \/ jlen Y = 366.
Proof. unfold jlen. destruct (Y mod 4 =? 0); auto. Qed.

Lemma jbefore_step Y : jbefore (Y + 1) = jbefore Y + jlen Y.
Proof. unfold jbefore, jlen. destruct (Y mod 4 =? 0) eqn:E; lia. Qed.

Lemma jbefore_mono a b : a <= b -> jbefore a <= jbefore b.
Proof. unfold jbefore. lia. Qed.

Lemma jlen_leap y : jlen (y + 32768) = if julian_leap y then 366 else 365.
Proof. unfold jlen, julian_leap. replace ((y + 32768) mod 4) with (y mod 4) by lia. reflexivity. Qed.

Lemma toInt_range d : valid_date julian_leap d ->
  exists n, toInt d = Ret n /\ 0 <= n < total_days.
Proof.
  intros (Hy & Hm & Hd). eexists. split.
  - apply toInt_eq; lia.
  - pose proof (cum_bound (julian_leap (year d)) (month d) Hm) as [? ?].
    pose proof (jlen_leap (year d)) as Hl.
    pose proof (jbefore_step (year d + 32768)) as Hs.
    pose proof (jbefore_mono 0 (year d + 32768) ltac:(lia)) as Hlo.
    pose proof (jbefore_mono (year d + 32768 + 1) 65536 ltac:(lia)) as Hhi.
    change (jbefore 0) with 0 in Hlo. change (jbefore 65536) with total_days in Hhi. lia.
Qed.

Lemma toInt_mono a b na nb : valid_date julian_leap a -> valid_date julian_leap b ->
  toInt a = Ret na -> toInt b = Ret nb -> date_before a b -> na < nb.
Proof.
  intros (Hya & Hma & Hda) (Hyb & Hmb & Hdb) Ha Hb Hlt.
  rewrite toInt_eq in Ha, Hb by lia. injection Ha as <-. injection Hb as <-.
  pose proof (cum_bound (julian_leap (year a)) (month a) Hma) as [? ?].
  pose proof (cum_bound (julian_leap (year b)) (month b) Hmb) as [? ?].
  destruct Hlt as [Hlt | [He [Hlt | [Hem Hlt]]]].
  - pose proof (jlen_leap (year a)) as Hl.
    pose proof (jbefore_step (year a + 32768)) as Hs.
    pose proof (jbefore_mono (year a + 32768 + 1) (year b + 32768) ltac:(lia)). lia.
  - rewrite He in *.
    pose proof (cum_mono (julian_leap (year b)) (month a) (month b) Hma Hmb Hlt). lia.
  - rewrite He, Hem in *. lia.
Qed.

(** The month search. *)
Lemma findMonth_spec y leap : julian_leap y = leap ->
  forall fuel m diy,
  1 <= m <= 12 -> cum leap m < diy <= cum leap 13 ->
  (13 - Z.to_nat m <= fuel)%nat ->
  exists m' d', findMonth fuel y diy m = Ret (m', d') /\
    m <= m' <= 12 /\ 1 <= d' <= month_len leap m' /\ cum leap m' + d' = diy.
Proof.
  intros Hleap. induction fuel as [|fuel IH]; intros m diy Hm Hd Hf; [lia|].
  cbn [findMonth].
  assert (Hr : (Z.rem y 4 =? 0) = leap) by (rewrite <- Hleap; unfold julian_leap; lia).
  rewrite Hr.
  pose proof (arr_cum leap (m + 1) ltac:(lia)) as Hup. replace (m + 1 - 1) with m in Hup by lia.
  rewrite Hup. cbn [obind].
  destruct (diy <=? cum leap (m + 1)) eqn:E.
  - rewrite (arr_cum leap m) by lia. cbn [obind].
    rewrite cum_step in E by lia.
    pose proof (month_len_bounds leap m).
    exists m, (diy - cum leap m). split.
    + f_equal. f_equal. unfold wrap8. lia.
    + lia.
  - assert (m < 12).
    { destruct (Z.eq_dec m 12) as [->|]; [|lia]. change (12 + 1) with 13 in E. lia. }
    replace (wrap8 (m + 1)) with (m + 1) by (unfold wrap8; lia).
    destruct (IH (m + 1) diy) as (m' & d' & ? & ? & ?); [lia|lia|lia|].
    exists m', d'. split; [assumption|]. lia.
Qed.

Lemma wrap16_mod z : exists k, wrap16 z = z + 65536 * k.
Proof. exists (- ((z + 32768) / 65536)). unfold wrap16. rewrite Z.mod_eq; lia. Qed.

Lemma wrap16_small z : -32768 <= z <= 32767 -> wrap16 z = z.
Proof. unfold wrap16. intros. rewrite Z.mod_small; lia. Qed.

Lemma rem4_wrap z : (Z.rem (wrap16 z) 4 =? 0) = (z mod 4 =? 0).
Proof. destruct (wrap16_mod z) as [k ->]. lia. Qed.

Lemma wrap16_pred z : wrap16 (wrap16 z - 1) = wrap16 (z - 1).
Proof.
  unfold wrap16. f_equal.
  replace ((z + 32768) mod 65536 - 32768 - 1 + 32768) with ((z + 32768) mod 65536 - 1) by lia.
  rewrite Zminus_mod_idemp_l. f_equal. lia.
Qed.

(** The year loop: [Y] is the unwrapped year index. *)
Lemma adjustYear_spec : forall fuel Y diy n,
  jbefore Y + diy = n + 1 ->
  diy <= jlen Y ->
  0 <= n < total_days ->
  (1 + Z.to_nat ((1 - diy + 364) / 365) <= fuel)%nat ->
  exists Y' diy', adjustYear fuel (wrap16 (Y - 32768)) diy = Ret (Y' - 32768, diy') /\
    0 <= Y' < 65536 /\ 0 < diy' <= jlen Y' /\ jbefore Y' + diy' = n + 1.
Proof.
  induction fuel as [|fuel IH]; intros Y diy n Hinv Hup Hn Hf; [lia|].
  cbn [adjustYear]. destruct (diy <=? 0) eqn:E.
  - assert (Hw : wrap16 (wrap16 (Y - 32768) - 1) = wrap16 (Y - 1 - 32768)) by (rewrite wrap16_pred; f_equal; lia).
    rewrite Hw.
    assert (Hl : (if Z.rem (wrap16 (Y - 1 - 32768)) 4 =? 0 then diy + 366 else diy + 365) = diy + jlen (Y - 1)).
    { unfold jlen.
      rewrite rem4_wrap. replace ((Y - 1 - 32768) mod 4) with ((Y - 1) mod 4) by lia.
      destruct ((Y - 1) mod 4 =? 0); lia. }
    rewrite Hl.
    pose proof (jbefore_step (Y - 1)) as Hs. replace (Y - 1 + 1) with Y in Hs by lia.
    pose proof (jlen_cases (Y - 1)).
    apply IH with (n := n); lia.
  - assert (HY : 0 <= Y < 65536).
    { pose proof (jbefore_step Y).
      split.
      - destruct (Z_lt_ge_dec Y 0); [|lia].
        pose proof (jbefore_mono (Y + 1) 0 ltac:(lia)). change (jbefore 0) with 0 in *. lia.
      - destruct (Z_lt_ge_dec Y 65536); [lia|].
        pose proof (jbefore_mono 65536 Y ltac:(lia)). change (jbefore 65536) with total_days in *. lia. }
    exists Y, diy. split; [|lia].
    rewrite wrap16_small by lia. reflexivity.
Qed.

Lemma fromInt_spec n : 0 <= n < total_days ->
  exists d, fromInt n = Ret d /\ valid_date julian_leap d /\ toInt d = Ret n.
Proof.
  intros Hn. unfold fromInt.
  replace (n =? int64_max) with false by (unfold int64_max, total_days in *; lia).
  set (Y0 := Z.quot (n + 1) 365).
  set (diy := if 0 <? Y0 then Z.rem (n + 1) 365 - (Z.quot (Y0 - 1) 4 + 1) else Z.rem (n + 1) 365).
  assert (Hdiy : diy = n + 1 - jbefore Y0).
  { unfold diy, jbefore, Y0. destruct (0 <? Z.quot (n + 1) 365) eqn:E; lia. }
  destruct (adjustYear_spec (S (S (Z.to_nat (Z.quot (1 - diy) 365)))) Y0 diy n)
    as (Y & dd & Heq & HY & Hdd & Hinv).
  - lia.
  - rewrite Hdiy. unfold jbefore, jlen, Y0. destruct (_ =? _); lia.
  - assumption.
  - lia.
  - rewrite Heq. cbn [obind].
    remember (julian_leap (Y - 32768)) as leap eqn:Hleap.
    assert (Hjl : jlen Y = cum leap 13).
    { rewrite cum_13, Hleap, <- jlen_leap. f_equal. lia. }
    destruct (findMonth_spec (Y - 32768) leap (eq_sym Hleap) 13 1 dd) as (m & d & Hf & Hm & Hd & Hc).
    + lia.
    + rewrite cum_1, <- Hjl. lia.
    + lia.
    + rewrite Hf. cbn [obind fst snd].
      assert (Hv : valid_date julian_leap (mkDate (Y - 32768) m d)).
      { unfold valid_date. cbn. rewrite <- Hleap. lia. }
      eexists. split; [reflexivity|]. split; [assumption|].
      rewrite toInt_eq by (cbn; lia). cbn. rewrite <- Hleap.
      replace (Y - 32768 + 32768) with Y by lia. f_equal. lia.
Qed.

Lemma trichotomy a b : a = b \/ date_before a b \/ date_before b a.
Proof.
  unfold date_before. destruct a as [y1 m1 d1], b as [y2 m2 d2]. cbn.
  destruct (Z.eq_dec y1 y2), (Z.eq_dec m1 m2), (Z.eq_dec d1 d2); subst; auto; lia.
Qed.

Lemma toInt_inj a b n : valid_date julian_leap a -> valid_date julian_leap b ->
  toInt a = Ret n -> toInt b = Ret n -> a = b.
Proof.
  intros Va Vb Ha Hb. destruct (trichotomy a b) as [? | [H | H]]; [assumption| |].
  - pose proof (toInt_mono a b n n Va Vb Ha Hb H). lia.
  - pose proof (toInt_mono b a n n Vb Va Hb Ha H). lia.
Qed.

Lemma fromInt_toInt d n : valid_date julian_leap d -> toInt d = Ret n -> fromInt n = Ret d.
Proof.
  intros Hv Hn. destruct (toInt_range d Hv) as (n' & Hn' & Hr).
  rewrite Hn in Hn'. injection Hn' as <-.
  destruct (fromInt_spec n Hr) as (d' & Hf & Hv' & Ht).
  rewrite Hf. f_equal. symmetry. eapply toInt_inj; eauto.
Qed.

Lemma toInt_iff_before a b na nb : valid_date julian_leap a -> valid_date julian_leap b ->
  toInt a = Ret na -> toInt b = Ret nb -> (na < nb <-> date_before a b).
Proof.
  intros Va Vb Ha Hb. split; [|exact (toInt_mono a b na nb Va Vb Ha Hb)].
  intros Hlt. destruct (trichotomy a b) as [-> | [H | H]]; [|assumption|].
  - rewrite Ha in Hb. injection Hb as <-. lia.
  - pose proof (toInt_mono b a nb na Vb Va Hb Ha H). lia.
Qed.

Lemma next_day_valid d : valid_date julian_leap d -> d <> last_date ->
  valid_date julian_leap (next_day julian_leap d).
Proof.
  intros (Hy & Hm & Hd) Hne. unfold next_day.
  destruct (day d <? month_len (julian_leap (year d)) (month d)) eqn:E1.
  - unfold valid_date; cbn. lia.
  - destruct (month d <? 12) eqn:E2.
    + unfold valid_date; cbn. pose proof (month_len_bounds (julian_leap (year d)) (month d + 1)). lia.
    + unfold valid_date; cbn. assert (month d = 12) by lia.
      assert (year d <> 32767).
      { intro. apply Hne. destruct d as [y m dd]; cbn in *. subst.
        unfold last_date. f_equal. cbn in *. lia. }
      lia.
Qed.

Lemma toInt_next_day d n : valid_date julian_leap d -> d <> last_date -> toInt d = Ret n ->
  toInt (next_day julian_leap d) = Ret (n + 1).
Proof.
  intros Hv Hne Hn. pose proof (next_day_valid d Hv Hne) as Hv'.
  destruct Hv as (Hy & Hm & Hd), Hv' as (Hy' & Hm' & Hd').
  rewrite toInt_eq in Hn |- * by lia. injection Hn as <-. f_equal.
  revert Hy' Hm' Hd'. unfold next_day.
  destruct (day d <? month_len (julian_leap (year d)) (month d)) eqn:E1; cbn; [lia|].
  destruct (month d <? 12) eqn:E2; cbn; intros.
  - rewrite cum_step by lia. lia.
  - assert (Hm12 : month d = 12) by lia. rewrite Hm12 in *.
    pose proof (jbefore_step (year d + 32768)) as Hs. rewrite jlen_leap in Hs.
    pose proof (cum_step (julian_leap (year d)) 12 ltac:(lia)) as Hc.
    change (12 + 1) with 13 in Hc. rewrite cum_13 in Hc. rewrite cum_1.
    replace (year d + 1 + 32768) with (year d + 32768 + 1) by lia. lia.
Qed.

Lemma addDays_ok d n s : valid_date julian_leap d -> toInt d = Ret s -> 0 <= s + n < total_days ->
  exists d', addDays d n = Ret d' /\ valid_date julian_leap d' /\ toInt d' = Ret (s + n).
Proof.
  intros Hv Hs Hr. unfold addDays. rewrite Hs. cbn [obind].
  replace (in_int64 (s + n)) with true
    by (unfold in_int64, int64_min, int64_max, total_days in *; lia).
  apply fromInt_spec. assumption.
Qed.

Lemma subDays_addDays d n : subDays d n = addDays d (- n).
Proof. unfold subDays, addDays. destruct (toInt d); reflexivity. Qed.

Lemma addDays_inv d n d' : valid_date julian_leap d -> addDays d n = Ret d' ->
  forall s, toInt d = Ret s -> 0 <= s + n < total_days ->
  valid_date julian_leap d' /\ toInt d' = Ret (s + n).
Proof.
  intros Hv Ha s Hs Hr. destruct (addDays_ok d n s Hv Hs Hr) as (d'' & He & ?).
  rewrite Ha in He. injection He as <-. assumption.
Qed.

Lemma dateLt_before a b : dateLt a b = true <-> date_before a b.
Proof.
  unfold dateLt, date_before.
  destruct (year a =? year b) eqn:E1; destruct (month a =? month b) eqn:E2;
  destruct (day a =? day b) eqn:E3; cbn; lia.
Qed.

(** [n] days after [d] is the [n]-fold calendar successor. *)
Lemma addDays_iter k d s : valid_date julian_leap d -> toInt d = Ret s -> s + Z.of_nat k < total_days ->
  addDays d (Z.of_nat k) = Ret (days_after julian_leap k d).
Proof.
  revert d s. induction k as [|k IH]; intros d s Hv Hs Hr.
  - cbn. destruct (addDays_ok d 0 s Hv Hs) as (d' & He & Hv' & Ht).
    { destruct (toInt_range d Hv) as (? & H1 & ?). rewrite Hs in H1. injection H1 as <-. lia. }
    change (Z.of_nat 0) with 0. rewrite He. f_equal. replace (s + 0) with s in Ht by lia. eapply toInt_inj; eauto.
  - destruct (toInt_range d Hv) as (s' & H1 & Hrange). rewrite Hs in H1. injection H1 as <-.
    destruct (addDays_ok d (Z.of_nat (S k)) s Hv Hs ltac:(lia)) as (d1 & He1 & Hv1 & Ht1).
    destruct (addDays_ok d (Z.of_nat k) s Hv Hs ltac:(lia)) as (d2 & He2 & Hv2 & Ht2).
    rewrite (IH d s Hv Hs ltac:(lia)) in He2. injection He2 as He2.
    cbn [days_after]. rewrite He1, He2. f_equal.
    assert (d2 <> last_date).
    { intros ->. assert (Hl : toInt last_date = Ret (total_days - 1)) by reflexivity.
      rewrite Hl in Ht2. injection Ht2 as Ht2. unfold total_days in *. lia. }
    eapply toInt_inj; [assumption|apply next_day_valid; assumption|exact Ht1|].
    rewrite (toInt_next_day d2 _ Hv2 H Ht2). f_equal. lia.
Qed.
