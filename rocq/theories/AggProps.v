(** Property C43: aggregates. *)
From Coq Require Import String List Permutation.
From Verif Require Import Prelude DateModel Trans ValueBase ValueModel ValueLtProofs ValueProps GraphModel EvalModel AggModel.
Import ListNotations.
Open Scope Z_scope.

(** The inputs an aggregate is about. *)
Definition kept (v : value) : bool := match v with VNull _ | VEmpty => false | _ => true end.
Definition ints (zs : list Z) : list value := map VInt zs.

Lemma kept_spec v : kept v = negb (isNull v || isEmpty v).
Proof. destruct v; reflexivity. Qed.
Lemma not_kept v : kept v = false -> (isNull v || isEmpty v) = true.
Proof. rewrite kept_spec. destruct (_ || _); [reflexivity|discriminate]. Qed.
Lemma is_kept v : kept v = true -> (isNull v || isEmpty v) = false.
Proof. rewrite kept_spec. destruct (_ || _); [discriminate|reflexivity]. Qed.

Section S.
Context (X : externals).
Notation rows f := (aggRows X f false).

Lemma rows_app f d a l1 l2 : aggRows X f d a (l1 ++ l2) = obind (aggRows X f d a l1) (fun a' => aggRows X f d a' l2).
Proof.
  revert a. induction l1 as [|v l1 IH]; intros a; cbn [app aggRows]; [reflexivity|].
  destruct (aggEval X f d a v); cbn [obind]; auto.
Qed.

(** A value that is not kept changes nothing once the group has started. *)
Definition started (f : aggFn) (a : aggData) : Prop :=
  match f with
  | AFirst => False
  | ACount | ASum | ACollect | ACollectSet => isNull (ares a) = false \/ isBadNull (ares a) = true
  | _ => True
  end.

Lemma step_skip f a v : kept v = false -> started f a -> aggStep X f a v = Ret a.
Proof.
  intros Hv Hs. pose proof (not_kept v Hv) as Hn.
  assert (Hneg : negb (isNull v) && negb (isEmpty v) = false) by (rewrite <- negb_orb, Hn; reflexivity).
  destruct f; cbn [started] in Hs; try contradiction; cbn [aggStep];
  unfold aggCount, aggSum, aggAvg, aggExt, aggStd, aggBit, aggCollect, aggCollectSet;
  (destruct (isBadNull (ares a)) eqn:Hb; [reflexivity|]);
  try (destruct Hs as [Hs | Hs]; [rewrite Hs|congruence]); rewrite ?Hneg, ?Hn; cbn [andb]; reflexivity.
Qed.

Lemma vadd_not_null a b r : vadd X a b = Ret r -> isNull a = false -> isNull b = false ->
  isNull r = false \/ isBadNull r = true.
Proof.
  intros E Ha Hb. unfold vadd, nullOrEmpty in E. rewrite Ha, Hb in E. cbn [orb negb] in E. rewrite andb_true_r in E.
  destruct (isEmpty a) eqn:Ea. { apply Ret_inj in E. subst r. auto. }
  destruct (isEmpty b) eqn:Eb. { apply Ret_inj in E. subst r. auto. }
  destruct a, b; try discriminate Ha; try discriminate Hb; try discriminate Ea; try discriminate Eb;
    try (apply Ret_inj in E; subst r; try (unfold intRes; destruct (in_int64 _)); cbn; auto; fail);
    destruct (addDays _ _); try discriminate E; apply Ret_inj in E; subst r; auto.
Qed.

Lemma step_starts f a v a' : f <> AFirst -> aggStep X f a v = Ret a' -> started f a'.
Proof.
  intros Hf E. destruct f; try congruence; cbn [started]; auto; cbn [aggStep] in E;
  unfold aggCount, aggSum, aggCollect, aggCollectSet in E;
  (destruct (isBadNull (ares a)) eqn:Hb; [apply Ret_inj in E; subst a'; auto|]); cbv zeta in E;
  set (b := if isNull (ares a) then _ else _) in *;
  assert (Hb2 : isNull (ares b) = false) by (unfold b; destruct (isNull (ares a)) eqn:H; cbn; auto).
  - destruct (isNull v || isEmpty v). { apply Ret_inj in E. subst a'. auto. }
    destruct (vadd X (ares b) (VInt 1)) as [r| | |] eqn:Hr; try discriminate E. apply Ret_inj in E. subst a'.
    exact (vadd_not_null _ _ _ Hr Hb2 eq_refl).
  - destruct (negb (isNull v) && negb (isEmpty v) && negb (isNumericV v)); [apply Ret_inj in E; subst a'; cbn; auto|].
    destruct (isNull v || isEmpty v) eqn:Hn. { apply Ret_inj in E. subst a'. auto. }
    rewrite Hb2 in E. apply orb_false_elim in Hn.
    destruct (vadd X (ares b) v) as [r| | |] eqn:Hr; try discriminate E. apply Ret_inj in E. subst a'.
    exact (vadd_not_null _ _ _ Hr Hb2 (proj1 Hn)).
  - destruct (isNull v || isEmpty v). { apply Ret_inj in E. subst a'. auto. }
    destruct (ares b) eqn:Eb; apply Ret_inj in E; subst a'; cbn; auto.
  - destruct (isNull v || isEmpty v). { apply Ret_inj in E. subst a'. auto. }
    destruct (ares b) eqn:Eb; try (apply Ret_inj in E; subst a'; cbn; auto; fail).
    unfold setEmplace in E.
    match type of E with context [setHas X ?s v] => destruct (setHas X s v) end; try discriminate E. apply Ret_inj in E. subst a'. cbn. auto.
Qed.

Lemma rows_start f a l a' : f <> AFirst -> l <> [] -> rows f a l = Ret a' -> started f a'.
Proof.
  intros Hf. revert a. induction l as [|v l IH]; intros a Hl E; [congruence|]. cbn [aggRows aggEval] in E.
  destruct (aggStep X f a v) as [b| | |] eqn:Es; try discriminate E. cbn [obind] in E.
  destruct l as [|w l].
  - apply Ret_inj in E. subst a'. eapply step_starts; eauto.
  - apply (IH b); [discriminate|exact E].
Qed.

(** * Null and empty inputs *)

(** Adding a null or empty input anywhere in a group does not change the value of the group. *)
Theorem C43_null_ignored : forall f l1 v l2, f <> AFirst -> kept v = false -> l1 ++ l2 <> [] ->
  aggValue X f false (l1 ++ v :: l2) = aggValue X f false (l1 ++ l2).
Proof.
  intros f l1 v l2 Hf Hv Hne. unfold aggValue. f_equal. rewrite !rows_app.
  destruct l1 as [|u l1].
  - cbn [aggRows obind app] in *. destruct l2 as [|w l2]; [congruence|]. cbn [aggRows aggEval].
    destruct f; try congruence;
      try (rewrite (step_skip _ aggNew v Hv) by exact I; reflexivity);
      unfold aggStep, aggCount, aggSum, aggCollect, aggCollectSet; cbn [aggNew ares isBadNull isNull kNull setRes];
      pose proof (not_kept v Hv) as Hn; rewrite ?Hn;
      try (replace (negb (isNull v) && negb (isEmpty v)) with false by (rewrite <- negb_orb, Hn; reflexivity));
      reflexivity.
  - destruct (rows f aggNew (u :: l1)) as [a| | |] eqn:E; cbn [obind]; try reflexivity.
    cbn [aggRows aggEval]. rewrite (step_skip f a v Hv); [reflexivity|].
    apply (rows_start f aggNew (u :: l1)); auto; discriminate.
Qed.

(** A group with inputs but without kept ones. *)
Theorem C43_only_nulls : forall f l, (forall v, In v l -> kept v = false) -> l <> [] ->
  aggValue X f false l =
    match f with
    | ACount | ASum => Ret (VInt 0)
    | ACollect => Ret (VList [])
    | ACollectSet => Ret (VSet [])
    | AFirst => Ret (last l kNull)
    | _ => Ret (VNull NNull)
    end.
Proof.
  intros f l H Hl. destruct (match f with AFirst => true | _ => false end) eqn:F.
  { destruct f; try discriminate F. clear F H. unfold aggValue. generalize aggNew. revert Hl.
    induction l as [|v l IH]; intros Hl a; [congruence|]. cbn [aggRows aggEval aggStep].
    destruct l as [|w l]; [reflexivity|]. cbn [obind]. rewrite IH by discriminate. reflexivity. }
  assert (Hf : f <> AFirst) by (destruct f; discriminate).
  induction l as [|v l IH]; [congruence|]. destruct l as [|w l].
  - assert (Hv : kept v = false) by (apply H; left; reflexivity). pose proof (not_kept v Hv) as Hn.
    unfold aggValue. cbn [aggRows aggEval].
    destruct f; try congruence; unfold aggStep, aggCount, aggSum, aggAvg, aggExt, aggStd, aggBit, aggCollect, aggCollectSet;
      cbn [aggNew ares isBadNull isNull kNull setRes];
      try (replace (negb (isNull v) && negb (isEmpty v)) with false by (rewrite <- negb_orb, Hn; reflexivity));
      cbn [andb]; rewrite ?Hn; reflexivity.
  - change (v :: w :: l) with ([] ++ v :: (w :: l)). rewrite C43_null_ignored; auto; [|apply H; left; reflexivity|discriminate].
    cbn [app]. rewrite IH; [destruct f; auto; congruence|intros; apply H; right; assumption|discriminate].
Qed.

(** * Error nulls are final *)

Theorem C43_error_is_final : forall f a l, f <> AFirst -> isBadNull (ares a) = true -> aggRows X f false a l = Ret a.
Proof.
  intros f a l Hf Hb. induction l as [|v l IH]; [reflexivity|]. cbn [aggRows aggEval].
  assert (E : aggStep X f a v = Ret a).
  { destruct f; try congruence; unfold aggStep, aggCount, aggSum, aggAvg, aggExt, aggStd, aggBit, aggCollect, aggCollectSet;
      rewrite Hb; reflexivity. }
  rewrite E. exact IH.
Qed.

(** The aggregates over numbers give an error null as soon as a kept input has another type. *)
Definition accepts (f : aggFn) (v : value) : bool :=
  match f with
  | ASum | AAvg | AStd => match v with VInt _ | VFloat _ => true | _ => false end
  | ABitAnd | ABitOr | ABitXor => match v with VInt _ => true | _ => false end
  | _ => true
  end.
Theorem C43_bad_type : forall f l1 v l2 r, kept v = true -> accepts f v = false ->
  aggValue X f false (l1 ++ v :: l2) = Ret r ->
  isBadNull r = true /\ (forall r1, aggValue X f false l1 = Ret r1 -> isBadNull r1 = false -> r = VNull NBadType).
Proof.
  intros f l1 v l2 r Hv Ha E. unfold aggValue in *. rewrite rows_app in E.
  destruct (aggRows X f false aggNew l1) as [a| | |] eqn:E1; try discriminate E. cbn [obind aggRows aggEval] in E.
  assert (Hf : f <> AFirst) by (destruct f; try discriminate Ha; discriminate).
  destruct (isBadNull (ares a)) eqn:Hb.
  - pose proof (C43_error_is_final f a (v :: l2) Hf Hb) as Hfin. cbn [aggRows aggEval] in Hfin.
    rewrite Hfin in E. apply Ret_inj in E. subst r. split; [assumption|].
    intros r1 Hr1. apply Ret_inj in Hr1. subst r1. congruence.
  - assert (Hs : exists b, aggStep X f a v = Ret b /\ ares b = VNull NBadType).
    { destruct f; try discriminate Ha; unfold aggStep, aggSum, aggAvg, aggStd, aggBit; rewrite Hb;
        pose proof (is_kept v Hv) as Hn;
        rewrite <- negb_orb, Hn; cbn [negb andb]; cbv zeta;
        unfold isNumericV, isIntV; cbn [accepts] in Ha; rewrite Ha; cbn [negb]; eexists; (split; [reflexivity|reflexivity]). }
    destruct Hs as (b & Hs & Hbb). rewrite Hs in E. cbn [obind] in E.
    rewrite (C43_error_is_final f b l2 Hf) in E by (rewrite Hbb; reflexivity).
    apply Ret_inj in E. subst r. rewrite Hbb. auto.
Qed.

(** * The values *)

Definition keptOf (l : list value) : list value := filter kept l.

(** Every group with at least one kept input has the value of the group of its kept inputs. *)
Lemma value_kept f l : f <> AFirst -> keptOf l <> [] -> aggValue X f false l = aggValue X f false (keptOf l).
Proof.
  intros Hf Hk.
  assert (G : forall l2 l1, keptOf (l1 ++ l2) <> [] -> (forall v, In v l1 -> kept v = true) ->
              aggValue X f false (l1 ++ l2) = aggValue X f false (l1 ++ keptOf l2)).
  { induction l2 as [|v l2 IH]; intros l1 Hne Hall; [reflexivity|]. cbn [keptOf filter].
    destruct (kept v) eqn:Ev.
    - replace (l1 ++ v :: l2) with ((l1 ++ [v]) ++ l2) by (rewrite <- app_assoc; reflexivity).
      fold (keptOf l2).
      replace (l1 ++ v :: keptOf l2) with ((l1 ++ [v]) ++ keptOf l2) by (rewrite <- app_assoc; reflexivity).
      apply IH.
      + rewrite <- app_assoc. exact Hne.
      + intros w Hw. apply in_app_iff in Hw. destruct Hw as [Hw | [<- | []]]; auto.
    - assert (Hk2 : keptOf (l1 ++ l2) <> []).
      { unfold keptOf in *. rewrite filter_app in *. cbn [filter] in Hne. rewrite Ev in Hne. exact Hne. }
      rewrite C43_null_ignored; auto. intros E. rewrite E in Hk2. apply Hk2. reflexivity. }
  apply (G l []); auto.
Qed.

Theorem C43_count : forall l, l <> [] -> Z.of_nat (List.length l) <= int64_max ->
  aggValue X ACount false l = Ret (VInt (Z.of_nat (List.length (keptOf l)))).
Proof.
  intros l Hl Hmax. destruct (keptOf l) as [|k0 ks] eqn:Ek.
  - rewrite C43_only_nulls; auto. intros v Hv. destruct (kept v) eqn:Hk; [|reflexivity].
    assert (In v (keptOf l)) by (apply filter_In; auto). rewrite Ek in *. contradiction.
  - rewrite value_kept by (try discriminate; rewrite Ek; discriminate). rewrite Ek.
    assert (Hall : forall v, In v (k0 :: ks) -> kept v = true) by (intros v Hv; rewrite <- Ek in Hv; apply filter_In in Hv; tauto).
    assert (Hlen : Z.of_nat (List.length (k0 :: ks)) <= int64_max).
    { rewrite <- Ek. assert (List.length (keptOf l) <= List.length l)%nat; [|lia].
      clear. induction l as [|v l IH]; cbn; [lia|]. destruct (kept v); cbn; fold (keptOf l); lia. }
    clear Ek Hl Hmax l. unfold aggValue.
    assert (G : forall ks a n, (forall v, In v ks -> kept v = true) -> 0 <= n ->
              n + Z.of_nat (List.length ks) <= int64_max -> ares a = VInt n ->
              obind (aggRows X ACount false a ks) (fun a => Ret (ares a)) = Ret (VInt (n + Z.of_nat (List.length ks)))).
    { induction ks0 as [|v vs IH]; intros a n Hk Hn Hm Ha; cbn [aggRows].
      - cbn. rewrite Ha. f_equal. f_equal. lia.
      - cbn [aggEval aggStep]. unfold aggCount. rewrite Ha. cbn [isBadNull isNull]. cbv zeta.
        rewrite (is_kept v) by (apply Hk; left; reflexivity). rewrite Ha. cbn [vadd nullOrEmpty isNull isEmpty orb andb obind].
        cbn [List.length] in Hm. rewrite (IH _ (n + 1)); auto.
        + f_equal. f_equal. cbn [List.length]. lia.
        + intros w Hw. apply Hk. right. assumption.
        + lia.
        + lia.
        + cbn. unfold intRes. replace (in_int64 (n + 1)) with true; [reflexivity|].
          symmetry. unfold in_int64, int64_min, int64_max in *. apply andb_true_intro. split; apply Z.leb_le; lia. }
    cbn [aggRows aggEval aggStep]. unfold aggCount at 1. cbn [aggNew ares isBadNull isNull kNull setRes].
    rewrite (is_kept k0) by (apply Hall; left; reflexivity). cbn [vadd nullOrEmpty isNull isEmpty orb andb obind].
    rewrite (G ks _ 1); [f_equal; f_equal; cbn [List.length]; lia| | |cbn [List.length] in Hlen; lia|reflexivity].
    + intros v Hv. apply Hall. right. assumption.
    + lia.
Qed.

(** ** SUM over integers *)
Definition sumZ (zs : list Z) : Z := fold_right Z.add 0 zs.
(** Every partial sum is an int64. *)
Definition noOverflow (zs : list Z) : Prop := forall n, in_int64 (sumZ (firstn n zs)) = true.

Lemma sum_rows zs : forall a z, ares a = VInt z -> (forall n, in_int64 (z + sumZ (firstn n zs)) = true) ->
  exists b, rows ASum a (ints zs) = Ret b /\ ares b = VInt (z + sumZ zs).
Proof.
  induction zs as [|y zs IH]; intros a z Ha Hno; cbn [ints map aggRows].
  - exists a. split; [reflexivity|]. rewrite Ha. f_equal. cbn. lia.
  - cbn [aggEval aggStep]. unfold aggSum. rewrite Ha. cbn [isBadNull isNull]. cbv zeta. rewrite Ha.
    cbn [isNull isEmpty isNumericV negb andb orb vadd nullOrEmpty obind].
    assert (H1 : in_int64 (z + y) = true) by (specialize (Hno 1%nat); cbn in Hno; rewrite Z.add_0_r in Hno; exact Hno).
    unfold intRes. rewrite H1. destruct (IH (setRes a (VInt (z + y))) (z + y)) as (b & Hb & Hr).
    + reflexivity.
    + intros n. specialize (Hno (S n)). cbn in Hno. rewrite Z.add_assoc in Hno. exact Hno.
    + exists b. split; [exact Hb|]. rewrite Hr. f_equal. change (sumZ (y :: zs)) with (y + sumZ zs). lia.
Qed.

Theorem C43_sum : forall l zs, keptOf l = ints zs -> l <> [] -> noOverflow zs ->
  aggValue X ASum false l = Ret (VInt (sumZ zs)).
Proof.
  intros l zs Hk Hl Hno. destruct zs as [|z zs].
  - rewrite C43_only_nulls; auto. intros v Hv. destruct (kept v) eqn:Hkv; [|reflexivity].
    assert (In v (keptOf l)) by (apply filter_In; auto). rewrite Hk in *. contradiction.
  - rewrite value_kept by (try discriminate; rewrite Hk; discriminate). rewrite Hk. unfold aggValue.
    assert (E : rows ASum aggNew (ints (z :: zs)) = rows ASum (setRes aggNew (VInt 0)) (ints (z :: zs))) by reflexivity.
    rewrite E. destruct (sum_rows (z :: zs) (setRes aggNew (VInt 0)) 0) as (b & -> & Hb); auto.
    cbn [obind]. rewrite Hb. reflexivity.
Qed.

(** An overflowing partial sum makes the result the overflow null, for good. *)
Theorem C43_sum_overflow : forall zs y rest, noOverflow zs -> in_int64 (sumZ zs + y) = false ->
  aggValue X ASum false (ints zs ++ VInt y :: rest) = Ret (VNull NOverflow).
Proof.
  intros zs y rest Hno Hov. unfold aggValue. rewrite rows_app.
  assert (G : forall a, ares a = VInt (sumZ zs) -> rows ASum a (VInt y :: rest) = Ret (setRes a (VNull NOverflow))).
  { intros a Ha. cbn [aggRows aggEval aggStep]. unfold aggSum. rewrite Ha. cbn [isBadNull isNull]. cbv zeta. rewrite Ha.
    cbn [isNull isEmpty isNumericV negb andb orb vadd nullOrEmpty obind]. unfold intRes. rewrite Hov.
    apply C43_error_is_final; [discriminate|reflexivity]. }
  destruct zs as [|z zs].
  - change (rows ASum aggNew (ints [])) with (Ret aggNew). cbn [obind].
    assert (E : rows ASum aggNew (VInt y :: rest) = rows ASum (setRes aggNew (VInt 0)) (VInt y :: rest)) by reflexivity.
    rewrite E, (G (setRes aggNew (VInt 0))) by reflexivity. reflexivity.
  - assert (E : rows ASum aggNew (ints (z :: zs)) = rows ASum (setRes aggNew (VInt 0)) (ints (z :: zs))) by reflexivity.
    rewrite E. destruct (sum_rows (z :: zs) (setRes aggNew (VInt 0)) 0) as (b & -> & Hb); auto.
    cbn [obind]. rewrite (G b Hb). reflexivity.
Qed.

(** ** BIT_AND, BIT_OR, BIT_XOR *)
Definition bitOf (f : aggFn) : Z -> Z -> Z := match f with ABitAnd => Z.land | ABitOr => Z.lor | _ => Z.lxor end.
Definition isBit (f : aggFn) : Prop := f = ABitAnd \/ f = ABitOr \/ f = ABitXor.

Lemma bit_step f a v : isBit f -> aggStep X f a v = aggBit (bitOf f) a v.
Proof. intros [-> | [-> | ->]]; reflexivity. Qed.

Theorem C43_bits : forall f l z zs, isBit f -> keptOf l = ints (z :: zs) ->
  aggValue X f false l = Ret (VInt (fold_left (bitOf f) zs z)).
Proof.
  intros f l z zs Hf Hk. assert (Hne : f <> AFirst) by (destruct Hf as [-> | [-> | ->]]; discriminate).
  rewrite value_kept by (auto; rewrite Hk; discriminate). rewrite Hk. unfold aggValue.
  assert (G : forall zs a y, ares a = VInt y -> exists b, rows f a (ints zs) = Ret b /\ ares b = VInt (fold_left (bitOf f) zs y)).
  { clear Hk. induction zs0 as [|w zs0 IH]; intros a y Ha; cbn [ints map aggRows fold_left]; [eauto|].
    cbn [aggEval]. rewrite bit_step by assumption. unfold aggBit. rewrite Ha.
    cbn [isBadNull isNull isEmpty isIntV negb andb orb vbit nullOrEmpty obind].
    apply (IH (setRes a (VInt (bitOf f y w)))). reflexivity. }
  assert (E0 : rows f aggNew (ints (z :: zs)) = rows f (setRes aggNew (VInt z)) (ints zs)).
  { cbn [ints map aggRows aggEval]. rewrite bit_step by assumption. reflexivity. }
  rewrite E0. destruct (G zs (setRes aggNew (VInt z)) z eq_refl) as (b & E & Hb).
  rewrite E. cbn [obind]. rewrite Hb. reflexivity.
Qed.

(** ** MAX and MIN *)
(** On values the order < can compare (see C11): a kept input that no other kept input exceeds. *)
Definition isExt (f : aggFn) : Prop := f = AMax \/ f = AMin.
Definition beats (f : aggFn) (v r : value) : bool := match f with AMax => vlt X r v | _ => vlt X v r end.

Theorem C43_max_min : forall fl f l, isExt f -> keptOf l <> [] -> (forall v, In v (keptOf l) -> orderable fl v = true) ->
  exists r, aggValue X f false l = Ret r /\ In r (keptOf l) /\ forall v, In v (keptOf l) -> beats f v r = false.
Proof.
  intros fl f l Hf Hne Hord. assert (Hnf : f <> AFirst) by (destruct Hf as [-> | ->]; discriminate).
  rewrite value_kept by assumption.
  assert (Hkept : forall v, In v (keptOf l) -> kept v = true) by (intros v Hv; apply filter_In in Hv; tauto).
  set (ks := keptOf l) in *. clearbody ks. unfold aggValue.
  assert (Hstep : forall a v, kept v = true -> isNull (ares a) = false ->
            aggStep X f a v = Ret (if beats f v (ares a) then setRes a v else a)).
  { intros a v Hv Ha. assert (isBadNull (ares a) = false) as Hb by (destruct (ares a); auto; discriminate Ha).
    destruct Hf as [-> | ->]; cbn [aggStep]; unfold aggExt; rewrite Hb, (is_kept v Hv), Ha; cbn [beats];
      destruct (vlt X _ _); reflexivity. }
  assert (Hnn : forall v, kept v = true -> isNull v = false) by (intros []; auto; discriminate).
  (* not less is transitive, on orderable values *)
  assert (Htr : forall a b c, orderable fl a = true -> orderable fl b = true -> orderable fl c = true ->
            beats f b a = false -> beats f c b = false -> beats f c a = false).
  { intros a b c Oa Ob Oc H1 H2.
    destruct Hf as [-> | ->]; cbn [beats] in *.
    - destruct (C11_strict_weak_order X fl a c b Oa Oc Ob) as (_ & _ & T1 & T2).
      destruct (C11_strict_weak_order X fl b a c Ob Oa Oc) as (_ & _ & T3 & _).
      destruct (vlt X a c) eqn:E; [|reflexivity].
      (* a<c, not a<b, not b<c *)
      destruct (vlt X c b) eqn:Ecb; [rewrite T1 in H1 by auto; discriminate|].
      destruct (vlt X b a) eqn:Eba; [rewrite T3 in H2 by auto; discriminate|].
      destruct (C11_strict_weak_order X fl a b c Oa Ob Oc) as (_ & _ & _ & T4). destruct T4; auto; congruence.
    - destruct (C11_strict_weak_order X fl b c a Ob Oc Oa) as (_ & _ & T1 & _).
      destruct (C11_strict_weak_order X fl c a b Oc Oa Ob) as (_ & _ & T3 & _).
      destruct (vlt X c a) eqn:E; [|reflexivity].
      destruct (vlt X b c) eqn:Ebc; [rewrite T1 in H1 by auto; discriminate|].
      destruct (vlt X a b) eqn:Eab; [rewrite T3 in H2 by auto; discriminate|].
      destruct (C11_strict_weak_order X fl a b c Oa Ob Oc) as (_ & _ & _ & T4). destruct T4; auto; congruence. }
  assert (Hirr : forall a b, orderable fl a = true -> orderable fl b = true -> beats f b a = true -> beats f a b = false).
  { intros a b Oa Ob H. destruct Hf as [-> | ->]; cbn [beats] in *.
    - apply (proj1 (proj2 (C11_strict_weak_order X fl a b b Oa Ob Ob))). assumption.
    - apply (proj1 (proj2 (C11_strict_weak_order X fl b a a Ob Oa Oa))). assumption. }
  assert (Hrefl : forall a, orderable fl a = true -> beats f a a = false).
  { intros a Oa. destruct Hf as [-> | ->]; apply (proj1 (C11_strict_weak_order X fl a a a Oa Oa Oa)). }
  assert (G : forall vs a, (forall v, In v vs -> kept v = true /\ orderable fl v = true) -> isNull (ares a) = false ->
            orderable fl (ares a) = true ->
            exists b, rows f a vs = Ret b /\ (ares b = ares a \/ In (ares b) vs) /\ orderable fl (ares b) = true /\
                      beats f (ares a) (ares b) = false /\ forall v, In v vs -> beats f v (ares b) = false).
  { induction vs as [|v vs IH]; intros a Hvs Ha Oa; cbn [aggRows].
    - exists a. splits; auto; intros v [].
    - destruct (Hvs v) as [Kv Ov]; [left; reflexivity|].
      cbn [aggEval]. rewrite (Hstep a v Kv Ha). cbn [obind].
      set (a' := if beats f v (ares a) then setRes a v else a).
      assert (Ha' : isNull (ares a') = false /\ orderable fl (ares a') = true /\ (ares a' = ares a \/ ares a' = v) /\
                    beats f (ares a) (ares a') = false /\ beats f v (ares a') = false).
      { unfold a'. destruct (beats f v (ares a)) eqn:E; cbn [setRes ares]; splits; auto. }
      destruct Ha' as (N' & O' & C' & B1 & B2).
      destruct (IH a') as (b & Hb & Hin & Ob & Hb1 & Hb2); auto.
      { intros w Hw. apply Hvs. right. assumption. }
      exists b. splits; auto.
      + destruct Hin as [-> | Hin]; [|auto with datatypes]. destruct C' as [-> | ->]; auto with datatypes.
      + apply (Htr (ares b) (ares a') (ares a)); auto.
      + intros w [<- | Hw]; auto. apply (Htr (ares b) (ares a') v); auto. }
  destruct ks as [|k ks]; [congruence|]. cbn [aggRows aggEval].
  assert (H1 : aggStep X f aggNew k = Ret (setRes aggNew k)).
  { destruct Hf as [-> | ->]; cbn [aggStep]; unfold aggExt; cbn [aggNew ares kNull isBadNull isNull];
      rewrite (is_kept k) by (apply Hkept; left; reflexivity); reflexivity. }
  rewrite H1. cbn [obind].
  destruct (G ks (setRes aggNew k)) as (b & Hb & Hin & Ob & Hb1 & Hb2).
  - intros v Hv. split; [apply Hkept|apply Hord]; right; assumption.
  - apply Hnn, Hkept. left. reflexivity.
  - apply Hord. left. reflexivity.
  - rewrite Hb. exists (ares b). cbn [setRes ares] in *. splits; [reflexivity| |].
    + destruct Hin as [-> | Hin]; [left; reflexivity|right; assumption].
    + intros v [<- | Hv]; auto.
Qed.

(** ** COLLECT and COLLECT_SET *)
Theorem C43_collect : forall l, l <> [] -> aggValue X ACollect false l = Ret (VList (keptOf l)).
Proof.
  intros l Hl. unfold aggValue.
  assert (G : forall l a acc, ares a = VList acc ->
            exists b, rows ACollect a l = Ret b /\ ares b = VList (acc ++ keptOf l)).
  { clear. induction l as [|v l IH]; intros a acc Ha; cbn [aggRows].
    - exists a. rewrite app_nil_r. auto.
    - cbn [aggEval aggStep]. unfold aggCollect. rewrite Ha. cbn [isBadNull isNull]. cbv zeta. rewrite Ha.
      unfold keptOf. cbn [filter]. rewrite kept_spec. destruct (isNull v || isEmpty v); cbn [negb obind].
      + apply IH. assumption.
      + destruct (IH (setRes a (VList (acc ++ [v]))) (acc ++ [v]) eq_refl) as (b & Hb & Hr).
        exists b. split; [exact Hb|]. rewrite Hr. rewrite <- app_assoc. reflexivity. }
  destruct l as [|v l]; [congruence|].
  assert (E : rows ACollect aggNew (v :: l) = rows ACollect (setRes aggNew (VList [])) (v :: l)) by reflexivity.
  rewrite E. destruct (G (v :: l) (setRes aggNew (VList [])) [] eq_refl) as (b & -> & Hb). cbn [obind]. rewrite Hb. reflexivity.
Qed.

(** What the hash set takes for the same element. *)
Definition sameElement (v w : value) : Prop := sameHash X v w = true /\ veq X v w = true.

Theorem C43_collect_set : forall l, l <> [] -> (forall v, In v (keptOf l) -> exists h, vhash X v = Ret h) ->
  exists s, aggValue X ACollectSet false l = Ret (VSet s) /\
    (forall w, In w s -> In w (keptOf l)) /\
    (forall v, In v (keptOf l) -> exists w, In w s /\ (w = v \/ sameElement v w)) /\
    (forall s1 v s2 w, s = s1 ++ v :: s2 -> In w s1 -> ~ sameElement v w).
Proof.
  intros l Hl Hh. unfold aggValue.
  assert (Hmem : forall v s, memberOf X v s = true <-> exists w, In w s /\ sameElement v w).
  { intros v s. unfold memberOf. rewrite existsb_exists. unfold sameElement.
    split; intros (w & Hw & H); exists w; rewrite ?andb_true_iff in *; auto. }
  assert (G : forall l a acc, ares a = VSet acc -> (forall v, In v (keptOf l) -> exists h, vhash X v = Ret h) ->
            (forall s1 v s2 w, acc = s1 ++ v :: s2 -> In w s1 -> ~ sameElement v w) ->
            exists b s, rows ACollectSet a l = Ret b /\ ares b = VSet s /\
              (forall w, In w s -> In w acc \/ In w (keptOf l)) /\
              (forall w, In w acc -> In w s) /\
              (forall v, In v (keptOf l) -> exists w, In w s /\ (w = v \/ sameElement v w)) /\
              (forall s1 v s2 w, s = s1 ++ v :: s2 -> In w s1 -> ~ sameElement v w)).
  { clear l Hl Hh. induction l as [|v l IH]; intros a acc Ha Hh Hd; cbn [aggRows].
    - exists a, acc. splits; auto. intros v [].
    - cbn [aggEval aggStep]. unfold aggCollectSet. rewrite Ha. cbn [isBadNull isNull]. cbv zeta. rewrite Ha.
      unfold keptOf in *. cbn [filter] in *. rewrite kept_spec in *. destruct (isNull v || isEmpty v); cbn [negb obind] in *.
      + apply IH; assumption.
      + destruct (Hh v) as (h & Hv); [left; reflexivity|]. unfold setEmplace, setHas. rewrite Hv. cbn [obind].
        set (acc' := if memberOf X v acc then acc else acc ++ [v]).
        assert (Hd' : forall s1 u s2 w, acc' = s1 ++ u :: s2 -> In w s1 -> ~ sameElement u w).
        { unfold acc'. destruct (memberOf X v acc) eqn:Em; [exact Hd|].
          intros s1 u s2 w E Hw Hs. destruct (exists_last (l := u :: s2)) as (t & x & Et); [discriminate|].
          rewrite Et, app_assoc in E. apply app_inj_tail in E. destruct E as [E Ex]. subst x.
          destruct t as [|u' t].
          - injection Et as Eu _. subst u. rewrite app_nil_r in E. subst s1.
            assert (memberOf X v acc = true) by (apply Hmem; eauto). congruence.
          - cbn [app] in Et. injection Et as <- Et. apply (Hd s1 u t w); auto. }
        destruct (IH (setRes a (VSet acc')) acc' eq_refl) as (b & s & Hb & Hr & H1 & H2 & H3 & H4); auto.
        { intros w Hw. apply Hh. right. assumption. }
        exists b, s. splits; auto.
        * intros w Hw. destruct (H1 w Hw) as [H | H]; [|right; right; assumption].
          unfold acc' in H. destruct (memberOf X v acc); auto.
          apply in_app_iff in H. destruct H as [H | [<- | []]]; [auto|right; left; reflexivity].
        * intros w Hw. apply H2. unfold acc'. destruct (memberOf X v acc); auto with datatypes.
        * intros u [<- | Hu]; auto. unfold acc' in H2. destruct (memberOf X v acc) eqn:Em.
          -- apply Hmem in Em. destruct Em as (w & Hw & Hs). exists w. auto.
          -- exists v. split; [apply H2; auto with datatypes|auto]. }
  destruct l as [|v l]; [congruence|].
  assert (E : rows ACollectSet aggNew (v :: l) = rows ACollectSet (setRes aggNew (VSet [])) (v :: l)) by reflexivity.
  rewrite E.
  destruct (G (v :: l) (setRes aggNew (VSet [])) [] eq_refl Hh) as (b & s & -> & Hb & H1 & H2 & H3 & H4).
  { intros s1 u s2 w Es. destruct s1; discriminate Es. }
  exists s. cbn [obind]. rewrite Hb. splits; auto. intros w Hw. destruct (H1 w Hw) as [[] | H]; assumption.
Qed.

(** ** DISTINCT *)
(** Aggregating with DISTINCT is aggregating the first occurrences. *)
Fixpoint firsts (seen l : list value) : list value :=
  match l with
  | [] => []
  | v :: l' => if memberOf X v seen then firsts seen l' else v :: firsts (seen ++ [v]) l'
  end.

Lemma step_uniq f a v u :
  aggStep X f (mkAgg (acnt a) (asum a) (aavg a) (adev a) (ares a) u) v =
  obind (aggStep X f a v) (fun b => Ret (mkAgg (acnt b) (asum b) (aavg b) (adev b) (ares b) u)).
Proof.
  destruct a as [c s av d r u0]. cbn [acnt asum aavg adev ares auniq].
  destruct f; cbn [aggStep]; unfold aggCount, aggSum, aggAvg, aggExt, aggStd, aggBit, aggCollect, aggCollectSet, setRes;
    cbn [acnt asum aavg adev ares auniq]; cbv zeta; destruct r;
    try match goal with n : nullType |- _ => destruct n end;
    cbn [isBadNull isNull acnt asum aavg adev ares auniq]; 
    repeat (first [reflexivity | match goal with
      | |- context [if ?b then _ else _] => destruct b; cbn [obind acnt asum aavg adev ares auniq]
      | |- context [obind ?o _] => is_var o; destruct o; cbn [obind acnt asum aavg adev ares auniq]
      | |- context [obind (vadd X ?x ?y) _] => destruct (vadd X x y); cbn [obind acnt asum aavg adev ares auniq]
      | |- context [obind (vsub ?x ?y) _] => destruct (vsub x y); cbn [obind acnt asum aavg adev ares auniq]
      | |- context [obind (vmul ?x ?y) _] => destruct (vmul x y); cbn [obind acnt asum aavg adev ares auniq]
      | |- context [obind (vdiv ?x ?y) _] => destruct (vdiv x y); cbn [obind acnt asum aavg adev ares auniq]
      | |- context [obind (setEmplace X ?x ?y) _] => destruct (setEmplace X x y); cbn [obind acnt asum aavg adev ares auniq]
      | |- context [match ?r with VEmpty => _ | _ => _ end] => destruct r; cbn [obind acnt asum aavg adev ares auniq]
      end]).
Qed.
Lemma rows_uniq f l : forall a u,
  rows f (mkAgg (acnt a) (asum a) (aavg a) (adev a) (ares a) u) l =
  obind (rows f a l) (fun b => Ret (mkAgg (acnt b) (asum b) (aavg b) (adev b) (ares b) u)).
Proof.
  induction l as [|v l IH]; intros a u; cbn [aggRows aggEval]; [reflexivity|].
  rewrite step_uniq. destruct (aggStep X f a v) as [b| | |]; cbn [obind]; auto.
Qed.

Theorem C43_distinct : forall f l, (forall v, In v l -> exists h, vhash X v = Ret h) ->
  aggValue X f true l = aggValue X f false (firsts [] l).
Proof.
  intros f l Hh. unfold aggValue.
  assert (G : forall l a, (forall v, In v l -> exists h, vhash X v = Ret h) ->
            obind (aggRows X f true a l) (fun b => Ret (ares b)) =
            obind (rows f a (firsts (auniq a) l)) (fun b => Ret (ares b))).
  { clear l Hh. induction l as [|v l IH]; intros a Hh; [reflexivity|]. cbn [aggRows firsts].
    destruct (Hh v) as (h & Hv); [left; reflexivity|].
    assert (Hh' : forall v, In v l -> exists h, vhash X v = Ret h) by (intros; apply Hh; right; assumption).
    unfold aggEval at 1. unfold setHas. rewrite Hv. cbn [obind].
    destruct (memberOf X v (auniq a)) eqn:Em; [cbn [obind]; apply IH; assumption|].
    cbn [aggRows aggEval]. rewrite step_uniq. destruct (aggStep X f a v) as [b| | |] eqn:Es; cbn [obind]; try reflexivity.
    rewrite IH by assumption. cbn [auniq].
    rewrite rows_uniq. destruct (rows f b (firsts (auniq a ++ [v]) l)); reflexivity. }
  apply (G l aggNew Hh).
Qed.

(** ** Order of the inputs *)
Lemma kept_perm l l' : Permutation l l' -> Permutation (keptOf l) (keptOf l').
Proof.
  intros H. unfold keptOf. induction H; cbn; auto.
  - destruct (kept x); auto.
  - destruct (kept x), (kept y); auto using perm_swap.
  - eapply perm_trans; eauto.
Qed.

Theorem C43_order_count : forall l l', Permutation l l' -> Z.of_nat (List.length l) <= int64_max ->
  aggValue X ACount false l = aggValue X ACount false l'.
Proof.
  intros l l' P Hm. destruct l as [|v l].
  - apply Permutation_nil in P. subst. reflexivity.
  - assert (l' <> []) by (intros ->; apply Permutation_sym, Permutation_nil in P; discriminate).
    rewrite !C43_count; auto; try discriminate.
    + rewrite (Permutation_length (kept_perm _ _ P)). reflexivity.
    + rewrite <- (Permutation_length P). assumption.
Qed.

Theorem C43_order_bits : forall f zs zs', isBit f -> Permutation zs zs' ->
  aggValue X f false (ints zs) = aggValue X f false (ints zs').
Proof.
  intros f zs zs' Hf P.
  assert (Hk : forall zs, keptOf (ints zs) = ints zs) by (induction zs0 as [|z zs0 IH]; cbn; [reflexivity|]; f_equal; exact IH).
  assert (Hc : forall x y, bitOf f x y = bitOf f y x).
  { destruct Hf as [-> | [-> | ->]]; intros; cbn; [apply Z.land_comm|apply Z.lor_comm|apply Z.lxor_comm]. }
  assert (Ha : forall x y z, bitOf f (bitOf f x y) z = bitOf f x (bitOf f y z)).
  { destruct Hf as [-> | [-> | ->]]; intros; cbn; [symmetry; apply Z.land_assoc|symmetry; apply Z.lor_assoc|apply Z.lxor_assoc]. }
  assert (Hfold : forall zs x y, fold_left (bitOf f) zs (bitOf f x y) = bitOf f x (fold_left (bitOf f) zs y)).
  { induction zs0 as [|z zs0 IH]; intros x y; cbn; [reflexivity|]. rewrite Ha. apply IH. }
  assert (Hval : forall z zs, aggValue X f false (ints (z :: zs)) = Ret (VInt (fold_left (bitOf f) zs z)))
    by (intros; apply C43_bits; auto).
  induction P as [|x l l' P IH|x y l|l1 l2 l3 P1 IH1 P2 IH2].
  - reflexivity.
  - rewrite !Hval. destruct l as [|a l], l' as [|b l'].
    + reflexivity.
    + apply Permutation_nil in P. discriminate.
    + apply Permutation_sym, Permutation_nil in P. discriminate.
    + rewrite !Hval in IH. apply Ret_inj in IH. injection IH as IH. cbn [fold_left]. rewrite !Hfold, IH. reflexivity.
  - rewrite !Hval. cbn [fold_left]. rewrite Hc. reflexivity.
  - congruence.
Qed.

(** MAX and MIN: two orders give results of which neither is less than the other. *)
Theorem C43_order_max_min : forall fl f l l' r r', isExt f -> Permutation l l' ->
  (forall v, In v (keptOf l) -> orderable fl v = true) ->
  aggValue X f false l = Ret r -> aggValue X f false l' = Ret r' -> beats f r r' = false /\ beats f r' r = false.
Proof.
  intros fl f l l' r r' Hf P Ho E E'. pose proof (kept_perm _ _ P) as PK.
  destruct (keptOf l) as [|k ks] eqn:Ek.
  - assert (Hno : forall l, keptOf l = [] -> aggValue X f false l = Ret kNull).
    { intros l0 H0. destruct l0 as [|v l0]; [destruct Hf as [-> | ->]; reflexivity|].
      rewrite C43_only_nulls; [destruct Hf as [-> | ->]; reflexivity| |discriminate].
      intros w Hw. destruct (kept w) eqn:Kw; [|reflexivity].
      assert (In w (keptOf (v :: l0))) by (apply filter_In; auto). rewrite H0 in *. contradiction. }
    apply Permutation_nil in PK. rewrite Hno in E by assumption. rewrite Hno in E' by assumption.
    apply Ret_inj in E. apply Ret_inj in E'. subst r r'. destruct Hf as [-> | ->]; split; reflexivity.
  - assert (Hk' : keptOf l' <> []) by (intros H; rewrite H in PK; apply Permutation_sym, Permutation_nil in PK; discriminate).
    destruct (C43_max_min fl f l Hf) as (s & Hs & Hin & Hmax); [rewrite Ek; discriminate|rewrite Ek; assumption|].
    destruct (C43_max_min fl f l' Hf Hk') as (s' & Hs' & Hin' & Hmax').
    { intros v Hv. apply Ho. eapply Permutation_in; [apply Permutation_sym; exact PK|assumption]. }
    rewrite Hs in E. apply Ret_inj in E. rewrite Hs' in E'. apply Ret_inj in E'. subst s s'.
    rewrite Ek in *. split.
    + apply Hmax'. eapply Permutation_in; eassumption.
    + apply Hmax. eapply Permutation_in; [apply Permutation_sym; exact PK|assumption].
Qed.
End S.

(** "order-independent" is false of SUM: an intermediate overflow is final although the total is an int64. *)
Theorem C43_order_sum_refuted : exists l l', Permutation l l' /\ forall X,
  aggValue X ASum false l = Ret (VNull NOverflow) /\ aggValue X ASum false l' = Ret (VInt int64_max).
Proof.
  exists (ints [int64_max; 1; -1]), (ints [1; -1; int64_max]). split.
  - apply (Permutation_app_comm (ints [int64_max]) (ints [1; -1])).
  - intros X. split; reflexivity.
Qed.
(** Nor of MAX when a NaN is among the inputs. *)
Theorem C43_order_max_nan_refuted : exists l l', Permutation l l' /\ forall X,
  aggValue X AMax false l = Ret (VFloat SpecFloat.S754_nan) /\ aggValue X AMax false l' = Ret (VInt 1).
Proof.
  exists [VFloat SpecFloat.S754_nan; VInt 1], [VInt 1; VFloat SpecFloat.S754_nan]. split.
  - apply perm_swap.
  - intros X. split; reflexivity.
Qed.

Example C43_ex : forall X,
  aggValue X ACount false [VInt 1; VNull NNull; VStr [97]; VEmpty] = Ret (VInt 2) /\
  aggValue X ASum false [VInt 1; VNull NNull; VInt 41; VEmpty] = Ret (VInt 42) /\
  aggValue X ASum false [VInt 1; VStr [97]; VInt 41] = Ret (VNull NBadType) /\
  aggValue X AMax false [VInt 1; VNull NNull; VInt 41; VInt 3] = Ret (VInt 41) /\
  aggValue X AAvg false [VInt 1; VNull NNull; VInt 4] = Ret (VFloat (f64div (f64ofZ 5) (f64ofZ 2))) /\
  aggValue X AStd false [VInt 1; VInt 3] = Ret (VFloat (f64ofZ 1)) /\
  aggValue X ABitAnd false [VInt 12; VEmpty; VInt 10] = Ret (VInt 8) /\
  aggValue X ACollectSet false [VInt 2; VNull NNull; VInt 1; VInt 2] = Ret (VSet [VInt 2; VInt 1]) /\
  aggValue X ASum true [VInt 2; VInt 1; VInt 2] = Ret (VInt 3).
Proof. intros X. splits; vm_compute; reflexivity. Qed.

Print Assumptions C43_null_ignored.
Print Assumptions C43_max_min.
Print Assumptions C43_collect_set.
Print Assumptions C43_distinct.
Print Assumptions C43_order_bits.
