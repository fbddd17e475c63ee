(** C190: aggregates give only values that the types allow. *)
From Coq Require Import String List.
From Verif Require Import Prelude Trans ValueBase DateModel TimeModel ValueModel ValueProofs GraphModel ExprModel ExprSpec ExprProofs EvalModel EvalSpec EvalProofs EvalProps ValueProps
  FaultSpec SoundSpec SoundProofs SoundProps FuncTableModel SoundFuncProofs AggModel.
Import ListNotations.
Local Open Scope list_scope.
Local Open Scope string_scope.
Open Scope Z_scope.

Section Agg.
Context (X : externals).
Notation S := (sound X).
Notation E := (convEnv X).
Ltac lf := apply (sound_leaf E); split; [reflexivity|try exact I].
Definition soundAgg (a : aggData) : Prop := S (acnt a) /\ S (asum a) /\ S (aavg a) /\ S (adev a) /\ S (ares a).
Lemma int_sound z : int64 z -> S (VInt z). Proof. exact (sound_int E z). Qed.
Lemma add_sound v w r : S v -> S w -> vadd X v w = Ret r -> S r. Proof. exact (vadd_sound E v w r). Qed.
Lemma sub_sound v w r : S v -> S w -> vsub v w = Ret r -> S r. Proof. exact (vsub_sound E v w r). Qed.
Lemma mul_sound v w r : S v -> S w -> vmul v w = Ret r -> S r. Proof. exact (vmul_sound E v w r). Qed.
Lemma div_sound v w r : S v -> S w -> vdiv v w = Ret r -> S r. Proof. exact (vdiv_sound E v w r). Qed.
Lemma new_sound : soundAgg aggNew.
Proof. unfold soundAgg. cbn [aggNew acnt asum aavg adev ares]. split; [apply int_sound; unfold int64; lia|]. repeat split; lf. Qed.
Lemma res_sound a r : soundAgg a -> S r -> soundAgg (setRes a r).
Proof. intros (H1 & H2 & H3 & H4 & H5) H. unfold soundAgg. cbn. auto. Qed.
Lemma one : S (VInt 1). Proof. apply int_sound. unfold int64. lia. Qed.
Lemma zero : S (VInt 0). Proof. apply int_sound. unfold int64. lia. Qed.
Lemma flt f : S (VFloat f). Proof. lf. Qed.
Lemma nul n : S (VNull n). Proof. lf. Qed.
Ltac give H := match type of H with context [obind ?x _] => let Q := fresh "Q" in destruct x eqn:Q; try discriminate H; cbn [obind] in H end.
Ltac known := eauto using one, zero, flt, nul, res_sound.
Lemma step_sound f a v a' : soundAgg a -> S v -> aggStep X f a v = Ret a' -> soundAgg a'.
Proof.
  intros Ha Hv H. pose proof Ha as (H1 & H2 & H3 & H4 & H5).
  assert (Bit : forall g, (g = Z.land \/ g = Z.lor \/ g = Z.lxor) -> aggBit g a v = Ret a' -> soundAgg a').
  { clear H. intros g Hg H. unfold aggBit in H. destruct (isBadNull _); [injection H as <-; exact Ha|]. destruct (_ && _ && _); [injection H as <-; apply res_sound; known|]. destruct (_ || _); [injection H as <-; exact Ha|].
    destruct (_ && _); injection H as <-; apply res_sound; auto. destruct (ares a) eqn:R, v; try apply nul; try (solve [lf]). cbn. apply int_sound. apply bits_in; [exact Hg|exact (sound_here E _ H5)|exact (sound_here E _ Hv)]. }
  assert (Ext : forall gt, aggExt X gt a v = Ret a' -> soundAgg a').
  { clear H. intros gt H. unfold aggExt in H. destruct (isBadNull _); [injection H as <-; exact Ha|]. destruct (_ || _); [injection H as <-; exact Ha|]. destruct (isNull _); [injection H as <-; apply res_sound; auto|].
    destruct (if gt then _ else _); injection H as <-; [apply res_sound; auto|exact Ha]. }
  destruct f; cbn [aggStep] in H; eauto.
  - injection H as <-. apply res_sound; auto.
  - unfold aggCount in H. destruct (isBadNull _); [injection H as <-; exact Ha|]. cbv zeta in H. set (b := if isNull (ares a) then _ else _) in H. assert (soundAgg b) as Hb by (unfold b; destruct (isNull _); [apply res_sound; known|exact Ha]). clearbody b.
    destruct (_ || _); [injection H as <-; exact Hb|]. give H. injection H as <-. apply res_sound; [exact Hb|]. refine (add_sound _ _ _ _ one Q). apply Hb.
  - unfold aggSum in H. destruct (isBadNull _); [injection H as <-; exact Ha|]. cbv zeta in H. set (b := if isNull (ares a) then _ else _) in H. assert (soundAgg b) as Hb by (unfold b; destruct (isNull _); [apply res_sound; known|exact Ha]). clearbody b.
    destruct (_ && _ && _); [injection H as <-; apply res_sound; known|]. destruct (_ || _); [injection H as <-; exact Hb|]. destruct (isNull _); [injection H as <-; apply res_sound; auto|].
    give H. injection H as <-. apply res_sound; [exact Hb|]. refine (add_sound _ _ _ _ Hv Q). apply Hb.
  - unfold aggAvg in H. destruct (isBadNull _); [injection H as <-; exact Ha|]. destruct (_ && _ && _); [injection H as <-; apply res_sound; known|]. destruct (_ || _); [injection H as <-; exact Ha|]. cbv zeta in H.
    set (b := if isNull (ares a) then _ else _) in H. assert (soundAgg b) as Hb by (unfold b; destruct (isNull _); [unfold soundAgg; cbn; splits; auto using flt|exact Ha]). clearbody b. destruct Hb as (B1 & B2 & B3 & B4 & B5).
    give H. apply add_sound in Q; auto. give H. apply add_sound in Q0; auto using one. give H. apply div_sound in Q1; auto. injection H as <-. unfold soundAgg. cbn. auto.
  - unfold aggStd in H. destruct (isBadNull _); [injection H as <-; exact Ha|]. destruct (_ && _ && _); [injection H as <-; apply res_sound; known|]. destruct (_ || _); [injection H as <-; exact Ha|]. cbv zeta in H.
    set (b := if isNull (ares a) then _ else _) in H. assert (soundAgg b) as Hb by (unfold b; destruct (isNull _); [unfold soundAgg; cbn; splits; auto using flt|exact Ha]). clearbody b. destruct Hb as (B1 & B2 & B3 & B4 & B5).
    do 12 (give H; match goal with Q : vadd _ _ _ = Ret _ |- _ => apply add_sound in Q; auto using one | Q : vsub _ _ = Ret _ |- _ => apply sub_sound in Q; auto using one
      | Q : vmul _ _ = Ret _ |- _ => apply mul_sound in Q; auto using one | Q : vdiv _ _ = Ret _ |- _ => apply div_sound in Q; auto using one end).
    injection H as <-. unfold soundAgg. cbn [acnt asum aavg adev ares]. splits; auto. match goal with |- S (match ?d with _ => _ end) => destruct d end; lf.
  - unfold aggCollect in H. destruct (isBadNull _); [injection H as <-; exact Ha|]. cbv zeta in H. set (b := if isNull (ares a) then _ else _) in H.
    assert (soundAgg b) as Hb by (unfold b; destruct (isNull _); [apply res_sound; [exact Ha|apply (sound_list E); constructor]|exact Ha]). clearbody b.
    destruct (_ || _); [injection H as <-; exact Hb|]. destruct Hb as (B1 & B2 & B3 & B4 & B5). destruct (ares b) eqn:R; injection H as <-; (unfold soundAgg; cbn; splits; auto; try apply nul).
    apply (sound_list E). apply Forall_app. split; [now apply (sound_list E)|]. constructor; [exact Hv|constructor].
  - unfold aggCollectSet in H. destruct (isBadNull _); [injection H as <-; exact Ha|]. cbv zeta in H. set (b := if isNull (ares a) then _ else _) in H.
    assert (soundAgg b) as Hb by (unfold b; destruct (isNull _); [apply res_sound; [exact Ha|apply (sound_intro E); [split; [intros ? []|constructor]|intros ? []]]|exact Ha]). clearbody b.
    destruct (_ || _); [injection H as <-; exact Hb|]. destruct Hb as (B1 & B2 & B3 & B4 & B5). destruct (ares b) eqn:R; try (injection H as <-; unfold soundAgg; cbn; splits; auto; apply nul).
    destruct (setEmplace X s v) as [l'| | |] eqn:Q; try discriminate. injection H as <-. unfold soundAgg. cbn. splits; auto.
    refine (buildSet_sound E [v] (Forall_cons _ Hv (Forall_nil _)) s l' B5 _). unfold setEmplace, setHas in Q. cbn [buildSet]. unfold setContains. cbn [eX convEnv]. destruct (vhash X v); try discriminate. cbn [obind] in *. injection Q as <-. reflexivity.
Qed.
Lemma rows_sound f d rows : Forall S rows -> forall a a', soundAgg a -> aggRows X f d a rows = Ret a' -> soundAgg a'.
Proof.
  induction 1 as [|v rows Hv _ IH]; intros a a' Ha H; cbn [aggRows] in H; [injection H as <-; exact Ha|]. destruct (aggEval X f d a v) as [b| | |] eqn:Q; try discriminate. cbn [obind] in H. refine (IH b a' _ H).
  unfold aggEval in Q. destruct d; [|exact (step_sound _ _ _ _ Ha Hv Q)]. destruct (setHas X (auniq a) v) as [[]| | |]; try discriminate; cbn [obind] in Q; [injection Q as <-; exact Ha|]. refine (step_sound _ _ _ _ _ Hv Q). exact Ha.
Qed.
End Agg.

Theorem C190_aggregates : forall X f distinct rows v, Forall (sound X) rows -> aggValue X f distinct rows = Ret v -> sound X v.
Proof.
  intros X f d rows v Hr H. unfold aggValue in H. destruct (aggRows X f d aggNew rows) as [a| | |] eqn:Q; try discriminate. injection H as <-. exact (proj2 (proj2 (proj2 (proj2 (rows_sound X f d rows Hr _ _ (new_sound X) Q))))).
Qed.
(** The rows may be what an expression gives, evaluated once for each row *)
Theorem C190_of_expressions : forall E e f distinct rows v, soundEnv E -> soundConsts (eX E) e ->
  Forall (fun w => exists c k' c', holds (sound (eX E)) c /\ eval E e noCache c = Ret (w, k', c')) rows -> aggValue (eX E) f distinct rows = Ret v -> sound (eX E) v.
Proof.
  intros E e f d rows v HE Hc Hr H. refine (C190_aggregates _ f d rows v _ H). revert Hr. apply Forall_impl. intros w (c & k' & c' & Hh & R). exact (proj1 (C187_sound E e noCache c w k' c' HE Hc (kept_none E) Hh R)).
Qed.
(** The sum of the largest integer and 1 is an overflow, and what is collected is a set *)
Example C190_ex : Forall (sound (eX E0)) [VInt (2 ^ 63 - 1); VInt 1; VInt 1] /\
  aggValue (eX E0) ASum false [VInt (2 ^ 63 - 1); VInt 1; VInt 1] = Ret (VNull NOverflow) /\ aggValue (eX E0) ACollectSet false [VInt (2 ^ 63 - 1); VInt 1; VInt 1] = Ret (VSet [VInt (2 ^ 63 - 1); VInt 1]).
Proof.
  split; [|split; vm_compute; reflexivity]. repeat constructor; apply (sound_int E0); unfold int64; lia.
Qed.
Example C190_expressions_ex : exists w k' c', eval E0 (Node (KArith OAdd) [Node (KVar (B "x") false) []; konst (VInt 1)]) noCache [(B "x", VInt (2 ^ 63 - 1))] = Ret (w, k', c') /\ w = VNull NOverflow /\
  aggValue (eX E0) ACount false [w; w] = Ret (VInt 0).
Proof. do 3 eexists. split; [vm_compute; reflexivity|]. split; [reflexivity|vm_compute; reflexivity]. Qed.
Print Assumptions C190_aggregates.
Print Assumptions C190_of_expressions.
