(** Property C178: the text of a Status *)
From Coq Require Import String List.
From Verif Require Import Prelude ValueBase StatusModel StatusSpec StatusProofs StatusTextModel.
Import ListNotations.
Local Open Scope Z_scope.
Local Open Scope list_scope.

(** * Specification: what is printed in front of the message is the name of the kind *)
Definition kindName (k : kind) : str :=
  match k with
  | KInserted => B "Inserted"
  | KError => B "Error"
  | KNoSuchFile => B "NoSuchFile"
  | KNotSupported => B "NotSupported"
  | KSyntaxError => B "SyntaxError"
  | KStatementEmpty => B "StatementEmpty"
  | KSemanticError => B "SemanticError"
  | KKeyNotFound => B "KeyNotFound"
  | KPartialSuccess => B "PartialSuccess"
  | KSpaceNotFound => B "SpaceNotFound"
  | KHostNotFound => B "HostNotFound"
  | KTagNotFound => B "TagNotFound"
  | KEdgeNotFound => B "EdgeNotFound"
  | KUserNotFound => B "UserNotFound"
  | KLeaderChanged => B "LeaderChanged"
  | KBalanced => B "Balanced"
  | KIndexNotFound => B "IndexNotFound"
  | KPartNotFound => B "PartNotFound"
  | KGroupNotFound => B "GroupNotFound"
  | KZoneNotFound => B "ZoneNotFound"
  | KListenerNotFound => B "ListenerNotFound"
  | KPermissionError => B "PermissionError"
  end.
Definition label (k : kind) : str := match k with KError => [] | KListenerNotFound => kindName k | _ => kindName k ++ B ": " end.
(** Programs make a Status with the functions of the kinds. *)
Definition op_made (n : nat) (o : sop) : Prop :=
  op_ok n o /\ match o with OpMake _ c _ | OpFormat _ c _ => exists k, c = kindCode k | _ => True end.
Definition made (a : absStatus) : Prop := match a with None => True | Some (c, m) => (exists k, c = kindCode k) end.

Lemma kindCode_inj k k' : kindCode k = kindCode k' -> k = k'.
Proof. destruct k, k'; cbn; intros; try reflexivity; lia. Qed.
Lemma kindCode_pos k : kindCode k <> 0.
Proof. destruct k; discriminate. Qed.
Lemma codeText_label k : codeText (kindCode k) = label k.
Proof. destruct k; reflexivity. Qed.
Lemma made_step n o a : op_made n o -> (forall i, made (a i)) -> forall i, made (astep a o i).
Proof.
  intros [_ H] A i. assert (U : forall f j s, (forall i, made (f i)) -> made s -> forall i, made (aset f j s i)) by (intros f j s F S k; unfold aset; destruct (Nat.eqb k j); auto).
  destruct o; cbn [astep]; try (apply U; [exact A|]; cbn; auto; apply A).
  all: destruct (Nat.eqb _ _); [apply A|]; (apply U; [apply U; [exact A|apply A]|exact I]).
Qed.
Lemma made_run n os : Forall (op_made n) os -> forall a, (forall i, made (a i)) -> forall i, made (arun a os i).
Proof. unfold arun. induction 1 as [|o os H F IH]; intros a A i; [apply A|]. cbn [fold_left]. apply IH, (made_step n); assumption. Qed.

(** After any history an object is OK and says so, or it is of exactly one kind and its text is the label of the kind and the message. *)
Theorem C178_text : forall n os i, Forall (op_made n) os -> (i < n)%nat -> let w := srun (sinit n) os in
  match arun (fun _ => None) os i with
  | None => statusText w i = B "OK" /\ forall k, isKind w i k = false
  | Some (c, m) => exists k, c = kindCode k /\ statusText w i = label k ++ m /\ forall k', isKind w i k' = true <-> k' = k
  end.
Proof.
  intros n os i F Hi w. assert (F' : Forall (op_ok n) os) by (eapply Forall_impl; [|exact F]; intros o [H _]; exact H).
  destruct (rep_observe n w (arun (fun _ => None) os) i) as (_ & H2 & H3); [apply rep_run; [exact F'|apply rep_init]|exact Hi|].
  pose proof (made_run n os F (fun _ => None) (fun _ => I) i) as M. unfold statusText, isKind. rewrite H2, H3. destruct (arun (fun _ => None) os i) as [[c m]|].
  - destruct M as [k ->]. exists k. splits; [reflexivity| |].
    + replace (kindCode k =? 0) with false by (pose proof (kindCode_pos k); lia). rewrite codeText_label. reflexivity.
    + intros k'. rewrite Z.eqb_eq. split; [intros E; symmetry; apply kindCode_inj, E|intros ->; reflexivity].
  - split; [reflexivity|]. intros k. pose proof (kindCode_pos k). lia.
Qed.

Lemma label_split k k' m m' : k <> KError -> k' <> KError -> label k ++ m = label k' ++ m' -> k = k' /\ m = m'.
Proof.
  intros N N' E. assert (k = k').
  { destruct k; try (exfalso; apply N; reflexivity); destruct k'; try (exfalso; apply N'; reflexivity); try reflexivity; exfalso; cbn in E; repeat (injection E as E || discriminate E). }
  subst k'. split; [reflexivity|]. apply app_inv_head in E. exact E.
Qed.
(** But for plain errors, two objects with the same text are of the same kind with the same message. *)
Theorem C178_unambiguous : forall n os i j, Forall (op_made n) os -> (i < n)%nat -> (j < n)%nat -> let w := srun (sinit n) os in
  isKind w i KError = false -> isKind w j KError = false -> statusText w i = statusText w j -> codeOf w i = codeOf w j /\ messageOf w i = messageOf w j.
Proof.
  intros n os i j F Hi Hj w Ni Nj E. assert (F' : Forall (op_ok n) os) by (eapply Forall_impl; [|exact F]; intros o [H _]; exact H).
  assert (R : rep n w (arun (fun _ => None) os)) by (apply rep_run; [exact F'|apply rep_init]).
  destruct (rep_observe n w _ i R Hi) as (_ & A2 & A3), (rep_observe n w _ j R Hj) as (_ & B2 & B3). rewrite A2, A3, B2, B3.
  pose proof (C178_text n os i F Hi) as Ti. pose proof (C178_text n os j F Hj) as Tj. cbv zeta in Ti, Tj. fold w in Ti, Tj.
  assert (O : forall k m, k <> KError -> B "OK" <> label k ++ m) by (intros k m N X; destruct k; try (exfalso; apply N; reflexivity); discriminate X).
  destruct (arun (fun _ => None) os i) as [[c m]|], (arun (fun _ => None) os j) as [[c' m']|].
  - destruct Ti as (k & -> & T1 & K1), Tj as (k' & -> & T2 & K2). rewrite T1, T2 in E.
    destruct (label_split k k' m m') as [-> ->]; [intros ->; rewrite (proj2 (K1 KError) eq_refl) in Ni; discriminate Ni|intros ->; rewrite (proj2 (K2 KError) eq_refl) in Nj; discriminate Nj|exact E|]. auto.
  - destruct Ti as (k & -> & T1 & K1), Tj as (T2 & _). rewrite T1, T2 in E. destruct (O k m); [intros ->; rewrite (proj2 (K1 KError) eq_refl) in Ni; discriminate Ni|congruence].
  - destruct Ti as (T1 & _), Tj as (k & -> & T2 & K2). rewrite T1, T2 in E. destruct (O k m'); [intros ->; rewrite (proj2 (K2 KError) eq_refl) in Nj; discriminate Nj|exact E].
  - auto.
Qed.
(** A plain error may read as any other Status, of any kind or OK. *)
Theorem C178_error_refuted : forall k m, Z.of_nat (length (label k ++ m)) < 65536 -> exists os, Forall (op_made 4) os /\ let w := srun (sinit 4) os in
  isKind w 0 KError = true /\ isKind w 1 k = true /\ statusText w 0 = statusText w 1 /\
  isKind w 2 KError = true /\ isOk w 3 = true /\ statusText w 2 = statusText w 3.
Proof.
  intros k m L. exists [OpMake 0 101 (label k ++ m); OpMake 1 (kindCode k) m; OpMake 2 101 (B "OK")].
  assert (F : Forall (op_made 4) [OpMake 0 101 (label k ++ m); OpMake 1 (kindCode k) m; OpMake 2 101 (B "OK")]).
  { rewrite app_length in L. repeat constructor; cbn; try lia; try (eexists; reflexivity); try (exists KError; reflexivity); rewrite ?app_length; try lia; destruct k; cbn in *; lia. }
  split; [exact F|]. cbv zeta.
  pose proof (C178_text 4 _ 0 F ltac:(lia)) as T0. pose proof (C178_text 4 _ 1 F ltac:(lia)) as T1. pose proof (C178_text 4 _ 2 F ltac:(lia)) as T2. pose proof (C178_text 4 _ 3 F ltac:(lia)) as T3.
  cbv zeta in T0, T1, T2, T3. cbn [arun fold_left astep aset Nat.eqb] in T0, T1, T2, T3. unfold arun in T0, T1, T2, T3. cbn [fold_left astep] in T0, T1, T2, T3. unfold aset in T0, T1, T2, T3. cbn [Nat.eqb] in T0, T1, T2, T3.
  destruct T0 as (k0 & E0 & T0 & K0), T1 as (k1 & E1 & T1 & K1), T2 as (k2 & E2 & T2 & K2), T3 as (T3 & _).
  apply (kindCode_inj KError) in E0, E2. apply kindCode_inj in E1. subst k0 k1 k2.
  splits; [apply K0; reflexivity|apply K1; reflexivity|rewrite T0, T1; reflexivity|apply K2; reflexivity|reflexivity|rewrite T2, T3; reflexivity].
Qed.
Example C178_ex : let w := srun (sinit 3) [OpMake 0 201 (B "near x"); OpFormat 1 415 (B "7"); OpCopy 2 0] in
  statusText w 2 = B "SyntaxError: near x" /\ statusText w 1 = B "ListenerNotFound7" /\ isKind w 2 KSyntaxError = true /\ isKind w 2 KSemanticError = false.
Proof. cbv zeta; splits; reflexivity. Qed.
Print Assumptions C178_text. Print Assumptions C178_unambiguous. Print Assumptions C178_error_refuted.
