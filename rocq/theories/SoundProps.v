(** C187: evaluation gives values that the types of the code allow, and leaves only such values behind. *)
From Coq Require Import String List.
From Verif Require Import Prelude ValueBase DateModel TimeModel ValueModel ValueProofs ExprModel ExprSpec ExprProofs EvalModel EvalSpec EvalProofs EvalProps ValueProps FaultSpec SoundSpec SoundProofs.
Import ListNotations.
Local Open Scope list_scope.
Local Open Scope string_scope.
Open Scope Z_scope.

(** From constants, variables, remembered results and answers of the environment that are as the types allow, at every depth, evaluation
    gives such a value, and leaves such variables and remembered results. *)
Theorem C187_sound : forall E e k c v k' c', soundEnv E -> soundConsts (eX E) e -> kept (sound (eX E)) k -> holds (sound (eX E)) c ->
  eval E e k c = Ret (v, k', c') -> sound (eX E) v /\ kept (sound (eX E)) k' /\ holds (sound (eX E)) c'.
Proof. intros E e k c v k' c' HE Hc. exact (proj1 (safe_eval E HE e Hc) k c v k' c'). Qed.

(** Any sequence of evaluations with new expressions, each starting with the variables that the one before left *)
Inductive evaluated (E : env) : list expr -> ctx -> list value -> ctx -> Prop :=
  | evaluatedNone c : evaluated E [] c [] c
  | evaluatedMore e es c v k c1 vs c2 : eval E e noCache c = Ret (v, k, c1) -> evaluated E es c1 vs c2 -> evaluated E (e :: es) c (v :: vs) c2.
Theorem C187_sequence : forall E es vs c, soundEnv E -> Forall (soundConsts (eX E)) es -> evaluated E es [] vs c ->
  (forall v z, In v vs -> within (VInt z) v -> int64 z) /\
  (forall v m, In v vs -> within (VMap m) v -> NoDup (map fst m)) /\
  (forall v l, In v vs -> within (VSet l) v -> ForallOrdPairs (fun p q => ~ (sameHash (eX E) q p = true /\ veq (eX E) q p = true)) l).
Proof.
  intros E es vs c HE F H.
  assert (G : forall c0, holds (sound (eX E)) c0 -> forall vs' c', evaluated E es c0 vs' c' -> Forall (sound (eX E)) vs').
  { clear H vs c. induction F as [|e es Fe _ IH]; intros c0 Hc vs' c' Hev; inversion Hev as [|? ? ? v k c1 vs1 ? Q1 Q2]; subst; [constructor|].
    destruct (C187_sound E e noCache c0 v k c1 HE Fe (kept_none E) Hc Q1) as (H1 & _ & H3). constructor; [exact H1|exact (IH _ H3 _ _ Q2)]. }
  specialize (G [] (Forall_nil _) vs c H). rewrite Forall_forall in G. splits.
  - intros v z Hv Hw. exact (G v Hv _ Hw).
  - intros v m Hv Hw. exact (G v Hv _ Hw).
  - intros v l Hv Hw. exact (proj2 (G v Hv _ Hw)).
Qed.

Lemma E0_sound : soundEnv E0.
Proof.
  assert (Le : sound (eX E0) VEmpty) by (apply sound_leaf; split; [reflexivity|exact I]).
  unfold soundEnv. cbv zeta. splits; intros; cbn in *; auto; try discriminate. apply sound_leaf with (E := E0). split; [reflexivity|exact I].
Qed.
(** {9223372036854775807, 9223372036854775807 + 1, 9223372036854775807}, then [{a: 1 - 2, a: 3}] *)
Definition exTop : expr := konst (VInt 9223372036854775807).
Definition ex187 : list expr :=
  [Node KSet [exTop; Node (KArith OAdd) [exTop; konst (VInt 1)]; exTop];
   Node KList [Node (KMap [B "a"; B "a"]) [Node (KArith OMinus) [konst (VInt 1); konst (VInt 2)]; konst (VInt 3)]]].
Example C187_sequence_ex : Forall (soundConsts (eX E0)) ex187 /\
  evaluated E0 ex187 [] [VSet [VInt 9223372036854775807; VNull NOverflow]; VList [VMap [(B "a", VInt (-1))]]] [].
Proof.
  assert (K : forall z, int64 z -> sound (eX E0) (VInt z)) by (intros; apply sound_int; assumption).
  split.
  - repeat apply Forall_cons; try apply Forall_nil; unfold soundConsts, exTop, konst; cbn [allNodes fold_right map]; splits; auto; apply K; unfold int64; lia.
  - eapply evaluatedMore; [vm_compute; reflexivity|]. eapply evaluatedMore; [vm_compute; reflexivity|]. constructor.
Qed.
(** The remembered results matter: a UUID expression gives back whatever its node holds. *)
Example C187_memory_ex : forall c, eval E0 (Node (KUUID []) []) (Cache (VInt (2 ^ 63)) []) c = Ret (VInt (2 ^ 63), Cache (VInt (2 ^ 63)) [], c) /\ ~ sound (eX E0) (VInt (2 ^ 63)).
Proof. intros c. split; [reflexivity|]. intros H. pose proof (H _ (withinSelf _)) as T. cbn [typed] in T. unfold int64 in T. lia. Qed.

Print Assumptions C187_sound.
Print Assumptions C187_sequence.
