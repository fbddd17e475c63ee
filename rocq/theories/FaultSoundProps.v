(** C186, continued: on values as the types allow them (C187) only the operands below are forbidden. *)
From Coq Require Import String List.
From Verif Require Import Prelude ValueBase DateModel DateSpec ValueModel ValueProofs ExprModel ExprSpec ExprProofs CloneSpec EvalModel EvalSpec EvalProofs EvalProps FuncGuardProps CastProps ValueProps
  FaultSpec FaultProofs FaultProps SoundSpec SoundProofs SoundProps.
Import ListNotations.
Local Open Scope list_scope.
Local Open Scope string_scope.
Open Scope Z_scope.

(** [v] is among what [e] can give on such values *)
Definition gives (E : env) (e : expr) (v : value) : Prop :=
  exists k c k' c', kept (sound (eX E)) k /\ holds (sound (eX E)) c /\ eval E e k c = Ret (v, k', c').
Definition guarded (E : env) (k : kind) (cs : list expr) : Prop :=
  let operands (Q : value -> value -> Prop) := forall l r v w, cs = [l; r] -> gives E l v -> gives E r w -> Q v w in
  let each (Q : value -> Prop) := forall e v, In e cs -> gives E e v -> Q v in
  match k with
  | KArith OAdd => operands (fun v w => match v, w with VDate d, VInt n | VInt n, VDate d => inCalendar d n | _, _ => True end)
  | KArith OMinus => operands (fun v w => match v, w with VDate d, VInt n => inCalendar d (- n) | VDate d, VDate e => inCalendar d 0 /\ inCalendar e 0 | _, _ => True end)
  | KArith OMod => operands (fun v w => ~ (v = VInt (- 2 ^ 63) /\ w = VInt (-1)))
  | KUnary OIncr => each (fun v => match v with VDate d => inCalendar d 1 | _ => True end) /\ forall s b, map kindOf cs <> [KVersioned s b]
  | KUnary ODecr => each (fun v => match v with VDate d => inCalendar d (- 1) | _ => True end) /\ forall s b, map kindOf cs <> [KVersioned s b]
  | KRel OIn | KRel ONotIn => operands (fun v w => match w with VSet _ => canHash v | _ => True end)
  | KAttr => operands (fun v w => hasMembers v -> exists s, w = VStr s)
  | KCast t => t = 4 -> each (integral E)
  | KCall name => forall vs, Forall2 (gives E) cs vs -> exists v, eFun E name vs = Ret v
  | KSet => each canHash
  | KCase _ hasCond hasDefault => (bit hasCond + bit hasDefault <= List.length cs)%nat
  | KPredicate n _ _ hasFilter =>
      (isExistsName n -> match cs with Node _ gs :: _ => (2 <= List.length gs)%nat | [] => False end) /\ (isQuantifierName n -> hasFilter = true)
  | KLabelAttr | KAggregate _ _ | KTextSearch _ => False
  | _ => True
  end.
Lemma give_sound E e v : soundEnv E -> soundConsts (eX E) e -> gives E e v -> sound (eX E) v.
Proof. intros HE Hc (k & c & k' & c' & Hk & Hh & R). exact (proj1 (C187_sound E e k c v k' c' HE Hc Hk Hh R)). Qed.
Theorem C186_sound : forall E e, soundEnv E -> soundConsts (eX E) e -> complete e -> allNodes (guarded E) e ->
  forall k c, kept (sound (eX E)) k -> holds (sound (eX E)) c ->
  exists v k' c', eval E e k c = Ret (v, k', c') /\ sound (eX E) v /\ kept (sound (eX E)) k' /\ holds (sound (eX E)) c'.
Proof.
  intros E e HE Hc Hb Hg k c Hk Hh. set (S := sound (eX E)).
  assert (H : allNodes (harmless E S S) e /\ allNodes (binds E S S) e /\ allNodes (remembers E S S) e).
  { clear Hb k c Hk Hh. induction e as [kd cs IH] using expr_ind'. pose proof Hc as Hn. unfold soundConsts in Hc. cbn [allNodes] in *. rewrite !fold_and_Forall in *. rewrite !Forall_forall in *.
    destruct Hg as [Gk Gc]. destruct Hc as [Hk Hc].
    assert (G : forall x v, In x cs -> canGive E S S x v -> S v) by (intros x v Hx; exact (give_sound E x v HE (Hc x Hx))).
    assert (Lt : forall l, S (VList l) -> Forall S l) by (intros l; apply sound_list).
    assert (O1 : S (VInt 1)) by (apply sound_int; unfold int64; lia).
    assert (Iz : forall z, S (VInt z) -> int64 z) by (intros z Hz; exact (Hz _ (withinSelf _))).
    splits.
    - destruct kd as [| [] | [] | | | | | | | | | | | | | | | | | | | | | | | | | | ]; cbn [guarded harmless] in *; auto.
      + intros l r v w -> Hv Hw. apply G in Hv; [|left; reflexivity]. apply G in Hw; [|right; left; reflexivity]. destruct v, w; auto.
      + intros l r v w -> Hv Hw. pose proof (Gk l r v w eq_refl Hv Hw) as N. apply G in Hv; [|left; reflexivity]. apply G in Hw; [|right; left; reflexivity].
        destruct v, w; auto. splits; auto. intros [-> ->]. apply N. auto.
      + intros x v Hx Hv. apply G in Hv; [|exact Hx]. destruct v; auto.
    - intros x Hx. apply (IH x Hx (Hc x Hx) (Gc x Hx)).
    - destruct kd as [| | [] | | | | | | | | | | | | | | | | | | | | | | | | | | ]; cbn [binds] in *; auto.
      + intros x v Hx Hv w Q. apply nth_error_In in Hx. exact (vadd_sound E _ _ _ (G x v Hx Hv) O1 Q).
      + intros x v Hx Hv w Q. apply nth_error_In in Hx. exact (vsub_sound E _ _ _ (G x v Hx Hv) O1 Q).
      + intros x v Hx Hv. apply nth_error_In in Hx. apply G in Hv; [|exact Hx]. destruct v; auto.
      + intros x v Hx Hv. apply nth_error_In in Hx. apply G in Hv; [|exact Hx]. destruct v; auto.
      + splits; intros x v Hx Hv; apply nth_error_In in Hx; apply G in Hv; auto. destruct v; auto.
    - intros x Hx. apply (IH x Hx (Hc x Hx) (Gc x Hx)).
    - intros m c v m' c' Hm Hcx R. exact (proj1 (proj2 (C187_sound E _ m c v m' c' HE Hn Hm Hcx R))).
    - intros x Hx. apply (IH x Hx (Hc x Hx) (Gc x Hx)). }
  destruct H as (H1 & H2 & H3). assert (S VEmpty) by (apply sound_leaf; split; [reflexivity|exact I]).
  destruct (C186_evaluates E S S e H Hb H1 H2 H3 k c Hk Hh) as (v & k' & c' & R & K1 & K2). exists v, k', c'. splits; auto.
  exact (proj1 (C187_sound E e k c v k' c' HE Hc Hk Hh R)).
Qed.
(** reduce(s = 0, x IN $l | (s / x) * -x) evaluates whatever the variable l holds *)
Definition var (s : string) : expr := Node (KVar (B s) false) [].
Definition ex186s : expr :=
  Node (KReduce (B "s") (B "x") []) [konst (VInt 0); var "l"; Node (KArith OMultiply) [Node (KArith ODivision) [var "s"; var "x"]; Node (KUnary ONegate) [var "x"]]].
Example C186_sound_ex : soundEnv E0 /\ soundConsts (eX E0) ex186s /\ complete ex186s /\ allNodes (guarded E0) ex186s /\
  holds (sound (eX E0)) [(B "l", VList [VInt (- 2 ^ 63); VNull NNull])] /\ kept (sound (eX E0)) noCache.
Proof.
  assert (K : forall z, int64 z -> sound (eX E0) (VInt z)) by (intros; apply sound_int; assumption).
  splits.
  - exact E0_sound.
  - unfold soundConsts, ex186s, konst, var. cbn [allNodes fold_right map]. splits; auto. apply K. unfold int64. lia.
  - cbn. tauto.
  - cbn. tauto.
  - constructor; [|constructor]. cbn [snd]. apply sound_list. constructor; [apply K; unfold int64; lia|]. constructor; [|constructor]. apply sound_leaf. split; [reflexivity|exact I].
  - apply kept_none.
Qed.
Print Assumptions C186_sound.
