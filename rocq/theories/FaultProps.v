(** C186: the expressions whose evaluation always returns a value. *)
From Coq Require Import String List.
From Verif Require Import Prelude ValueBase DateModel DateSpec ValueModel ExprModel ExprSpec ExprProofs CloneSpec EvalModel EvalSpec EvalProofs EvalProps FuncGuardProps ValueProps FaultSpec FaultProofs.
Import ListNotations.
Local Open Scope list_scope.
Local Open Scope string_scope.
Open Scope Z_scope.

(** A complete expression of which no node meets operands that are forbidden to it returns a value, whatever its nodes remember of former
    evaluations with [K] and whatever the variables hold with [P]; and afterwards this is so again. *)
Theorem C186_evaluates : forall E (K P : value -> Prop) e, K VEmpty -> complete e -> allNodes (harmless E K P) e -> allNodes (binds E K P) e -> allNodes (remembers E K P) e ->
  forall k c, kept K k -> holds P c -> exists v k' c', eval E e k c = Ret (v, k', c') /\ kept K k' /\ holds P c'.
Proof. intros E K P e H0 Hb Hh Hd Hr. exact (proj1 (returns_all E K P H0 e Hb Hh Hd Hr)). Qed.

Definition anything (_ : value) : Prop := True.
Lemma kept_anything : forall k, kept anything k.
Proof. fix IH 1. intros [r ks]. constructor; [exact I|]. induction ks as [|k ks IHks]; constructor; [apply IH|exact IHks]. Qed.
Lemma remembers_anything E P e : allNodes (remembers E anything P) e.
Proof.
  induction e as [kd cs IH] using expr_ind'. cbn [allNodes]. rewrite fold_and_Forall. split; [|exact IH]. intros m c v m' c' _ _ _. apply kept_anything.
Qed.
Lemma give_konst E K P v w : canGive E K P (konst v) w -> w = v.
Proof. intros ([r ks] & c & k' & c' & _ & _ & H). cbn in H. congruence. Qed.
Lemma give_var E (K P : value -> Prop) s b w : canGive E K P (Node (KVar s b) []) w -> w = eNoVar E s \/ P w.
Proof.
  intros ([r ks] & c & k' & c' & _ & Hc & H). cbn in H. injection H as <- _ _. unfold getVar. induction Hc as [|[x v] c Pv _ IH]; [now left|].
  cbn [lookup fst snd] in *. destruct (strEqb s x); [right; exact Pv|]. apply IH.
Qed.
(** [x IN [5, -7, 6] WHERE x % 2 == 0 | -x] returns, also when x already is another 64 bit integer or no integer at all *)
Definition smallInt (v : value) : Prop := match v with VInt x => int64 x | _ => True end.
Definition exX186 : expr := Node (KVar (B "x") true) [].
Definition ex186 : expr :=
  Node (KListComp (B "x") [] true true)
    [konst (VList [VInt 5; VInt (-7); VInt 6]); Node (KRel OEQ) [Node (KArith OMod) [exX186; konst (VInt 2)]; konst (VInt 0)]; Node (KUnary ONegate) [exX186]].
Example C186_evaluates_ex : complete ex186 /\ allNodes (harmless E0 anything smallInt) ex186 /\ allNodes (binds E0 anything smallInt) ex186 /\ allNodes (remembers E0 anything smallInt) ex186 /\
  holds smallInt [(B "x", VInt 3); (B "y", VStr (B "z"))] /\
  (exists k' c', eval E0 ex186 noCache [(B "x", VInt 3)] = Ret (VList [VInt (-6)], k', c')).
Proof.
  assert (G : forall v, canGive E0 anything smallInt exX186 v -> smallInt v) by (intros v H; apply give_var in H as [->|H]; [exact I|exact H]).
  splits; unfold ex186, exX186, konst in *.
  - cbn. tauto.
  - cbn [allNodes harmless fold_right map]. splits; try exact I.
    + intros l r v w [= <- <-] Hv Hw. apply give_konst in Hw. subst w. apply G in Hv. destruct v; try exact I. cbn in Hv. splits; [exact Hv|unfold int64; lia|lia].
    + intros e v [<-|[]] H. exact (G v H).
  - cbn [allNodes binds fold_right map]. splits; try exact I.
    intros e v [= <-] H. apply give_konst in H. subst v. repeat constructor; cbn; unfold int64; lia.
  - apply remembers_anything.
  - repeat constructor; cbn; unfold int64; lia.
  - eexists _, _. vm_compute. reflexivity.
Qed.

(** Kinds of nodes that never fail, whatever their operands give *)
Definition calm (k : kind) (cs : list expr) : Prop :=
  match k with
  | KArith o => o = OMultiply
  | KUnary o => o <> ONegate /\ o <> OIncr /\ o <> ODecr
  | KRel o => o <> OIn /\ o <> ONotIn
  | KCast t => t <> 4
  | KCase _ hasCond hasDefault => (bit hasCond + bit hasDefault <= List.length cs)%nat
  | KPredicate n _ _ hasFilter => n <> B "exists" /\ hasFilter = true
  | KAttr | KCall _ | KSet | KLabelAttr | KAggregate _ _ | KTextSearch _ => False
  | _ => True
  end.
(** Expressions of these nodes alone (comparisons, logic, products, lists, maps, subscripts, slices, comprehensions, reductions, cases, paths, ...)
    always return a value. *)
Theorem C186_calm : forall E e, complete e -> allNodes calm e -> forall k c, exists v k' c', eval E e k c = Ret (v, k', c').
Proof.
  intros E e Hb Hc k c.
  assert (H : allNodes (harmless E anything anything) e /\ allNodes (binds E anything anything) e).
  { clear Hb. induction e as [kd cs IH] using expr_ind'. cbn [allNodes] in *. rewrite !fold_and_Forall in *. rewrite !Forall_forall in *. destruct Hc as [Hk Hc].
    assert (L : forall l : list value, Forall anything l) by (intros; apply Forall_forall; intros; exact I).
    splits.
    - destruct kd as [| [] | [] | [] | | | | | | | t | | | | | | | | | | | | | n | | | | | ]; cbn [calm harmless] in *; auto; try tauto; try discriminate.
    - intros x Hx. apply IH; auto.
    - destruct kd as [| | [] | | | | | | | | | | | | | | | | | | | | | | | | | | ]; cbn [calm binds] in *; auto; splits; auto; try (intros x v _ _; exact I); intros x v _ _; destruct v; auto; intros; exact I.
    - intros x Hx. apply IH; auto. }
  destruct (C186_evaluates E anything anything e I Hb (proj1 H) (proj2 H) (remembers_anything _ _ _) k c (kept_anything k)) as (v & k' & c' & R & _); [apply Forall_forall; intros; exact I|]. now exists v, k', c'.
Qed.
Example C186_calm_ex : let e := Node (KLogical OXor) [Node (KRel OLT) [Node (KArith OMultiply) [konst (VInt 3); konst (VStr [])]; konst (VMap [])]; Node KSubscript [konst (VList []); konst (VInt 9)]] in
  complete e /\ allNodes calm e.
Proof. split; cbn; splits; auto; discriminate. Qed.

(** Without the conditions it is false: complete expressions over constants of which each evaluation fails, for each condition but those on
    division and negation (the integers of the model have no bounds), on the parts of a case expression, and on functions. *)
Definition failing : list (expr * outcome (value * cache * ctx)) :=
  [ (Node (KArith OMod) [konst (VInt (- 2 ^ 63)); konst (VInt (-1))], UB);
    (Node (KArith OAdd) [konst (VDate (mkDate 2020 14 1)); konst (VInt 1)], UB);
    (Node (KArith OAdd) [konst (VDate (mkDate 2020 1 1)); konst (VInt (2 ^ 63 - 1))], UB);
    (Node (KArith OMinus) [konst (VDate (mkDate 2020 1 1)); konst (VDate (mkDate 2020 0 1))], UB);
    (Node (KUnary OIncr) [Node (KVersioned (B "v") true) [konst (VInt 0)]], UB);
    (Node (KRel OIn) [konst (VMap []); konst (VSet [])], Fatal);
    (Node (KRel ONotIn) [konst (VList [VSet []]); konst (VSet [VInt 1])], Fatal);
    (Node KSet [konst (VInt 1); konst (VMap [])], Fatal);
    (Node KAttr [konst (VMap [(B "a", VInt 1)]); konst (VInt 0)], Fatal);
    (Node (KCast 4) [konst (VFloat S754_nan)], UB);
    (Node KLabelAttr [Node (KLabel (B "v")) []; konst (VStr (B "age"))], Fatal);
    (Node (KAggregate (B "count") false) [konst (VInt 1)], UB);
    (Node (KPredicate (B "exists") [] [] false) [konst (VInt 1)], UB);
    (Node (KPredicate (B "all") (B "x") [] false) [konst (VList [VInt 1])], UB) ].
Theorem C186_always_evaluates_refuted : forall e o, In (e, o) failing -> complete e /\ forall E k c, eval E e k c = o.
Proof.
  intros e o H. unfold failing in H. cbn [In] in H.
  do 14 (destruct H as [H|H]; [injection H as <- <-; split; [cbn; tauto|]; intros E [? [|[? [|[? ?] ?]] [|[? ?] ?]]] c; reflexivity|]). destruct H.
Qed.

Print Assumptions C186_evaluates.
Print Assumptions C186_calm.
Print Assumptions C186_always_evaluates_refuted.
