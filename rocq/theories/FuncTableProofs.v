(** Lemmas about the function table. *)
From Coq Require Import String List.
From Verif Require Import Prelude Trans DateModel TimeModel ValueBase ValueModel GraphModel EvalModel FuncModel FuncTableModel.
Import ListNotations.
Local Open Scope list_scope.
Local Open Scope string_scope.
Open Scope Z_scope.

Lemma obind_inv {A B} (m : outcome A) (f : A -> outcome B) v : obind m f = Ret v -> exists a, m = Ret a /\ f a = Ret v.
Proof. destruct m; cbn; try discriminate. eauto. Qed.
Lemma strEqb_eq' a b : strEqb a b = true -> a = b.
Proof.
  revert b; induction a as [|x a IH]; intros [|y b]; cbn; try discriminate; auto.
  intros H. apply andb_prop in H. destruct H as [H1 H2]. apply Z.eqb_eq in H1. f_equal; auto.
Qed.
Lemma strEqb_refl' a : strEqb a a = true.
Proof. induction a; cbn; auto. rewrite Z.eqb_refl. exact IHa. Qed.
Lemma findName_In {A} n (l : list (str * A)) a : findName n l = Some a -> In (n, a) l.
Proof.
  induction l as [|[k b] l IH]; cbn; [discriminate|].
  destruct (strEqb k n) eqn:E; intros H.
  - apply strEqb_eq' in E. injection H as ->. left. congruence.
  - right. auto.
Qed.
Lemma vtyEqb_eq a b : vtyEqb a b = true <-> a = b.
Proof. destruct a, b; cbn; split; congruence. Qed.
Lemma tysEqb_eq a b : tysEqb a b = true <-> a = b.
Proof.
  revert b; induction a as [|x a IH]; intros [|y b]; cbn; try (split; congruence).
  rewrite Bool.andb_true_iff, vtyEqb_eq, IH. split; [intros [-> ->]; reflexivity|intros H; injection H; auto].
Qed.
Lemma findSig_In tys l r : findSig tys l = Some r -> In (tys, r) l.
Proof.
  induction l as [|[a b] l IH]; cbn; [discriminate|].
  destruct (tysEqb tys a) eqn:E; intros H; [apply tysEqb_eq in E; left; congruence|right; auto].
Qed.
Lemma firstNullish_In tys t : firstNullish tys = Some t -> In t tys /\ (t = TEmpty \/ t = TNull).
Proof.
  induction tys as [|x tys IH]; cbn; [discriminate|].
  destruct x; intros H; try (apply IH in H; destruct H; auto); injection H as <-; auto.
Qed.

(** * Unfolding one entry of the table *)
Ltac names H := unfold fAbs, fBit, fMath, fSqrt, fHypot, fPow, fConst, fLog, fRadians, fSign, fStrcasecmp, fLower, fUpper, fLength, fTrim, onStr,
  fLeft, fRight, fReplace, fReverse, fSplit, fTostring, fTobool, fTofloat, fTointeger, fLpad, fRpad, fSubstr, fHash, fIsIn, fNear, fCosSim,
  fSize, fRange, fId, fTags, fProperties, fType, fTypeid, fSrc, fDst, fRank, fStartNode, fEndNode, fHead, fLast, fCoalesce, fKeys, fNodes,
  fTail, fRelationships, fSameEdge, fSameVertex, fReversePath, fRowCol, fRand, fRand32, fRand64, fNow, fDate, fTime, fDatetime, fTimestamp in H.

Lemma sizeOf_cons {A} (x : A) l : sizeOf (x :: l) = 1 + sizeOf l.
Proof. unfold sizeOf. cbn [List.length]. lia. Qed.
Lemma sizeOf_nonneg {A} (l : list A) : 0 <= sizeOf l.
Proof. unfold sizeOf. lia. Qed.

Definition arityOk (a : attr) (args : list value) : Prop := minArity a <= sizeOf args <= maxArity a.
Lemma getInternal_spec X W name args a : getInternal X W name (sizeOf args) = Some a ->
  In (lower name, a) (functions X W) /\ arityOk a args.
Proof.
  unfold getInternal. destruct (findName _ _) as [b|] eqn:E; [|discriminate].
  destruct ((sizeOf args <? minArity b) || (maxArity b <? sizeOf args)) eqn:F; [discriminate|].
  intros H. injection H as <-. split; [apply findName_In; exact E|]. unfold arityOk. lia.
Qed.

(** * Declared types *)
(** Functions whose result type depends on the contents of the argument; the table says EMPTY for them. *)
Definition anyResult : list str := [B "head"; B "last"; B "coalesce"; B "datasetrowcol"].
(** The result has the announced type or is a null; EMPTY announces any type for the functions above only. *)
Definition conforms (name : str) (rt : vty) (v : value) : Prop :=
  typeOf v = rt \/ typeOf v = TNull \/ (rt = TEmpty /\ In name anyResult).

Ltac shape args HA :=
  unfold arityOk in HA; cbn [minArity maxArity] in HA;
  destruct args as [|?a0 args]; [|destruct args as [|?a1 args]; [|destruct args as [|?a2 args]; [|destruct args as [|?a3 args]]]];
  rewrite ?sizeOf_cons in HA; change (@sizeOf value []) with 0 in HA;
  try (match goal with l : list value |- _ => pose proof (sizeOf_nonneg l) end);
  try (exfalso; lia); clear HA.

Ltac crunch H :=
  repeat first
   [ match type of H with Ret _ = Ret _ => fail 1 end
   | match type of H with UB = _ => discriminate H | Fatal = _ => discriminate H | Diverge = _ => discriminate H end
   | match type of H with obind _ _ = Ret _ => apply obind_inv in H; destruct H as [? [_ H]] end
   | match type of H with match ?x with _ => _ end = Ret _ => destruct x end
   | progress (cbv beta iota zeta in H) ].


Definition typedEntry (e : str * attr) : Prop :=
  forall sigs, findName (fst e) signatures = Some sigs -> fst e <> B "strcasecmp" ->
  forall o args v rt, arityOk (snd e) args -> body (snd e) o args = Ret v ->
  returnType sigs (map typeOf args) = Some rt -> conforms (fst e) rt v.

Ltac splitIfs :=
  repeat match goal with |- conforms _ _ (if ?c then _ else _) => destruct c | |- conforms _ _ (match ?c with _ => _ end) => destruct c end.
Ltac finishTyped HR :=
  splitIfs;
  solve [ right; left; reflexivity
        | vm_compute in HR; apply (f_equal (fun x => match x with Some y => y | None => TEmpty end)) in HR; cbv beta iota in HR; subst;
          first [left; reflexivity | right; right; split; [reflexivity|vm_compute; intuition congruence]]
        | vm_compute in HR; discriminate HR ].

Section Tab.
Context (X : externals) (W : world).
Lemma typed_all : Forall typedEntry (functions X W).
Proof.
  unfold functions.
  repeat (apply Forall_cons;
    [unfold typedEntry; cbn [fst snd];
     intros sigs HS NE o args v rt HA HB HR; vm_compute in HS; try discriminate HS; try (exfalso; apply NE; reflexivity);
     apply (f_equal (fun x => match x with Some y => y | None => sigs end)) in HS; cbv beta iota in HS; subst sigs;
     cbn [body] in HB; unfold det in HB; shape args HA; names HB|]).
  all: try apply Forall_nil.
  all: try timeout 20 (crunch HB; apply Ret_inj in HB; subst v; finishTyped HR).
  all: try (destruct a0, a1; cbn in HB; try (timeout 5 (crunch HB; apply Ret_inj in HB; subst v; finishTyped HR))).
  - (* radians *) destruct a0; cbv [vmul vdiv nullOrEmpty isNull isEmpty orb andb negb obind] in HB; crunch HB;
      apply Ret_inj in HB; subst v; finishTyped HR.
  - (* toboolean *) destruct a0; unfold vtoBool in HB; apply Ret_inj in HB; subst v; finishTyped HR.
  - (* tofloat *) destruct a0; unfold vtoFloat in HB; try (destruct (xstrtod _ _)); apply Ret_inj in HB; subst v; finishTyped HR.
  - (* tointeger *) destruct a0; unfold vtoInt in HB; crunch HB; apply Ret_inj in HB; subst v; finishTyped HR.
  - (* timestamp *) destruct a0; unfold toTimestamp in HB; cbn [obind] in HB; crunch HB; apply Ret_inj in HB; subst v; finishTyped HR.
Qed.

(** * Functions that always return *)
Definition partialNames : list str :=
  [B "abs"; B "pow"; B "tointeger"; B "lpad"; B "rpad"; B "hash"; B "date"; B "time"; B "datetime"; B "timestamp"; B "range"; B "head"; B "last";
   B "hassameedgeinpath"; B "hassamevertexinpath"; B "reversepath"; B "datasetrowcol"].
Definition totalEntry (e : str * attr) : Prop :=
  ~ In (fst e) partialNames -> forall o args, arityOk (snd e) args -> exists v, body (snd e) o args = Ret v.
Ltac namesG := unfold fAbs, fBit, fMath, fSqrt, fHypot, fPow, fConst, fLog, fRadians, fSign, fStrcasecmp, fLower, fUpper, fLength, fTrim, onStr,
  fLeft, fRight, fReplace, fReverse, fSplit, fTostring, fTobool, fTofloat, fTointeger, fLpad, fRpad, fSubstr, fHash, fIsIn, fNear, fCosSim,
  fSize, fRange, fId, fTags, fProperties, fType, fTypeid, fSrc, fDst, fRank, fStartNode, fEndNode, fHead, fLast, fCoalesce, fKeys, fNodes,
  fTail, fRelationships, fSameEdge, fSameVertex, fReversePath, fRowCol, fRand, fRand32, fRand64, fNow, fDate, fTime, fDatetime, fTimestamp.
Ltac crunchG :=
  repeat first
   [ match goal with |- exists v, Ret ?x = Ret v => exists x; reflexivity end
   | match goal with |- exists v, match ?x with _ => _ end = Ret v => destruct x end
   | progress (cbv beta iota zeta) ].
Lemma total_all : Forall totalEntry (functions X W).
Proof.
  unfold functions.
  repeat (apply Forall_cons;
    [unfold totalEntry; cbn [fst snd];
     intros NI o args HA; first [exfalso; apply NI; vm_compute; intuition congruence|clear NI];
     cbn [body]; unfold det; shape args HA; namesG|]).
  all: try apply Forall_nil.
  all: try timeout 20 (solve [crunchG]).
  destruct a0; cbv [vmul vdiv nullOrEmpty isNull isEmpty orb andb negb obind]; crunchG.
Qed.
End Tab.
