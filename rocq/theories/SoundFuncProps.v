(** C188: functions give only values that the types allow. *)
From Coq Require Import String List.
From Verif Require Import Prelude Trans ValueBase DateModel TimeModel ValueModel ValueProofs GraphModel ExprModel ExprSpec ExprProofs EvalModel EvalSpec EvalProofs EvalProps ValueProps FuncModel FuncTableModel FuncTableProofs FuncTableProps
  FaultSpec SoundSpec SoundProofs SoundProps SoundFuncSpec SoundFuncProofs.
Import ListNotations.
Local Open Scope list_scope.
Local Open Scope string_scope.
Open Scope Z_scope.

Theorem C188_functions : forall X W name o args v, soundClock o -> Forall (sound X) args -> Forall fitsMemory args ->
  callFunction X W name o args = Some (Ret v) -> sound X v.
Proof.
  intros X W name o args v Ho Ha Hz H. unfold callFunction in H. destruct (getInternal X W name (sizeOf args)) as [a|] eqn:Q; [|discriminate]. injection H as H.
  apply getInternal_spec in Q as [Q _]. pose proof (good_all (convEnv X) W) as G. rewrite Forall_forall in G. exact (G _ Q o args v Ho Ha Hz H).
Qed.
(** range(2^63 - 3, 2^63 - 2, 2) stops just before leaving the integers; a path walked backwards has the negated edge types *)
Definition ex188 : path := mkPath (mkVertex (VInt 1) []) [mkStep (mkVertex (VInt 2) []) (2 ^ 31 - 1) (B "e") (- 2 ^ 63) []].
Example C188_functions_ex : soundClock tO /\ Forall (sound tX) [VInt (2 ^ 63 - 3); VInt (2 ^ 63 - 2); VInt 2] /\ sound tX (VPath ex188) /\ fitsMemory (VPath ex188) /\
  callFunction tX tW (B "range") tO [VInt (2 ^ 63 - 3); VInt (2 ^ 63 - 2); VInt 2] = Some (Ret (VList [VInt (2 ^ 63 - 3)])) /\
  callFunction tX tW (B "reversePath") tO [VPath ex188] = Some (Ret (VPath (mkPath (mkVertex (VInt 2) []) [mkStep (mkVertex (VInt 1) []) (- 2 ^ 31 + 1) (B "e") (- 2 ^ 63) []]))).
Proof.
  assert (K : forall z, int64 z -> sound tX (VInt z)) by (intros z; exact (sound_int (convEnv tX) z)).
  assert (V : forall z, int64 z -> sound tX (VVertex (mkVertex (VInt z) []))) by (intros z Hz; exact (bare_vertex (convEnv tX) _ (K z Hz))).
  splits; try (match goal with |- _ = _ => vm_compute; reflexivity end).
  - split; unfold int64; cbn; lia.
  - repeat constructor; apply K; unfold int64; lia.
  - apply (path_join (convEnv tX)); [apply V; unfold int64; lia|]. constructor; [|constructor]. split.
    + split; [constructor|]. split; [constructor|]. cbn [stype srank]. unfold int32, int64. lia.
    + intros c [<-|[]]. apply K. unfold int64. lia.
  - reflexivity.
Qed.
(** So evaluation with these functions keeps what C187 says, whatever the draws and the clock of each call. *)
Definition withoutFunctions (E : env) : env :=
  mkEnv (eX E) (eRegex E) (fun _ _ => UB) (eNoVar E) (eVersioned E) (eVarProp E) (eEdgeProp E) (eTagProp E) (eSrcProp E) (eDstProp E) (eInput E) (eColumn E) (eVertex E) (eEdge E).
Definition builtIn (W : world) (E : env) : Prop :=
  forall n vs v, eFun E n vs = Ret v -> Forall fitsMemory vs /\ exists o, soundClock o /\ callFunction (eX E) W n o vs = Some (Ret v).
Theorem C188_evaluation : forall W E e k c v k' c', builtIn W E -> soundEnv (withoutFunctions E) -> soundConsts (eX E) e -> kept (sound (eX E)) k -> holds (sound (eX E)) c ->
  eval E e k c = Ret (v, k', c') -> sound (eX E) v /\ kept (sound (eX E)) k' /\ holds (sound (eX E)) c'.
Proof.
  intros W E e k c v k' c' HB HE Hc Hk Hh H. refine (C187_sound E e k c v k' c' _ Hc Hk Hh H). destruct HE as (H1 & H2 & H3 & H4 & H5 & H6 & H7 & H8 & _). refine (conj H1 (conj H2 (conj H3 (conj H4 (conj H5 (conj H6 (conj H7 (conj H8 _)))))))).
  intros n vs w Hv Hw. destruct (HB n vs w Hw) as (Hz & o & Ho & Hcall). exact (C188_functions _ W n o vs w Ho Hv Hz Hcall).
Qed.
(** abs(x) - size(range(1, 3)) where x is the least integer but one *)
Definition E188 : env :=
  mkEnv tX (fun _ _ => None) (fun n vs => if forallb (fun v => match v with VInt _ => true | VList l => Nat.ltb (List.length l) 1000 | _ => false end) vs then match callFunction tX tW n tO vs with Some r => r | None => UB end else UB)
    (fun _ => VEmpty) (fun _ _ _ => VEmpty) (fun _ _ _ => VEmpty) (fun _ _ => VEmpty) (fun _ _ => VEmpty) (fun _ _ => VEmpty) (fun _ _ => VEmpty) (fun _ => VEmpty) (fun _ => VEmpty) VEmpty VEmpty.
Definition ex188e : expr :=
  Node (KArith OMinus) [Node (KCall (B "abs")) [Node (KVar (B "x") false) []]; Node (KCall (B "size")) [Node (KCall (B "range")) [konst (VInt 1); konst (VInt 3)]]].
Example C188_evaluation_ex : builtIn tW E188 /\ soundEnv (withoutFunctions E188) /\ soundConsts (eX E188) ex188e /\ holds (sound (eX E188)) [(B "x", VInt (- 2 ^ 63 + 1))] /\
  exists k c, eval E188 ex188e noCache [(B "x", VInt (- 2 ^ 63 + 1))] = Ret (VInt (2 ^ 63 - 4), k, c).
Proof.
  assert (K : forall z, int64 z -> sound tX (VInt z)) by (intros z; exact (sound_int (convEnv tX) z)).
  assert (L : sound tX VEmpty) by (apply (sound_leaf (convEnv tX)); split; [reflexivity|exact I]).
  splits.
  - intros n vs v H. cbn [E188 eFun eX] in *. destruct (forallb _ vs) eqn:Q; [|discriminate]. destruct (callFunction tX tW n tO vs) as [r|] eqn:R; [|discriminate]. subst r. split.
    + rewrite forallb_forall in Q. apply Forall_forall. intros x Hx. specialize (Q x Hx). destruct x; try discriminate; [exact I|]. apply Nat.ltb_lt in Q. unfold fitsMemory, count. lia.
    + exists tO. split; [|exact R]. split; unfold int64; cbn; lia.
  - unfold soundEnv. cbv zeta. splits; intros; cbn in *; auto. discriminate.
  - unfold soundConsts, ex188e, konst. cbn [allNodes fold_right map]. splits; auto; apply K; unfold int64; lia.
  - constructor; [|constructor]. apply K. unfold int64. lia.
  - do 2 eexists. vm_compute. reflexivity.
Qed.
Print Assumptions C188_functions.
Print Assumptions C188_evaluation.
