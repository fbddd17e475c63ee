(** C193: evaluating an expression that was read from any bytes. *)
From Coq Require Import String List.
From Verif Require Import Prelude ValueBase DateModel DateSpec TimeModel HashModel ValueModel ValueProofs ExprModel ExprSpec ExprProofs CloneSpec DecodeProofs DecodeProps EvalModel EvalSpec EvalProofs EvalProps
  FuncGuardProps CastProps ValueProps WireModel WireSpec WireProps FaultSpec FaultProofs FaultProps SoundSpec SoundProofs SoundProps FaultSoundProps ReceiveProofs ReceiveProps FuncModel FuncTableModel FuncTableProofs FuncTableProps SoundFuncSpec SoundFuncProps.
Import ListNotations.
Local Open Scope list_scope.
Open Scope Z_scope.

(** What the operands of a node must not be; [gives E e v]: [v] is among what [e] can give.  Shorter than for C186: nodes that no decoder makes and
    incomplete nodes do not occur. *)
Definition careful (E : env) (k : kind) (cs : list expr) : Prop :=
  let operands (Q : value -> value -> Prop) := forall l r v w, cs = [l; r] -> FaultSoundProps.gives E l v -> FaultSoundProps.gives E r w -> Q v w in
  let each (Q : value -> Prop) := forall e v, In e cs -> FaultSoundProps.gives E e v -> Q v in
  match k with
  | KArith OAdd => operands (fun v w => match v, w with VDate d, VInt n | VInt n, VDate d => inCalendar d n | _, _ => True end)
  | KArith OMinus => operands (fun v w => match v, w with VDate d, VInt n => inCalendar d (- n) | VDate d, VDate e => inCalendar d 0 /\ inCalendar e 0 | _, _ => True end)
  | KArith OMod => operands (fun v w => ~ (v = VInt (- 2 ^ 63) /\ w = VInt (-1)))
  | KUnary OIncr => each (fun v => match v with VDate d => inCalendar d 1 | _ => True end)
  | KUnary ODecr => each (fun v => match v with VDate d => inCalendar d (- 1) | _ => True end)
  | KRel OIn | KRel ONotIn => operands (fun v w => match w with VSet _ => canHash v | _ => True end)
  | KAttr => operands (fun v w => hasMembers v -> exists s, w = VStr s)
  | KCast t => t = 4 -> each (integral E)
  | KCall name => forall vs, Forall2 (FaultSoundProps.gives E) cs vs -> exists v, eFun E name vs = Ret v
  | KSet => each canHash
  | KPredicate n _ _ hasFilter =>
      (isExistsName n -> match cs with Node _ gs :: _ => (2 <= List.length gs)%nat | [] => False end) /\ (isQuantifierName n -> hasFilter = true)
  | KAggregate _ _ => False
  | _ => True
  end.
(** Kinds of which nothing has to be known *)
Definition harmlessKind (k : kind) : Prop :=
  match k with
  | KArith o => o = OMultiply \/ o = ODivision
  | KUnary o => o <> OIncr /\ o <> ODecr
  | KRel o => o <> OIn /\ o <> ONotIn
  | KCast t => t <> 4
  | KPredicate n _ _ f => ~ isExistsName n /\ f = true
  | KAttr | KCall _ | KSet | KAggregate _ _ => False
  | _ => True
  end.
Theorem C193_evaluates : forall E b e, Forall (fun x => 0 <= x < 256) b -> decode (wireCodec (eX E)) b = Ret (Some e) -> soundEnv E -> allNodes (careful E) e ->
  forall k c, kept (sound (eX E)) k -> holds (sound (eX E)) c ->
  exists v k' c', eval E e k c = Ret (v, k', c') /\ sound (eX E) v /\ kept (sound (eX E)) k' /\ holds (sound (eX E)) c'.
Proof.
  intros E b e Hb H HE Hg. pose proof (C81_decoded_is_whole (eX E) b e H) as W. pose proof (C191_expressions (eX E) b e Hb H) as A. clear Hb H.
  assert (G : soundConsts (eX E) e /\ complete e /\ allNodes (guarded E) e).
  { unfold soundConsts, complete, whole in *. induction e as [k cs IH] using expr_ind'. cbn [allNodes] in *. rewrite !fold_and_Forall in *. rewrite !Forall_forall in *.
    destruct Hg as [G1 G2], W as [W1 W2], A as [A1 A2].
    assert (K : forall x, In x cs -> wholeNode (kindOf x) (childrenOf x)) by (intros [kx cx] Hx; exact (proj1 (W2 _ Hx))).
    splits.
    - destruct k; auto. apply A1.
    - intros x Hx. now apply IH; auto.
    - destruct k; cbn [wholeNode completeNode builtNode careful] in *; auto; try contradiction; apply length_zero_iff_nil; tauto.
    - intros x Hx. now apply IH; auto.
    - destruct k as [| [] | [] | | | | | | | | | | | | | | | | | | | | | | | | | | ]; cbn [wholeNode guarded careful] in *; auto; try contradiction.
      + split; [exact G1|]. intros s bb M. destruct cs as [|x [|]]; try discriminate. injection M as M. specialize (K x (or_introl eq_refl)). rewrite M in K. exact K.
      + split; [exact G1|]. intros s bb M. destruct cs as [|x [|]]; try discriminate. injection M as M. specialize (K x (or_introl eq_refl)). rewrite M in K. exact K.
      + destruct W1 as [n ->]. lia.
    - intros x Hx. now apply IH; auto. }
  destruct G as (G1 & G2 & G3). exact (C186_sound E e HE G1 G2 G3).
Qed.
(** Nothing has to be known about operands of these kinds *)
Theorem C193_harmless : forall E b e, Forall (fun x => 0 <= x < 256) b -> decode (wireCodec (eX E)) b = Ret (Some e) -> soundEnv E -> allNodes (fun k _ => harmlessKind k) e ->
  forall k c, kept (sound (eX E)) k -> holds (sound (eX E)) c ->
  exists v k' c', eval E e k c = Ret (v, k', c') /\ sound (eX E) v /\ kept (sound (eX E)) k' /\ holds (sound (eX E)) c'.
Proof.
  intros E b e Hb H HE Hg. apply (C193_evaluates E b e Hb H HE). clear - Hg. induction e as [k cs IH] using expr_ind'. cbn [allNodes] in *. rewrite !fold_and_Forall in *. rewrite !Forall_forall in *. destruct Hg as [G1 G2]. split; [|auto].
  destruct k as [| [] | [] | [] | | | | | | | | | | | | | | | | | | | | | | | | | ]; cbn [harmlessKind careful] in *; try exact I; try tauto; try (destruct G1; discriminate); try (destruct G1 as [G1 G3]; now destruct G1 || now destruct G3).
Qed.
(** With the functions of the code: [eFun] runs the entry of the table, at the clock and with the draws of the call *)
Definition runsTable (W : world) (E : env) : Prop :=
  forall n vs, Forall fitsMemory vs -> (forall o, callFunction (eX E) W n o vs <> None) -> exists o, callFunction (eX E) W n o vs = Some (eFun E n vs).
(** Calls of functions that are there, with a number of arguments that they take, and not among the 17 of C84 that can fail, need no condition
    but that their arguments fit into memory. *)
Definition carefulCalls (W : world) (E : env) (k : kind) (cs : list expr) : Prop :=
  match k with
  | KCall n => ~ In (lower n) partialNames /\ (exists a, In (lower n, a) (functions (eX E) W) /\ minArity a <= sizeOf cs <= maxArity a) /\
      forall e v, In e cs -> FaultSoundProps.gives E e v -> fitsMemory v
  | _ => careful E k cs
  end.
Theorem C193_calls : forall W E b e, runsTable W E -> Forall (fun x => 0 <= x < 256) b -> decode (wireCodec (eX E)) b = Ret (Some e) -> soundEnv E -> allNodes (carefulCalls W E) e ->
  forall k c, kept (sound (eX E)) k -> holds (sound (eX E)) c ->
  exists v k' c', eval E e k c = Ret (v, k', c') /\ sound (eX E) v /\ kept (sound (eX E)) k' /\ holds (sound (eX E)) c'.
Proof.
  intros W E b e HR Hb H HE Hg. apply (C193_evaluates E b e Hb H HE). clear - Hg HR. induction e as [k cs IH] using expr_ind'. cbn [allNodes] in *. rewrite !fold_and_Forall in *. rewrite !Forall_forall in *. destruct Hg as [G1 G2]. split; [|auto].
  destruct k; try exact G1. cbn [carefulCalls careful] in *. destruct G1 as (N & (a & A1 & A2) & F). intros vs Hvs.
  assert (L : sizeOf cs = sizeOf vs) by (clear - Hvs; induction Hvs; [reflexivity|rewrite !sizeOf_cons; lia]).
  destruct (HR name vs) as (o & Q).
  - clear - Hvs F. induction Hvs; constructor; [apply (F x y); [left; reflexivity|assumption]|]. apply IHHvs. intros e v He. apply F. right. exact He.
  - intros o Q. destruct (proj2 (C84_arity (eX E) W name o vs)) as [out Q']; [exists a; split; [exact A1|rewrite <- L; exact A2]|]. congruence.
  - destruct (C84_total _ _ _ _ _ _ N Q) as [v ->]. now exists v.
Qed.

(** Without the conditions it is false: bytes that are read without complaint as an expression of which every evaluation fails *)
Definition crashing : list (str * outcome (value * cache * ctx)) :=
  [ (* -2^63 % -1 *) ([5; 0; 54; 255; 255; 255; 255; 255; 255; 255; 255; 255; 1; 0; 0; 54; 1; 0], UB);
    (* a date in month 14, plus a day *) ([1; 0; 108; 20; 200; 31; 19; 14; 19; 1; 0; 0; 0; 54; 2; 0], UB);
    (* {} IN set *) ([18; 0; 220; 27; 0; 0; 0; 0; 236; 26; 12; 0; 0], Fatal);
    (* a set literal with a map inside *) ([51; 2; 0; 0; 0; 0; 0; 0; 0; 0; 54; 2; 0; 0; 220; 27; 0; 0; 0], Fatal);
    (* an attribute whose name is an integer *) ([27; 0; 220; 27; 1; 140; 1; 97; 54; 2; 0; 0; 0; 0; 54; 0; 0], Fatal);
    (* (int)NaN *) ([33; 4; 0; 0; 0; 0; 0; 0; 0; 0; 71; 127; 248; 0; 0; 0; 0; 0; 0; 0], UB);
    (* count(1) without a state of the aggregate *) ([63; 5; 0; 0; 0; 0; 0; 0; 0; 99; 111; 117; 110; 116; 34; 0; 0; 54; 2; 0], UB);
    (* exists(1) *) ([55; 34; 0; 34; 0; 34; 0; 6; 0; 0; 0; 0; 0; 0; 0; 101; 120; 105; 115; 116; 115; 0; 54; 2; 0], UB);
    (* all(x IN [1]) without a filter *) ([55; 33; 0; 34; 0; 34; 0; 3; 0; 0; 0; 0; 0; 0; 0; 97; 108; 108; 1; 0; 0; 0; 0; 0; 0; 0; 120; 0; 204; 25; 28; 54; 2; 0; 0; 0], UB) ].
Theorem C193_everything_evaluates_refuted : forall b o, In (b, o) crashing -> Forall (fun x => 0 <= x < 256) b /\
  exists e, decode (wireCodec (eX E0)) b = Ret (Some e) /\ forall c, eval E0 e noCache c = o.
Proof.
  intros b o H. unfold crashing in H. cbn [In] in H.
  do 9 (destruct H as [H|H]; [injection H as <- <-; split; [repeat (apply Forall_cons; [lia|]); apply Forall_nil|]; eexists; split; [vm_compute; reflexivity|]; intros c; reflexivity|]). destruct H.
Qed.

(** reduce(s = 0, x IN l | s * -x): read from its own bytes, with harmless kinds only *)
Definition ex193 : expr := Node (KReduce (B "s") (B "x") []) [konst (VInt 0); Node (KVar (B "l") true) []; Node (KArith OMultiply) [Node (KVar (B "s") true) []; Node (KUnary ONegate) [Node (KVar (B "x") true) []]]].
Example C193_harmless_ex : exists b, encode (wireCodec (eX E0)) ex193 = Ret b /\ Forall (fun x => 0 <= x < 256) b /\ decode (wireCodec (eX E0)) b = Ret (Some ex193) /\
  soundEnv E0 /\ allNodes (fun k _ => harmlessKind k) ex193 /\ kept (sound (eX E0)) noCache /\ holds (sound (eX E0)) [(B "l", VList [VInt 3; VNull NNull])].
Proof.
  eexists. split; [vm_compute; reflexivity|]. split; [repeat (apply Forall_cons; [lia|]); apply Forall_nil|]. split; [vm_compute; reflexivity|].
  destruct C186_sound_ex as (K1 & _ & _ & _ & _ & K2). split; [exact K1|]. split; [cbn; splits; auto; discriminate|]. split; [exact K2|].
  apply Forall_cons; [|apply Forall_nil]. apply (C191_values (eX E0) [204; 25; 44; 54; 6; 0; 21; 0; 0; 0; 0] _ []); [repeat (apply Forall_cons; [lia|]); apply Forall_nil|]. vm_compute. reflexivity.
Qed.
(** toUpper of a text with the functions of the code *)
Definition countb {A} (l : list A) : bool := Z.of_nat (List.length l) <? 2 ^ 63.
Definition fitsb (v : value) : bool :=
  match v with
  | VStr s => countb s && forallb (fun b => (0 <=? b) && (b <? 256)) s
  | VList l | VSet l => countb l
  | VMap m => countb m
  | VDataSet d => countb (drows d)
  | VPath p => countb (psteps p)
  | _ => true
  end.
Lemma fitsb_spec v : fitsb v = true <-> fitsMemory v.
Proof.
  destruct v; cbn [fitsb fitsMemory]; try tauto; unfold countb, count; try apply Z.ltb_lt.
  rewrite andb_true_iff, Z.ltb_lt, forallb_forall, Forall_forall. split; intros [H1 H2]; (split; [exact H1|]); intros x Hx; specialize (H2 x Hx); cbn beta in *; lia.
Qed.
Definition E193 : env :=
  mkEnv tX (fun _ _ => None) (fun n vs => if forallb fitsb vs then match callFunction tX tW n tO vs with Some r => r | None => UB end else UB)
    (fun _ => VEmpty) (fun _ _ _ => VEmpty) (fun _ _ _ => VEmpty) (fun _ _ => VEmpty) (fun _ _ => VEmpty) (fun _ _ => VEmpty) (fun _ _ => VEmpty) (fun _ => VEmpty) (fun _ => VEmpty) VEmpty VEmpty.
Lemma E193_fits vs : forallb fitsb vs = true <-> Forall fitsMemory vs.
Proof. rewrite forallb_forall, Forall_forall. split; intros H x Hx; apply fitsb_spec, H, Hx. Qed.
Definition ex193c : expr := Node (KCall (B "toUpper")) [konst (VStr (B "abc"))].
Example C193_calls_ex : exists b, encode (wireCodec (eX E193)) ex193c = Ret b /\ Forall (fun x => 0 <= x < 256) b /\ decode (wireCodec (eX E193)) b = Ret (Some ex193c) /\
  runsTable tW E193 /\ soundEnv E193 /\ allNodes (carefulCalls tW E193) ex193c /\ forall c, exists k, eval E193 ex193c noCache c = Ret (VStr (B "ABC"), k, c).
Proof.
  eexists. split; [vm_compute; reflexivity|]. split; [repeat (apply Forall_cons; [lia|]); apply Forall_nil|]. split; [vm_compute; reflexivity|]. split; [|split; [|split]].
  - intros n vs F H. exists tO. cbn [E193 eFun eX]. rewrite (proj2 (E193_fits vs) F). destruct (callFunction tX tW n tO vs) eqn:Q; [reflexivity|]. destruct (H tO Q).
  - assert (L : sound tX VEmpty) by (apply (sound_leaf (convEnv tX)); split; [reflexivity|exact I]).
    unfold soundEnv. cbv zeta. splits; intros; splits; try exact L.
    match goal with Q : eFun E193 ?n ?vs = Ret ?w |- _ => cbn [E193 eFun eX] in Q; destruct (forallb fitsb vs) eqn:F; [|discriminate Q]; destruct (callFunction tX tW n tO vs) as [r|] eqn:R; [|discriminate Q]; subst r;
      refine (C188_functions tX tW n tO vs w _ _ (proj1 (E193_fits vs) F) R); [split; unfold int64; cbn; lia|assumption] end.
  - unfold ex193c, konst. cbn [allNodes fold_right map carefulCalls careful]. splits; auto.
    + vm_compute. intuition discriminate.
    + apply (C84_arity (eX E193) tW (B "toUpper") tO [VStr (B "abc")]). eexists. reflexivity.
    + intros e v [<-|[]] ([kv kl] & c & k' & c' & _ & _ & H). cbn in H. injection H as <- _ _. split; [unfold count; cbn; lia|]. repeat (apply Forall_cons; [lia|]). apply Forall_nil.
  - intros c. eexists. reflexivity.
Qed.
Example C193_evaluates_ex : exists b, let e := Node (KArith OMod) [konst (VInt (- 2 ^ 63)); konst (VInt 10)] in
  encode (wireCodec (eX E0)) e = Ret b /\ Forall (fun x => 0 <= x < 256) b /\ decode (wireCodec (eX E0)) b = Ret (Some e) /\ allNodes (careful E0) e /\
  forall c, exists k, eval E0 e noCache c = Ret (VInt (-8), k, c).
Proof.
  eexists. cbv zeta. split; [vm_compute; reflexivity|]. split; [repeat (apply Forall_cons; [lia|]); apply Forall_nil|]. split; [vm_compute; reflexivity|]. split; [|intros; eexists; reflexivity].
  cbn. splits; auto. intros l r v w Q Hv Hw [-> ->]. injection Q as <- <-.
  unfold FaultSoundProps.gives, konst in Hw. destruct Hw as (k & c & k' & c' & _ & _ & Hw). destruct k as [kv kl]. cbn in Hw. congruence.
Qed.
Print Assumptions C193_evaluates.
Print Assumptions C193_harmless.
Print Assumptions C193_calls.
Print Assumptions C193_everything_evaluates_refuted.
