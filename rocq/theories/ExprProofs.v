From Verif Require Import ValueBase DateModel TimeModel ValueModel ExprModel ExprSpec.
From Coq Require Import Lia.
Local Open Scope list_scope.
Local Open Scope Z_scope.

Section Ind.
  Variable P : expr -> Prop.
  Hypothesis H : forall k cs, Forall P cs -> P (Node k cs).
  Fixpoint expr_ind' (e : expr) : P e :=
    match e with
    | Node k cs => H k cs ((fix go l : Forall P l := match l with [] => Forall_nil P | c :: l' => Forall_cons c (expr_ind' c) (go l') end) cs)
    end.
End Ind.

Lemma fold_and_Forall {A} (P : A -> Prop) l : fold_right and True (map P l) <-> Forall P l.
Proof. induction l; simpl; split; intros; auto. - destruct H; constructor; tauto. - inversion H; subst; tauto. Qed.

(** * Readers undo writers *)
Lemma dbind_ret {A C} (m : dec A) (f : A -> dec C) b a b' : m b = Ret (a, b') -> dbind m f b = f a b'.
Proof. intros E. unfold dbind. now rewrite E. Qed.
Lemma leBytes_length n z : List.length (leBytes n z) = n.
Proof. revert z; induction n; intros; simpl; auto. Qed.
Lemma leVal_leBytes n z : 0 <= z < 256 ^ Z.of_nat n -> leVal (leBytes n z) = z.
Proof.
  revert z; induction n as [|n IH]; intros z Hz.
  - simpl in *. lia.
  - cbn [leBytes leVal]. rewrite IH.
    + pose proof (Z.div_mod z 256). lia.
    + rewrite Nat2Z.inj_succ, Z.pow_succ_r in Hz by lia. split; [apply Z.div_pos; lia|apply Z.div_lt_upper_bound; lia].
Qed.
Lemma split_at {A} n (h r : list A) : List.length h = n -> firstn n (h ++ r) = h /\ skipn n (h ++ r) = r.
Proof.
  intros <-. split.
  - rewrite firstn_app, Nat.sub_diag, firstn_all. cbn. apply app_nil_r.
  - rewrite skipn_app, Nat.sub_diag, skipn_all. reflexivity.
Qed.
Lemma readSize_enc n r : 0 <= n < 2 ^ 64 -> readSize (encSize n ++ r) = Ret (n, r).
Proof.
  intros Hn. unfold readSize, encSize.
  destruct (split_at 8 (leBytes 8 n) r (leBytes_length 8 n)) as [E1 E2].
  destruct (Nat.ltb_spec (List.length (leBytes 8 n ++ r)) 8) as [C|_].
  { rewrite app_length, leBytes_length in C. lia. }
  rewrite E1, E2, leVal_leBytes by exact Hn. reflexivity.
Qed.
Lemma readStr_enc s r : short s -> readStr (encStr s ++ r) = Ret (s, r).
Proof.
  intros Hn. unfold readStr, encStr, encSize, short in *.
  set (n := Z.of_nat (List.length s)) in *. rewrite <- app_assoc.
  destruct (split_at 8 (leBytes 8 n) (s ++ r) (leBytes_length 8 n)) as [E1 E2].
  destruct (Nat.ltb_spec (List.length (leBytes 8 n ++ s ++ r)) 8) as [C|_].
  { rewrite app_length, leBytes_length in C. lia. }
  rewrite E1, E2, leVal_leBytes by (change (256 ^ Z.of_nat 8) with (2 ^ 64); lia).
  cbv zeta. destruct (Z.leb_spec (2 ^ 63) n); [lia|].
  destruct (Z.ltb_spec (Z.of_nat (List.length (s ++ r))) n) as [C|_]; [rewrite app_length in C; lia|].
  unfold n. rewrite Nat2Z.id. destruct (split_at (List.length s) s r eq_refl) as [-> ->]. reflexivity.
Qed.

Lemma map_fst_combine {A C} (l : list A) (l' : list C) : List.length l = List.length l' -> map fst (combine l l') = l.
Proof. revert l'; induction l; intros [|c l'] H; cbn in *; try discriminate; auto. f_equal. apply IHl. lia. Qed.
Lemma map_snd_combine {A C} (l : list A) (l' : list C) : List.length l = List.length l' -> map snd (combine l l') = l'.
Proof. revert l'; induction l; intros [|c l'] H; cbn in *; try discriminate; auto. f_equal. apply IHl. lia. Qed.

Section Codec.
Variable VC : vcodec.
Variable V : value -> Prop.
Hypothesis HC : codecFor VC V.
Hypothesis Hbool : forall b, V (VBool b).

Lemma readValue_enc v r : V v -> readValue VC (venc VC v ++ r) = Ret (v, r).
Proof. intros Hv. unfold readValue. now rewrite (HC v r Hv). Qed.
Lemma readBool_enc b r : readBool VC (encBool VC b ++ r) = Ret (b, r).
Proof. unfold readBool, encBool. erewrite dbind_ret by (apply readValue_enc, Hbool). reflexivity. Qed.
Lemma readOpt_some {A} (m : dec A) b a b' : m b = Ret (a, b') -> readOpt true m b = Ret (Some a, b').
Proof. intros E. unfold readOpt. now rewrite (dbind_ret _ _ _ _ _ E). Qed.
Lemma readOpt_str s r : short s -> readOpt (nonEmpty s) readStr ((if nonEmpty s then encStr s else []) ++ r) = Ret (if nonEmpty s then Some s else None, r).
Proof. intros Hs. destruct (nonEmpty s). - apply readOpt_some, readStr_enc, Hs. - reflexivity. Qed.
Lemma strOf_opt s : strOf (if nonEmpty s then Some s else None) = s.
Proof. destruct s; reflexivity. Qed.

Lemma readMany_enc {A} (item : dec A) l bs fuel r :
  Forall2 (fun a b => forall r, item (b ++ r) = Ret (a, r)) l bs -> (List.length l <= fuel)%nat ->
  readMany item fuel (lenOf l) (concat bs ++ r) = Ret (l, r).
Proof.
  intros F. revert fuel. induction F as [|a b l bs E F IH]; intros fuel Hf.
  - destruct fuel; reflexivity.
  - destruct fuel as [|f]; [simpl in Hf; lia|]. cbn [readMany]. unfold lenOf in *. cbn [List.length] in *.
    destruct (Z.leb_spec (Z.of_nat (S (List.length l))) 0); [lia|].
    cbn [concat]. rewrite <- app_assoc. erewrite dbind_ret by apply E.
    replace (Z.of_nat (S (List.length l)) - 1) with (Z.of_nat (List.length l)) by lia.
    erewrite dbind_ret by (apply IH; lia). reflexivity.
Qed.

Lemma encode_eq k cs : encode VC (Node k cs) = obind (obindList (map (encode VC) cs)) (fun bs => obind (encBody VC k bs) (fun b => Ret (kindNo k mod 256 :: b))).
Proof. reflexivity. Qed.
(** The encoding b stands for e *)
Definition wire (e : expr) (b : list Z) : Prop :=
  encode VC e = Ret b /\ (1 <= List.length b)%nat /\ forall fuel r, (List.length b < fuel)%nat -> readExpr VC fuel (b ++ r) = Ret (e, r).

Lemma obindList_map cs bs : Forall2 wire cs bs -> obindList (map (encode VC) cs) = Ret bs.
Proof. induction 1 as [|c b cs bs [E _] F IH]; cbn; [reflexivity|]. rewrite E. cbn. rewrite IH. reflexivity. Qed.
Lemma wire_length cs bs : Forall2 wire cs bs -> List.length cs = List.length bs.
Proof. induction 1; cbn; auto. Qed.
Lemma wire_len cs bs : Forall2 wire cs bs -> (List.length cs <= List.length (concat bs))%nat.
Proof. induction 1 as [|c b cs bs (_ & L & _) F IH]; cbn; [lia|]. rewrite app_length. lia. Qed.
Lemma wire_fuel cs bs f : Forall2 wire cs bs -> (List.length (concat bs) < f)%nat ->
  Forall2 (fun c b => forall r, readExpr VC f (b ++ r) = Ret (c, r)) cs bs.
Proof.
  induction 1 as [|c b cs bs (_ & _ & R) F IH]; cbn; intros Hf; constructor; rewrite app_length in Hf.
  - intros r. apply R. lia.
  - apply IH. lia.
Qed.

Lemma wire_kind_no k cs : wireNode V k cs -> 0 <= kindNo k < 256.
Proof. destruct k; cbn; try tauto; try lia; try (destruct o; cbn; lia). destruct p; cbn; lia. Qed.

(** Pairs of consecutive elements *)
Fixpoint pairs {A} (l : list A) : list (A * A) :=
  match l with a :: b :: l' => (a, b) :: pairs l' | _ => [] end.
Lemma flat_pairs {A} n : forall l : list A, List.length l = (2 * n)%nat ->
  flat_map (fun p => [fst p; snd p]) (pairs l) = l /\ List.length (pairs l) = n.
Proof.
  induction n; intros l Hl.
  - destruct l; [auto|simpl in Hl; lia].
  - destruct l as [|a [|b l]]; simpl in Hl; try lia. destruct (IHn l ltac:(lia)) as [E1 E2].
    cbn [pairs flat_map fst snd app List.length]. rewrite E1, E2. auto.
Qed.
Lemma readMany_pairs f n fuel cs bs r :
  Forall2 (fun c b => forall r, readExpr VC f (b ++ r) = Ret (c, r)) cs bs -> List.length cs = (2 * n)%nat -> (n <= fuel)%nat ->
  readMany (readPair (readExpr VC f)) fuel (Z.of_nat n) (concat bs ++ r) = Ret (pairs cs, r).
Proof.
  revert fuel cs bs; induction n as [|n IH]; intros fuel cs bs F L Hf.
  - destruct cs; [|simpl in L; lia]. inversion F; subst. destruct fuel; reflexivity.
  - destruct cs as [|a [|b cs]]; simpl in L; try lia. inversion F as [|? x ? bs' Ea F']; subst. inversion F' as [|? y ? bs'' Eb F'']; subst.
    destruct fuel as [|g]; [lia|]. cbn [readMany]. destruct (Z.leb_spec (Z.of_nat (S n)) 0); [lia|].
    cbn [concat]. rewrite <- !app_assoc. unfold readPair at 1.
    erewrite dbind_ret.
    2:{ erewrite dbind_ret by apply Ea. erewrite dbind_ret by apply Eb. reflexivity. }
    replace (Z.of_nat (S n) - 1) with (Z.of_nat n) by lia.
    erewrite dbind_ret by (apply IH; [exact F''|lia|lia]). reflexivity.
Qed.

Ltac step := first
  [ erewrite dbind_ret by (apply readBool_enc)
  | erewrite dbind_ret by (apply readStr_enc; assumption)
  | erewrite dbind_ret by (apply readOpt_str; assumption)
  | erewrite dbind_ret by (apply readSize_enc; unfold lenOf, short in *; lia)
  | match goal with E : forall r, readExpr VC ?f (?b ++ r) = _ |- context [?b ++ _] => erewrite dbind_ret by (apply E) end
  | match goal with E : forall r, readExpr VC ?f (?b ++ r) = _ |- context [?b ++ _] => erewrite dbind_ret by (apply readOpt_some, E) end ].
Ltac arity F :=
  repeat match goal with
  | F : Forall2 wire ?cs ?bs, L : List.length ?cs = O |- _ => destruct cs; [inversion F; subst; clear L F|discriminate L]
  | F : Forall2 wire ?cs ?bs, L : List.length ?cs = S _ |- _ =>
      destruct cs; [discriminate L|inversion F; subst; clear F; cbn [List.length] in L; apply Nat.succ_inj in L]
  end.

(* the children of a node of fixed arity, for the fuel f *)
Ltac kids f := match goal with
  | Hfuel : forall f, (_ < f)%nat -> Forall2 _ _ _ |- _ =>
      specialize (Hfuel f); cbn [concat] in Hfuel; rewrite ?app_length in *; cbn [List.length] in *;
      specialize (Hfuel ltac:(lia));
      repeat match goal with
      | G : Forall2 (fun c b => forall r, _ = Ret (c, r)) (_ :: _) _ |- _ => inversion G; subst; clear G
      end
  end.
Ltac fixedArity := eexists; split; [reflexivity|]; intros f r Hf; kids f; rewrite <- ?app_assoc.

Lemma encode_wire e : wireable V e -> exists b, wire e b.
Proof.
  induction e as [k cs IH] using expr_ind'. intros [Hk Hcs]. apply fold_and_Forall in Hcs.
  assert (exists bs, Forall2 wire cs bs) as [bs F].
  { clear Hk. induction IH as [|c cs Hc _ IHl]; [exists []; constructor|]. inversion Hcs; subst.
    destruct (Hc H1) as [b Hb]. destruct (IHl H2) as [bs Hbs]. exists (b :: bs). constructor; assumption. }
  clear IH Hcs.
  assert (Hno := wire_kind_no k cs Hk).
  enough (exists body, encBody VC k bs = Ret body /\ forall f r, (List.length body < f)%nat ->
            decBody VC (readExpr VC f) f (kindNo k) (body ++ r) = Ret (Node k cs, r)) as (body & E & R).
  { exists (kindNo k mod 256 :: body). unfold wire. splits.
    - rewrite encode_eq, (obindList_map cs bs F). cbn [obind]. rewrite E. reflexivity.
    - cbn; lia.
    - intros fuel r Hf. destruct fuel as [|f]; [simpl in Hf; lia|]. cbn [List.length] in Hf.
      cbn [readExpr]. unfold dbind at 1. cbn [readKind app]. rewrite Z.mod_small by exact Hno. apply R. lia. }
  clear Hno.
  assert (Hlen := wire_len cs bs F).
  assert (Hfuel := fun f => wire_fuel cs bs f F).
  assert (many : forall f r, short cs -> (List.length (encSize (lenOf cs) ++ concat bs) < f)%nat -> forall k',
            manyNode (readExpr VC f) k' f ((encSize (lenOf cs) ++ concat bs) ++ r) = Ret (Node k' cs, r)).
  { intros f r Hs Hf k'. rewrite app_length in Hf. unfold manyNode. rewrite <- app_assoc. step.
    erewrite dbind_ret by (apply readMany_enc; [apply Hfuel; lia|lia]). reflexivity. }
  assert (Hl : lenOf bs = lenOf cs) by (unfold lenOf; now rewrite (wire_length cs bs F)).
  destruct k; cbn [wireNode] in Hk; cbn [encBody];
    repeat match goal with H : _ /\ _ |- _ => destruct H end; try contradiction.
  - (* KConst *) arity F. eexists; split; [reflexivity|]. intros f r Hf. cbn [kindNo decBody].
    erewrite dbind_ret by (apply readValue_enc; assumption). reflexivity.
  - (* KArith *) arity F. fixedArity. destruct o; cbn [kindNo arithNo decBody]; unfold binaryNode; do 2 step; reflexivity.
  - (* KUnary *) arity F. fixedArity. destruct o; cbn [kindNo unaryNo decBody]; unfold unaryNode; step; reflexivity.
  - (* KRel *) arity F. fixedArity. destruct o; cbn [kindNo relNo decBody]; unfold binaryNode; do 2 step; reflexivity.
  - (* KSubscript *) arity F. fixedArity. cbn [kindNo decBody]; unfold binaryNode; do 2 step; reflexivity.
  - (* KRange *) destruct hasLo, hasHi; cbn [bit Nat.add] in *; try discriminate; arity F; fixedArity; cbn [kindNo decBody];
      repeat (step; cbn [Z.eqb Pos.eqb]); reflexivity.
  - (* KAttr *) arity F. fixedArity. cbn [kindNo decBody]; unfold binaryNode; do 2 step; reflexivity.
  - (* KLogical *) rewrite Hl. eexists; split; [reflexivity|]. intros f r Hf. destruct o; cbn [kindNo logicNo decBody]; apply many; assumption.
  - (* KCast *) arity F. fixedArity. cbn [kindNo decBody]. do 2 step; reflexivity.
  - (* KCall *) rewrite Hl. eexists; split; [reflexivity|]. intros f r Hf. rewrite app_length in Hf. cbn [kindNo decBody].
    rewrite <- app_assoc. step. apply many; [assumption|lia].
  - (* KProp *) arity F. fixedArity. destruct p; try congruence; cbn [kindNo propNo decBody]; unfold propNode; do 3 step; reflexivity.
  - (* KVertex *) arity F. fixedArity. reflexivity.
  - (* KEdge *) arity F. fixedArity. reflexivity.
  - (* KUUID *) arity F. destruct field as [|c field]; [congruence|]. cbn [nonEmpty]. fixedArity. cbn [kindNo decBody]. step. reflexivity.
  - (* KVar *) arity F. fixedArity. cbn [kindNo decBody]. step. reflexivity.
  - (* KList *) rewrite Hl. eexists; split; [reflexivity|]. intros f r Hf. apply many; assumption.
  - (* KSet *) rewrite Hl. eexists; split; [reflexivity|]. intros f r Hf. apply many; assumption.
  - (* KMap *) rewrite Hl. eexists; split; [reflexivity|]. intros f r Hf. rewrite app_length in Hf. cbn [kindNo decBody].
    assert (Hle : (List.length (concat bs) <= List.length (concat (map (fun p => encStr (fst p) ++ snd p) (combine keys bs))))%nat).
    { assert (HL : List.length keys = List.length bs) by (rewrite <- (wire_length cs bs F); assumption). clear - HL.
      revert bs HL; induction keys as [|k keys IH]; intros [|b bs] HL; cbn in *; try lia. rewrite !app_length. specialize (IH bs). lia. }
    rewrite <- app_assoc. step.
    replace (lenOf cs) with (lenOf (combine keys cs)) by (unfold lenOf; rewrite combine_length; lia).
    erewrite dbind_ret.
    2:{ apply readMany_enc; [|rewrite combine_length; lia].
        assert (Hc := Hfuel f ltac:(lia)). revert H H1. clear - Hc.
        revert keys; induction Hc as [|c b cs bs E Fc IH]; intros [|k keys] HL Hk; try discriminate; cbn [map combine fst snd]; constructor.
        - intros r. inversion Hk; subst. cbn [fst snd]. unfold readEntry. rewrite <- app_assoc. step. step. reflexivity.
        - inversion Hk; subst. apply IH; [cbn in HL; lia|assumption]. }
    rewrite map_fst_combine, map_snd_combine by lia. reflexivity.
  - (* KLabel *) arity F. fixedArity. cbn [kindNo decBody]. step. reflexivity.
  - (* KCase *) destruct H0 as [n Hn]. eexists; split; [reflexivity|]. intros f r Hf. rewrite <- (wire_length cs bs F) in *.
    assert (Hq : ((List.length cs - ((if hasCond then 1 else 0) + (if hasDefault then 1 else 0))) / 2)%nat = n).
    { rewrite Hn. symmetry. apply (Nat.div_unique _ 2 n 0); [lia|]. unfold bit. destruct hasCond, hasDefault; lia. }
    rewrite Hq in Hf |- *. clear Hq.
    rewrite !app_length in Hf. assert (Hc := Hfuel f ltac:(lia)). clear Hfuel. rewrite <- !app_assoc. cbn [kindNo decBody].
    do 3 step. erewrite dbind_ret by (apply readSize_enc; unfold short in *; lia).
    destruct hasCond, hasDefault; cbn [bit Nat.add] in Hn.
    + destruct cs as [|a [|b cs]]; try discriminate Hn. inversion Hc as [|? ? ? ? Ea Hc']; subst. inversion Hc' as [|? ? ? ? Eb Hc'']; subst.
      cbn [concat] in *. cbn [List.length] in *. rewrite <- !app_assoc. do 2 step. rewrite ?app_length in *.
      erewrite dbind_ret by (apply readMany_pairs; [exact Hc''|lia|lia]). cbn [opt1 app]. destruct (flat_pairs n cs ltac:(lia)) as [-> _]. reflexivity.
    + destruct cs as [|a cs]; try discriminate Hn. inversion Hc as [|? ? ? ? Ea Hc']; subst.
      cbn [concat] in *. cbn [List.length] in *. rewrite <- !app_assoc. step. rewrite ?app_length in *. cbn [readOpt]. erewrite dbind_ret by reflexivity.
      erewrite dbind_ret by (apply readMany_pairs; [exact Hc'|lia|lia]). cbn [opt1 app]. destruct (flat_pairs n cs ltac:(lia)) as [-> _]. reflexivity.
    + destruct cs as [|a cs]; try discriminate Hn. inversion Hc as [|? ? ? ? Ea Hc']; subst.
      cbn [concat] in *. cbn [List.length] in *. rewrite <- !app_assoc. erewrite dbind_ret by reflexivity. step. rewrite ?app_length in *.
      erewrite dbind_ret by (apply readMany_pairs; [exact Hc'|lia|lia]). cbn [opt1 app]. destruct (flat_pairs n cs ltac:(lia)) as [-> _]. reflexivity.
    + do 2 erewrite dbind_ret by reflexivity.
      erewrite dbind_ret by (apply readMany_pairs; [exact Hc|lia|lia]). cbn [opt1 app]. destruct (flat_pairs n cs ltac:(lia)) as [-> _]. reflexivity.
  - (* KPredicate *) destruct hasFilter; cbn [bit Nat.add] in *; arity F; cbn [concat app]; rewrite ?app_nil_r; fixedArity; cbn [kindNo decBody];
      repeat first [step | erewrite dbind_ret by reflexivity]; rewrite !strOf_opt; reflexivity.
  - (* KListComp *) destruct hasFilter, hasMapping; cbn [bit Nat.add] in *; arity F; cbn [concat app]; rewrite ?app_nil_r; fixedArity; cbn [kindNo decBody];
      repeat first [step | erewrite dbind_ret by reflexivity]; rewrite !strOf_opt; reflexivity.
  - (* KReduce *) arity F. fixedArity. cbn [kindNo decBody]. repeat step. rewrite strOf_opt. reflexivity.
  - (* KPathBuild *) rewrite Hl. eexists; split; [reflexivity|]. intros f r Hf. apply many; assumption.
  - (* KAggregate *) arity F. cbn [concat app]. rewrite ?app_nil_r. fixedArity. cbn [kindNo decBody]. repeat step. reflexivity.
Qed.
End Codec.
