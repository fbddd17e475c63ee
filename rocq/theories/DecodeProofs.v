(** Lemmas about decoding expressions from any bytes. *)
From Verif Require Import Prelude ValueBase DateModel TimeModel ValueModel ExprModel ExprSpec ExprProofs.
From Coq Require Import Lia.
Local Open Scope list_scope.
Local Open Scope Z_scope.

(** * Specification: a node with none of its sub-expressions missing *)
Definition wholeNode (k : kind) (cs : list expr) : Prop :=
  let arity n := List.length cs = n in
  match k with
  | KArith _ | KRel _ | KSubscript | KAttr => arity 2%nat
  | KUnary _ | KCast _ | KAggregate _ _ => arity 1%nat
  | KRange lo hi => arity (1 + bit lo + bit hi)%nat
  | KPredicate _ _ _ f => arity (1 + bit f)%nat
  | KListComp _ _ f m => arity (1 + bit f + bit m)%nat
  | KReduce _ _ _ => arity 3%nat
  | KMap keys => arity (List.length keys)
  | KCase _ c d => exists n, arity (bit c + bit d + 2 * n)%nat
  | KLogical _ | KCall _ | KList | KSet | KPathBuild => True
  | KVersioned _ _ | KTextSearch _ | KLabelAttr => False
  | _ => arity 0%nat
  end.
Definition whole (e : expr) : Prop := allNodes wholeNode e.

(** A serializer that reads from the front and does not look at what follows *)
Definition codecReads (VC : vcodec) : Prop :=
  forall b v r, vdec VC b = Some (v, r) -> (exists p, b = p ++ r) /\ forall t, vdec VC (b ++ t) = Some (v, r ++ t).

Section Read.
Variable VC : vcodec.
Hypothesis HC : codecReads VC.
Variable t : list Z.

(** Of fewer than L bytes, m ends, takes at least n from the front, gives something in Q, and m' gives the same when t follows *)
Definition rd {A} (n L : nat) (Q : A -> Prop) (m m' : dec A) : Prop := forall b, (List.length b < L)%nat ->
  match m b with
  | Ret (a, r) => (exists p, b = p ++ r /\ (n <= List.length p)%nat) /\ m' (b ++ t) = Ret (a, r ++ t) /\ Q a
  | Diverge => False
  | _ => True
  end.
Lemma rd_ret {A} L (Q : A -> Prop) a : Q a -> rd 0 L Q (dret a) (dret a).
Proof. intros q b _. cbn. split; [exists []; split; [reflexivity|cbn; lia]|auto]. Qed.
Lemma rd_fail {A} n L (Q : A -> Prop) : rd n L Q dfail dfail.
Proof. intros b _. exact Logic.I. Qed.
Lemma rd_bind {A C} n k L (Q : A -> Prop) (R : C -> Prop) m m' (f f' : A -> dec C) :
  rd n L Q m m' -> (forall a, Q a -> rd k (L - n) R (f a) (f' a)) -> rd (n + k) L R (dbind m f) (dbind m' f').
Proof.
  intros H K b Hb. unfold dbind. specialize (H b Hb). destruct (m b) as [[a r]| | |]; auto.
  destruct H as ((p & Ep & Lp) & E & q). rewrite E. assert (Lr : (List.length r < L - n)%nat) by (subst b; rewrite app_length in Hb; lia).
  specialize (K a q r Lr). destruct (f a r) as [[c r']| | |]; auto. destruct K as ((p' & Ep' & Lp') & E' & q').
  split; [|auto]. exists (p ++ p'). rewrite app_length, <- app_assoc, <- Ep', <- Ep. split; [reflexivity|lia].
Qed.
Lemma rd_weaken {A} n n' L L' (Q R : A -> Prop) m m' : rd n L Q m m' -> (n' <= n)%nat -> (L' <= L)%nat -> (forall a, Q a -> R a) -> rd n' L' R m m'.
Proof.
  intros H Hn HL HQ b Hb. specialize (H b ltac:(lia)). destruct (m b) as [[a r]| | |]; auto. destruct H as ((p & Ep & Lp) & E & q).
  split; [exists p; split; [exact Ep|lia]|auto].
Qed.
(** a bind of which nothing is known to be taken *)
Lemma rd_then {A C} n L (Q : A -> Prop) (R : C -> Prop) m m' (f f' : A -> dec C) :
  rd n L Q m m' -> (forall a, Q a -> rd 0 L R (f a) (f' a)) -> rd 0 L R (dbind m f) (dbind m' f').
Proof.
  intros H K. eapply rd_weaken with (n := (n + 0)%nat) (L := L) (Q := R); [|lia|lia|auto]. eapply rd_bind; [exact H|].
  intros a q. eapply rd_weaken; [apply K; exact q|lia|lia|auto].
Qed.
Lemma rd_first {A C} n L (Q : A -> Prop) (R : C -> Prop) m m' (f f' : A -> dec C) :
  rd n L Q m m' -> (forall a, Q a -> rd 0 (L - n) R (f a) (f' a)) -> rd n L R (dbind m f) (dbind m' f').
Proof. intros H K. rewrite <- (Nat.add_0_r n). eapply rd_bind; [exact H|exact K]. Qed.
Definition any {A} (a : A) : Prop := True.
Lemma rd_kind L : rd 1 L (@any Z) readKind readKind.
Proof. intros [|x b] _; [exact Logic.I|]. cbn. split; [|split; [reflexivity|exact Logic.I]]. exists [x]. split; [reflexivity|cbn; lia]. Qed.
Lemma front {A} n (b : list A) : (n <= List.length b)%nat -> firstn n (b ++ []) = firstn n b.
Proof. intros _. now rewrite app_nil_r. Qed.
Lemma first_app n (b : list Z) : (n <= List.length b)%nat -> firstn n (b ++ t) = firstn n b /\ skipn n (b ++ t) = skipn n b ++ t.
Proof.
  intros H. rewrite firstn_app, skipn_app. replace (n - List.length b)%nat with 0%nat by lia. cbn. now rewrite app_nil_r.
Qed.
Lemma rd_size L : rd 8 L (@any Z) readSize readSize.
Proof.
  intros b _. unfold readSize. destruct (Nat.ltb_spec (List.length b) 8) as [C|C]; [exact Logic.I|].
  destruct (first_app 8 b C) as [E1 E2]. rewrite E1, E2, app_length. destruct (Nat.ltb_spec (List.length b + List.length t) 8); [lia|].
  split; [exists (firstn 8 b); rewrite firstn_skipn, firstn_length; split; [reflexivity|lia]|]. split; [reflexivity|exact Logic.I].
Qed.
Lemma leVal_nonneg l : Forall (fun x => 0 <= x) l -> 0 <= leVal l.
Proof. induction 1; cbn [leVal]; lia. Qed.
Lemma rd_str L : rd 8 L (@any str) readStr readStr.
Proof.
  intros b _. unfold readStr. destruct (Nat.ltb_spec (List.length b) 8) as [C|C]; [exact Logic.I|].
  destruct (first_app 8 b C) as [E1 E2]. rewrite E1, E2, app_length. destruct (Nat.ltb_spec (List.length b + List.length t) 8); [lia|].
  cbv zeta. destruct (2 ^ 63 <=? _); [exact Logic.I|]. set (n := leVal (firstn 8 b)).
  destruct (Z.ltb_spec (Z.of_nat (List.length (skipn 8 b))) n) as [D|D]; [exact Logic.I|].
  rewrite app_length. destruct (Z.ltb_spec (Z.of_nat (List.length (skipn 8 b) + List.length t)) n); [lia|].
  destruct (first_app (Z.to_nat n) (skipn 8 b) ltac:(lia)) as [E3 E4]. rewrite E3, E4.
  split; [|split; [reflexivity|exact Logic.I]]. exists (firstn 8 b ++ firstn (Z.to_nat n) (skipn 8 b)).
  rewrite <- app_assoc, !firstn_skipn, app_length, firstn_length. split; [reflexivity|lia].
Qed.
Lemma rd_value L : rd 0 L (@any value) (readValue VC) (readValue VC).
Proof.
  intros b _. unfold readValue. destruct (vdec VC b) as [[v r]|] eqn:E; [|exact Logic.I]. destruct (HC b v r E) as [[p Ep] Ht].
  rewrite Ht. split; [exists p; split; [exact Ep|lia]|]. split; [reflexivity|exact Logic.I].
Qed.
Lemma rd_bool L : rd 0 L (@any bool) (readBool VC) (readBool VC).
Proof. eapply rd_then; [apply rd_value|]. intros [] _; try apply rd_fail. apply rd_ret. exact Logic.I. Qed.
Lemma rd_int L : rd 0 L (@any Z) (readInt VC) (readInt VC).
Proof. eapply rd_then; [apply rd_value|]. intros [] _; try apply rd_fail. apply rd_ret. exact Logic.I. Qed.
Definition optAll {A} (c : bool) (Q : A -> Prop) (o : option A) : Prop := match o with Some a => c = true /\ Q a | None => c = false end.
Lemma rd_opt {A} c n L (Q : A -> Prop) m m' : rd n L Q m m' -> rd 0 L (optAll c Q) (readOpt c m) (readOpt c m').
Proof.
  intros H. unfold readOpt. destruct c; [|apply rd_ret; reflexivity]. eapply rd_then; [exact H|]. intros a q. apply rd_ret. split; [reflexivity|exact q].
Qed.
Lemma rd_many {A} (Q : A -> Prop) item item' g : forall g' L n, rd 1 L Q item item' -> (L <= g)%nat -> (g <= g')%nat ->
  rd 0 L (Forall Q) (readMany item g n) (readMany item' g' n).
Proof.
  induction g as [|g IH]; intros g' L n H HL Hg.
  - intros b Hb. lia.
  - destruct g' as [|g']; [lia|]. cbn [readMany]. destruct (n <=? 0); [apply rd_ret; constructor|].
    eapply rd_weaken with (n := 1%nat) (L := L) (Q := Forall Q); [eapply rd_first; [exact H|]|lia|lia|auto].
    intros a q. eapply rd_then; [eapply (IH g' (L - 1)%nat); [eapply rd_weaken; [exact H|lia|lia|auto]|lia|lia]|].
    intros l Hl. apply rd_ret. constructor; assumption.
Qed.

Section Node.
Variables (f f' : nat) (readE readE' : dec expr).
Hypothesis HE : rd 1 f whole readE readE'.
Hypothesis Hf : (f <= f')%nat.
Lemma node_whole k cs : wholeNode k cs -> Forall whole cs -> whole (Node k cs).
Proof. intros H F. split; [exact H|]. now apply fold_and_Forall. Qed.
Ltac node := apply rd_ret; apply node_whole; [cbn; auto|repeat (constructor; auto)].
Ltac nxt := eapply rd_then; [first [exact HE | apply rd_size | apply rd_str | apply rd_value | apply rd_bool | apply rd_int
                             | eapply rd_opt; first [exact HE | apply rd_str] ]|intros ? ?].
Lemma rd_unary k : wholeNode k [Node KVertex []] -> (forall a b, wholeNode k [a] -> wholeNode k [b]) -> rd 0 f whole (unaryNode readE k) (unaryNode readE' k).
Proof. intros H1 H2. unfold unaryNode. nxt. apply rd_ret. apply node_whole; [eapply H2; exact H1|constructor; auto]. Qed.
Lemma rd_binary k : (forall a b, wholeNode k [a; b]) -> rd 0 f whole (binaryNode readE k) (binaryNode readE' k).
Proof. intros H1. unfold binaryNode. nxt. nxt. apply rd_ret. apply node_whole; [apply H1|repeat (constructor; auto)]. Qed.
Lemma rd_manyNode k : (forall l, wholeNode k l) -> rd 0 f whole (manyNode readE k f) (manyNode readE' k f').
Proof.
  intros H1. unfold manyNode. nxt. eapply rd_then; [apply rd_many; [exact HE|lia|lia]|]. intros cs F. apply rd_ret. apply node_whole; [apply H1|exact F].
Qed.
Lemma rd_prop p : rd 0 f whole (propNode p) (propNode p).
Proof. unfold propNode. do 3 nxt. node. Qed.
Lemma optLen c o : optAll c whole o -> List.length (opt1 o) = bit c /\ Forall whole (opt1 o).
Proof. destruct o; cbn; [intros [-> q]; split; [reflexivity|repeat constructor; exact q]|intros ->; split; [reflexivity|constructor]]. Qed.
Lemma rd_pair : rd 1 f (fun p => whole (fst p) /\ whole (snd p)) (readPair readE) (readPair readE').
Proof.
  unfold readPair. eapply rd_first; [exact HE|].
  intros w Hw. eapply rd_then; [eapply rd_weaken; [exact HE|apply Nat.le_refl|lia|intros ? q; exact q]|]. intros x Hx. apply rd_ret. split; assumption.
Qed.
Lemma rd_entry : rd 1 f (fun p => whole (snd p)) (readEntry readE) (readEntry readE').
Proof.
  unfold readEntry. eapply rd_weaken with (n := 8%nat) (L := f) (Q := fun p => whole (snd p)); [eapply rd_first; [apply rd_str|]|lia|lia|auto].
  intros w Hw. eapply rd_then; [eapply rd_weaken; [exact HE|apply Nat.le_refl|lia|intros ? q; exact q]|]. intros x Hx. apply rd_ret. assumption.
Qed.
Lemma flatLen (ps : list (expr * expr)) : List.length (flat_map (fun p => [fst p; snd p]) ps) = (2 * List.length ps)%nat.
Proof. induction ps; cbn in *; lia. Qed.
Lemma rd_body k : rd 0 f whole (decBody VC readE f k) (decBody VC readE' f' k).
Proof.
  unfold decBody.
  repeat match goal with |- rd _ _ _ (match ?x with _ => _ end) _ => destruct x end; try apply rd_fail;
    first [apply rd_binary; reflexivity | apply rd_unary; [reflexivity|auto] | apply rd_manyNode; intros; exact Logic.I | apply rd_prop | idtac ].
  all: repeat first [nxt | match goal with |- rd _ _ _ (if ?c then _ else _) _ => destruct c end]; try node.
  all: repeat match goal with H : optAll _ whole _ |- _ => apply optLen in H; destruct H end.
  all: try (rewrite ?app_length; congruence); try (rewrite ?app_length; lia); try (apply Forall_app; split; assumption); try assumption.
  - eapply rd_then; [apply rd_many; [apply rd_pair|lia|lia]|]. intros ps F. apply rd_ret. apply node_whole.
    + exists (List.length ps). rewrite !app_length, flatLen. lia.
    + apply Forall_app. split; [assumption|]. apply Forall_app. split; [assumption|]. induction F as [|[x y] ps [P Q] _ IH]; cbn; repeat constructor; auto.
  - eapply rd_then; [apply rd_many; [exact HE|lia|lia]|]. intros ps F. apply rd_ret. apply node_whole; [exact Logic.I|exact F].
  - eapply rd_then; [apply rd_many; [apply rd_entry|lia|lia]|]. intros ps F. apply rd_ret. apply node_whole; [cbn; now rewrite !map_length|].
    apply Forall_map. exact F.
Qed.
End Node.
Lemma rd_expr f : forall f', (f <= f')%nat -> rd 1 f whole (readExpr VC f) (readExpr VC f').
Proof.
  induction f as [|f IH]; intros f' Hf; [intros b Hb; lia|]. destruct f' as [|f']; [lia|]. cbn [readExpr].
  eapply rd_first; [apply rd_kind|].
  intros k _. replace (S f - 1)%nat with f by lia. apply rd_body; [apply IH; lia|lia].
Qed.
End Read.
