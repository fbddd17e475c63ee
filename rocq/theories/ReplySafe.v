(** Reading a response from arbitrary bytes ends, consumes bytes from the front, and does not depend on what follows. *)
From Coq Require Import String List.
From Verif Require Import Prelude ValueBase DateModel TimeModel HashModel ValueModel ValueProofs GraphModel AssocModel WireModel WireSafe ReplyModel.
Import ListNotations.
Local Open Scope list_scope.
Local Open Scope Z_scope.

Section Extend.
Variable t : str.
Local Notation ok := (WireSafe.ok t).
Ltac bind d1 d2 := apply (ok_bind t d1 d2); [lia| |intros].
Ltac got := first [apply ok_got|apply ok_throw].
Definition rowOk {A} (k : nat) (r r' : Z * Z * (A -> str -> rd A)) : Prop :=
  fst r = fst r' /\ forall a s, (List.length s < k)%nat -> ok 0 s (snd r a s) (snd r' a (s ++ t)).
Lemma row_ok {A} k (tb tb' : rows A) id ty : Forall2 (rowOk k) tb tb' ->
  match row tb id ty, row tb' id ty with
  | Some rf, Some rf' => forall a s, (List.length s < k)%nat -> ok 0 s (rf a s) (rf' a (s ++ t))
  | None, None => True
  | _, _ => False
  end.
Proof.
  induction 1 as [|[[i u] rf] [[i' u'] rf'] tb tb' [E H] F IH]; [exact I|]. cbn [fst snd] in E, H. injection E as <- <-. cbn [row]. destruct ((id =? i) && (ty =? u)); [exact H|exact IH].
Qed.
Lemma ok_members {A} (tb tb' : rows A) f f' : Forall2 (rowOk f) tb tb' -> (f <= f')%nat ->
  forall g g' cur seen a s, (List.length s < g)%nat -> (List.length s < f)%nat -> (g <= g')%nat ->
  ok 1 s (members tb (skip f true) g cur seen a s) (members tb' (skip f' true) g' cur seen a (s ++ t)).
Proof.
  intros T F. induction g as [|g IH]; intros g' cur seen a s L1 L2 L3; [lia|]. destruct g' as [|g']; [lia|]. cbn [members]. bind 1%nat 0%nat; [apply ok_field|]. rename a0 into h.
  destruct (snd h =? 0); [got|]. pose proof (row_ok f tb tb' (fst h) (snd h) T) as R. destruct (row tb _ _), (row tb' _ _); try contradiction.
  - bind 0%nat 0%nat; [apply R; lia|]. apply (ok_weak t 1); [lia|]. apply IH; lia.
  - bind 0%nat 0%nat; [apply (ok_skip t f f' true); lia|]. apply (ok_weak t 1); [lia|]. apply IH; lia.
Qed.
Lemma ok_struct {A} (tb tb' : rows A) req f f' a s : Forall2 (rowOk f) tb tb' -> (List.length s < f)%nat -> (f <= f')%nat ->
  ok 1 s (getStruct tb req f a s) (getStruct tb' req f' a (s ++ t)).
Proof. intros T L F. unfold getStruct. bind 1%nat 0%nat; [apply ok_members; assumption|]. destruct (forallb _ req); got. Qed.
Lemma row_into {A C} k id ty (g g' : str -> rd C) (upd : A -> C -> A) : (forall s, (List.length s < k)%nat -> ok 0 s (g s) (g' (s ++ t))) -> rowOk k (id, ty, into g upd) (id, ty, into g' upd).
Proof. intros H. split; [reflexivity|]. intros a s L. cbn [snd]. unfold into. bind 0%nat 0%nat; [apply H; exact L|got]. Qed.
Lemma ok_mapOf {K A} f f' eqb kt vt (gk gk' : str -> rd K) (g g' : str -> rd A) s : (f <= f')%nat -> (forall q, (List.length q < f)%nat -> ok 1 q (gk q) (gk' (q ++ t))) ->
  (forall q, (List.length q < f)%nat -> ok 1 q (g q) (g' (q ++ t))) -> (List.length s < f)%nat -> ok 1 s (getMapOf f eqb kt vt gk g s) (getMapOf f' eqb kt vt gk' g' (s ++ t)).
Proof.
  intros F HK HG L. unfold getMapOf. bind 1%nat 0%nat; [apply ok_mapHdr|]. destruct a as [[kt' vt'] n]. destruct ((kt' =? kt) && (vt' =? vt)).
  - apply (ok_times t _ _ f); [|lia|lia|lia]. intros b q Lq. bind 1%nat 1%nat; [apply HK; lia|]. bind 1%nat 0%nat; [apply HG; lia|got].
  - bind 0%nat 0%nat; [|got]. apply (ok_times t _ _ f); [|lia|lia|lia]. intros [] q Lq. bind 1%nat 1%nat; apply (ok_skip t f f' false); lia.
Qed.
Lemma ok_listOf {A} f f' et (e e' : str -> rd A) s : (f <= f')%nat -> (forall q, (List.length q < f)%nat -> ok 1 q (e q) (e' (q ++ t))) -> (List.length s < f)%nat ->
  ok 1 s (getList f et e s) (getList f' et e' (s ++ t)).
Proof. intros F E L. apply (ok_list t (fun _ _ => Throw) (fun _ _ => Throw)); [intros; exact I|exact F|exact E|exact L]. Qed.
Ltac rows_ := repeat (apply Forall2_cons; [apply row_into; intros|]); [..|apply Forall2_nil].
Ltac one := apply (ok_weak t 1); [lia|].
Ltac leaf := first [apply ok_got|one; first [apply ok_i32|apply ok_i64|apply ok_bin|apply ok_mapOf; [lia|intros; apply ok_bin|intros; apply ok_bin|lia]|apply ok_mapOf; [lia|intros; apply ok_i64|intros; apply ok_i64|lia]]|one].
Ltac struct := intros L F; apply ok_struct; [rows_; leaf|exact L|exact F].
Lemma ok_auth f f' a s : (List.length s < f)%nat -> (f <= f')%nat -> ok 1 s (getAuth f a s) (getAuth f' a (s ++ t)).
Proof. struct. Qed.
Lemma ok_addr f f' a s : (List.length s < f)%nat -> (f <= f')%nat -> ok 1 s (getAddr f a s) (getAddr f' a (s ++ t)).
Proof. struct. Qed.
Lemma ok_pair f f' s : (List.length s < f)%nat -> (f <= f')%nat -> ok 1 s (getPair f s) (getPair f' (s ++ t)).
Proof. struct. Qed.
Lemma ok_kv f f' a s : (List.length s < f)%nat -> (f <= f')%nat -> ok 1 s (getKV f a s) (getKV f' a (s ++ t)).
Proof. struct. Qed.
Lemma ok_branch f f' s : (List.length s < f)%nat -> (f <= f')%nat -> ok 1 s (getBranch f s) (getBranch f' (s ++ t)).
Proof. struct. Qed.
Lemma ok_prof f f' s : (List.length s < f)%nat -> (f <= f')%nat -> ok 1 s (getProf f s) (getProf f' (s ++ t)).
Proof. struct. Qed.
Lemma ok_node f f' s : (List.length s < f)%nat -> (f <= f')%nat -> ok 1 s (getNode f s) (getNode f' (s ++ t)).
Proof.
  struct.
  - apply ok_listOf; [exact F| |assumption]. intros; apply ok_pair; lia.
  - apply ok_listOf; [exact F| |assumption]. intros; apply ok_prof; lia.
  - apply ok_branch; lia.
  - apply ok_listOf; [exact F| |assumption]. intros; apply ok_i64.
Qed.
Lemma ok_plan f f' s : (List.length s < f)%nat -> (f <= f')%nat -> ok 1 s (getPlan f s) (getPlan f' (s ++ t)).
Proof. struct. apply ok_listOf; [exact F| |assumption]. intros; apply ok_node; lia. Qed.
Lemma ok_exec X f f' a s : (List.length s < f)%nat -> (f <= f')%nat -> ok 1 s (getExec X f a s) (getExec X f' a (s ++ t)).
Proof. struct; [apply ok_dataSet; [intros; apply ok_value; lia|exact F|assumption]|apply ok_plan; lia]. Qed.
End Extend.

(** * The values of the members that are not sent do not matter otherwise: reading into an object in use *)
Section Over.
Context {A : Type}.
(** [m a] is what reading into [old] gives when reading into a new object gives [a] *)
Variable tb : rows A.
Variable required : list Z.
Definition related (R : A -> A -> Prop) (o o' : rd (A * list Z)) : Prop :=
  match o, o' with
  | Got (a, l) s, Got (a', l') s' => R a a' /\ l = l' /\ s = s'
  | Throw, Throw | Abort, Abort | Indet, Indet | Beyond, Beyond | NoFuel, NoFuel => True
  | _, _ => False
  end.
Definition relatedA (R : A -> A -> Prop) (o o' : rd A) : Prop :=
  match o, o' with
  | Got a s, Got a' s' => R a a' /\ s = s'
  | Throw, Throw | Abort, Abort | Indet, Indet | Beyond, Beyond | NoFuel, NoFuel => True
  | _, _ => False
  end.
Lemma members_related (R : A -> A -> Prop) sk : Forall (fun r => forall a a' s, R a a' -> relatedA R (snd r a s) (snd r a' s)) tb ->
  forall g cur seen a a' s, R a a' -> related R (members tb sk g cur seen a s) (members tb sk g cur seen a' s).
Proof.
  intros F. assert (K : forall id ty rf, row tb id ty = Some rf -> forall a a' s, R a a' -> relatedA R (rf a s) (rf a' s)).
  { intros id ty rf. clear -F. induction F as [|[[i u] rf'] tb H F IH]; [discriminate|]. cbn [row]. destruct ((id =? i) && (ty =? u)); [intros E; injection E as <-; exact H|exact IH]. }
  induction g as [|g IH]; intros cur seen a a' s Ra; [exact I|]. cbn [members]. destruct (getField cur s) as [h r| | | | |]; cbn [rbind]; try exact I. destruct (snd h =? 0); [cbn; auto|].
  destruct (row tb (fst h) (snd h)) as [rf|] eqn:E.
  - specialize (K _ _ _ E a a' r Ra). destruct (rf a r), (rf a' r); cbn in K |- *; try contradiction; try exact I. destruct K as [K <-]. apply IH, K.
  - destruct (sk (snd h) r); cbn [rbind]; try exact I. apply IH, Ra.
Qed.
Lemma struct_related (R : A -> A -> Prop) f a a' s : Forall (fun r => forall a a' s, R a a' -> relatedA R (snd r a s) (snd r a' s)) tb -> R a a' ->
  relatedA R (getStruct tb required f a s) (getStruct tb required f a' s).
Proof.
  intros F Ra. unfold getStruct. pose proof (members_related R (skip f true) F f 0 [] a a' s Ra) as H. destruct (members tb _ f 0 [] a s) as [[x l] r| | | | |], (members tb _ f 0 [] a' s) as [[x' l'] r'| | | | |]; cbn in H |- *; try contradiction; try exact I.
  destruct H as (H & <- & <-). destruct (forallb _ required); [|exact I]. cbn. auto.
Qed.
End Over.
Lemma into_related {A C} (R : A -> A -> Prop) (g : str -> rd C) (upd : A -> C -> A) : (forall a a' x, R a a' -> R (upd a x) (upd a' x)) -> forall a a' s, R a a' -> relatedA R (into g upd a s) (into g upd a' s).
Proof. intros H a a' s Ra. unfold into. destruct (g s); cbn; auto. Qed.
