(** Reading arbitrary bytes ends, consumes bytes from the front, and its outcome does not change when bytes are appended. *)
From Coq Require Import String List.
From Verif Require Import Prelude ValueBase DateModel TimeModel HashModel ValueModel ValueProofs GraphModel AssocModel WireModel.
Import ListNotations.
Local Open Scope list_scope.
Local Open Scope Z_scope.

Section Extend.
(** the bytes appended *)
Variable t : str.
(** [o] is the outcome on [s] and [o'] that on [s ++ t]: at least [d] bytes were consumed, fuel was enough, and a reading
    that did not fail is the same *)
Definition ok {A} (d : nat) (s : str) (o o' : rd A) : Prop :=
  match o with
  | Got a r => (exists p, s = p ++ r /\ (d <= List.length p)%nat) /\ o' = Got a (r ++ t)
  | Throw => True
  | Abort => o' = Abort
  | Indet => o' = Indet
  | Beyond => o' = Beyond
  | NoFuel => False
  end.
Lemma ok_bind {A C} d1 d2 d s (m m' : rd A) (c c' : A -> str -> rd C) : (d <= d1 + d2)%nat -> ok d1 s m m' ->
  (forall a r, (List.length r + d1 <= List.length s)%nat -> ok d2 r (c a r) (c' a (r ++ t))) -> ok d s (rbind m c) (rbind m' c').
Proof.
  intros D H K. destruct m as [a r| | | | |]; cbn in H |- *; try contradiction; try (rewrite H; reflexivity); [|exact I].
  destruct H as [(p & -> & L) ->]. cbn. assert (L' : (List.length r + d1 <= List.length (p ++ r))%nat) by (rewrite app_length; lia). specialize (K a r L').
  destruct (c a r) as [x q| | | | |]; cbn in K |- *; try assumption. destruct K as [(p2 & -> & L2) ->]. split; [|reflexivity]. exists (p ++ p2). rewrite <- app_assoc, app_length. split; [reflexivity|lia].
Qed.
Lemma ok_weak {A} d d' s (m m' : rd A) : (d' <= d)%nat -> ok d s m m' -> ok d' s m m'.
Proof. intros D. destruct m; cbn; try tauto. intros [(p & E & L) H]. split; [exists p; split; [exact E|lia]|exact H]. Qed.
Lemma ok_got {A} (a : A) s : ok 0 s (Got a s) (Got a (s ++ t)).
Proof. cbn. split; [exists []; split; [reflexivity|cbn; lia]|reflexivity]. Qed.
Lemma ok_throw {A} d s (o : rd A) : ok d s Throw o.
Proof. exact I. Qed.
Lemma ok_byte s : ok 1 s (getByte s) (getByte (s ++ t)).
Proof. destruct s as [|b s]; cbn; [exact I|]. split; [exists [b]; split; [reflexivity|cbn; lia]|reflexivity]. Qed.
(** bind whose continuation consumes nothing more that counts *)
Ltac bind d1 d2 := apply (ok_bind d1 d2); [lia| |intros].
Ltac got := first [apply ok_got|apply ok_throw].
Lemma ok_var k s : ok 1 s (getVar k s) (getVar k (s ++ t)).
Proof.
  revert s. induction k as [|k IH]; intros s; [exact I|]. cbn [getVar]. bind 1%nat 0%nat; [apply ok_byte|]. destruct (a <? 128); [got|]. bind 0%nat 0%nat; [|got].
  apply (ok_weak 1); [lia|apply IH].
Qed.
Lemma ok_u32 s : ok 1 s (getU32 s) (getU32 (s ++ t)).
Proof. unfold getU32. bind 1%nat 0%nat; [apply ok_var|got]. Qed.
Lemma ok_i32 s : ok 1 s (getI32 s) (getI32 (s ++ t)).
Proof. unfold getI32. bind 1%nat 0%nat; [apply ok_u32|got]. Qed.
Lemma ok_i16 s : ok 1 s (getI16 s) (getI16 (s ++ t)).
Proof. unfold getI16. bind 1%nat 0%nat; [apply ok_i32|got]. Qed.
Lemma ok_i64 s : ok 1 s (getI64 s) (getI64 (s ++ t)).
Proof. unfold getI64. bind 1%nat 0%nat; [apply ok_var|got]. Qed.
Lemma ok_i8 s : ok 1 s (getI8 s) (getI8 (s ++ t)).
Proof. unfold getI8. bind 1%nat 0%nat; [apply ok_byte|got]. Qed.
Lemma ok_N n s : ok (Z.to_nat n) s (getN n s) (getN n (s ++ t)).
Proof.
  unfold getN. destruct (Z.of_nat (List.length s) <? n) eqn:E; [exact I|]. rewrite app_length. assert (Z.of_nat (List.length s + List.length t) <? n = false) as -> by lia.
  assert (L : (Z.to_nat n <= List.length s)%nat) by lia. cbn. split.
  - exists (firstn (Z.to_nat n) s). rewrite firstn_skipn, firstn_length. split; [reflexivity|lia].
  - rewrite firstn_app, skipn_app. replace (Z.to_nat n - List.length s)%nat with 0%nat by lia. rewrite firstn_O, skipn_O, app_nil_r. reflexivity.
Qed.
Lemma ok_double s : ok 1 s (getDouble s) (getDouble (s ++ t)).
Proof. unfold getDouble. bind 8%nat 0%nat; [apply (ok_N 8)|got]. Qed.
Lemma ok_size s : ok 1 s (getSize s) (getSize (s ++ t)).
Proof. unfold getSize. bind 1%nat 0%nat; [apply ok_u32|]. destruct (2147483648 <=? a); got. Qed.
Lemma ok_bin s : ok 1 s (getBin s) (getBin (s ++ t)).
Proof. unfold getBin. bind 1%nat 0%nat; [apply ok_size|]. apply (ok_weak (Z.to_nat a)); [lia|apply ok_N]. Qed.
Lemma ok_field last s : ok 1 s (getField last s) (getField last (s ++ t)).
Proof.
  unfold getField. bind 1%nat 0%nat; [apply ok_byte|]. cbv zeta. destruct (a mod 16 =? 0); [got|]. bind 0%nat 0%nat; [|destruct (14 <=? a mod 16); got].
  destruct (a / 16 =? 0); [apply (ok_weak 1); [lia|apply ok_i16]|got].
Qed.
Lemma ok_listHdr s : ok 1 s (getListHdr s) (getListHdr (s ++ t)).
Proof. unfold getListHdr. bind 1%nat 0%nat; [apply ok_byte|]. destruct (a / 16 =? 15); [|got]. bind 1%nat 0%nat; [apply ok_size|got]. Qed.
Lemma ok_mapHdr s : ok 1 s (getMapHdr s) (getMapHdr (s ++ t)).
Proof. unfold getMapHdr. bind 1%nat 0%nat; [apply ok_size|]. destruct (a =? 0); [got|]. bind 1%nat 0%nat; [apply ok_byte|got]. Qed.

Lemma ok_times {A} (step step' : A -> str -> rd A) k : (forall a s, (List.length s < k)%nat -> ok 1 s (step a s) (step' a (s ++ t))) ->
  forall f f' n a s, (List.length s < f)%nat -> (List.length s < k)%nat -> (f <= f')%nat -> ok 0 s (times step f n a s) (times step' f' n a (s ++ t)).
Proof.
  intros H. induction f as [|f IH]; intros f' n a s L1 L2 L3; [lia|]. destruct f' as [|f']; [lia|]. cbn [times]. destruct (n <=? 0); [got|].
  bind 1%nat 0%nat; [apply H; exact L2|]. apply IH; lia.
Qed.
Lemma ok_skip : forall (f f' : nat) (b : bool) (ty : Z) (s : str), (List.length s < f)%nat -> (f <= f')%nat -> ok (if b then 0%nat else 1%nat) s (skip f b ty s) (skip f' b ty (s ++ t)).
Proof.
  induction f as [|f IH]; intros f' b ty s L1 L2; [lia|]. destruct f' as [|f']; [lia|]. cbn [skip].
  assert (D : ((if b then 0%nat else 1%nat) <= 1)%nat) by (destruct b; lia).
  destruct ((ty =? 1) || (ty =? 2)). { destruct b; [got|]. bind 1%nat 0%nat; [apply ok_byte|got]. }
  destruct (ty =? tBYTE). { bind 1%nat 0%nat; [apply ok_byte|got]. }
  destruct ((ty =? tI16) || (ty =? tI32)). { bind 1%nat 0%nat; [apply ok_var|got]. }
  destruct (ty =? tI64). { bind 1%nat 0%nat; [apply ok_var|got]. }
  destruct (ty =? tDOUBLE). { bind 8%nat 0%nat; [apply (ok_N 8)|got]. }
  destruct (ty =? tFLOAT). { bind 4%nat 0%nat; [apply (ok_N 4)|got]. }
  destruct (ty =? tBIN). { bind 1%nat 0%nat; [apply ok_bin|got]. }
  destruct ((ty =? tLIST) || (ty =? tSET)).
  { bind 1%nat 0%nat; [apply ok_listHdr|]. apply (ok_times _ _ f); [|lia|lia|lia]. intros [] q Lq. apply (IH f' false); lia. }
  destruct (ty =? tMAP).
  { bind 1%nat 0%nat; [apply ok_mapHdr|]. destruct a as [[kt vt] n]. apply (ok_times _ _ f); [|lia|lia|lia]. intros [] q Lq. bind 1%nat 1%nat; [apply (IH f' false); lia|]. apply (IH f' false); lia. }
  destruct (ty =? tSTRUCT); [|got]. apply (ok_weak 1); [exact D|].
  assert (G : forall g g' last q, (List.length q < g)%nat -> (List.length q <= f)%nat -> (g <= g')%nat ->
    ok 1 q ((fix fields (g : nat) (last : Z) (s : str) : rd unit := match g with O => NoFuel | S g' => rbind (getField last s) (fun h r =>
                     if snd h =? 0 then Got tt r else rbind (skip f true (snd h) r) (fun _ => fields g' (fst h))) end) g last q)
           ((fix fields (g : nat) (last : Z) (s : str) : rd unit := match g with O => NoFuel | S g' => rbind (getField last s) (fun h r =>
                     if snd h =? 0 then Got tt r else rbind (skip f' true (snd h) r) (fun _ => fields g' (fst h))) end) g' last (q ++ t))).
  { induction g as [|g IHg]; intros g' last q Q1 Q2 Q3; [lia|]. destruct g' as [|g']; [lia|]. bind 1%nat 0%nat; [apply ok_field|].
    destruct (snd a =? 0); [got|]. bind 0%nat 0%nat; [apply (IH f' true); lia|]. apply (ok_weak 1); [lia|]. apply IHg; lia. }
  refine (G (S f) (S f') 0 s _ _ _); lia.
Qed.
Definition tablesOk {A} (k : nat) (table table' : Z -> option (Z * (A -> str -> rd A))) : Prop :=
  forall id, match table id, table' id with
             | Some (t1, rf), Some (t2, rf') => t1 = t2 /\ forall a s, (List.length s < k)%nat -> ok 0 s (rf a s) (rf' a (s ++ t))
             | None, None => True
             | _, _ => False
             end.
Lemma ok_fields {A} (table table' : Z -> option (Z * (A -> str -> rd A))) quick f f' : tablesOk f table table' -> (f <= f')%nat ->
  forall g g' cur d a s, (List.length s < g)%nat -> (List.length s < f)%nat -> (g <= g')%nat ->
  ok 1 s (fields table quick (skip f true) g cur d a s) (fields table' quick (skip f' true) g' cur d a (s ++ t)).
Proof.
  intros T F. induction g as [|g IH]; intros g' cur d a s L1 L2 L3; [lia|]. destruct g' as [|g']; [lia|]. cbn [fields]. bind 1%nat 0%nat; [apply ok_field|].
  rename a0 into h. destruct (if d then quick cur h else None) as [[id|]|].
  - specialize (T id). destruct (table id) as [[t1 rf]|], (table' id) as [[t2 rf']|]; try contradiction; [|got]. destruct T as [_ T]. bind 0%nat 0%nat; [apply T; lia|].
    apply (ok_weak 1); [lia|]. apply IH; lia.
  - got.
  - destruct (snd h =? 0); [got|]. specialize (T (fst h)). destruct (table (fst h)) as [[t1 rf]|], (table' (fst h)) as [[t2 rf']|]; try contradiction.
    + destruct T as [<- T]. destruct (snd h =? t1); [bind 0%nat 0%nat; [apply T; lia|]; apply (ok_weak 1); [lia|]; apply IH; lia|].
      bind 0%nat 0%nat; [apply (ok_skip f f' true); lia|]. apply (ok_weak 1); [lia|]. apply IH; lia.
    + bind 0%nat 0%nat; [apply (ok_skip f f' true); lia|]. apply (ok_weak 1); [lia|]. apply IH; lia.
Qed.
(** case analysis on a literal field id *)
Ltac ids id := destruct id as [|p|p]; try exact I; repeat (destruct p as [p|p|]; try exact I); split; try reflexivity; intros ? ? ?.
Lemma ok_date f f' s : (List.length s < f)%nat -> (f <= f')%nat -> ok 1 s (getDate f s) (getDate f' (s ++ t)).
Proof.
  intros L F. unfold getDate. apply ok_fields; try lia. intros id. ids id; bind 1%nat 0%nat; first [apply ok_i16|apply ok_i8|got].
Qed.
Lemma ok_time f f' s : (List.length s < f)%nat -> (f <= f')%nat -> ok 1 s (getTime f s) (getTime f' (s ++ t)).
Proof.
  intros L F. unfold getTime. apply ok_fields; try lia. intros id. ids id; bind 1%nat 0%nat; first [apply ok_i32|apply ok_i8|got].
Qed.
Lemma ok_dateTime f f' s : (List.length s < f)%nat -> (f <= f')%nat -> ok 1 s (getDateTime f s) (getDateTime f' (s ++ t)).
Proof.
  intros L F. unfold getDateTime. apply ok_fields; try lia. intros id. ids id; bind 1%nat 0%nat; first [apply ok_i32|apply ok_i16|apply ok_i8|got].
Qed.

Section Nested.
Variable rv rv' : value -> str -> rd value.
Variable f f' : nat.
Hypothesis RV : forall i s, (List.length s < f)%nat -> ok 1 s (rv i s) (rv' i (s ++ t)).
Hypothesis F : (f <= f')%nat.
Lemma ok_list {A} et (e e' : str -> rd A) s : (forall q, (List.length q < f)%nat -> ok 1 q (e q) (e' (q ++ t))) -> (List.length s < f)%nat ->
  ok 1 s (getList f et e s) (getList f' et e' (s ++ t)).
Proof.
  intros E L. unfold getList. bind 1%nat 0%nat; [apply ok_listHdr|]. destruct (fst a =? et).
  - apply (ok_times _ _ f); [|lia|lia|lia]. intros b q Lq. bind 1%nat 0%nat; [apply E; lia|got].
  - bind 0%nat 0%nat; [|got]. apply (ok_times _ _ f); [|lia|lia|lia]. intros [] q Lq. apply (ok_skip f f' false); lia.
Qed.
Lemma ok_props s : (List.length s < f)%nat -> ok 1 s (getProps rv f s) (getProps rv' f' (s ++ t)).
Proof.
  intros L. unfold getProps. bind 1%nat 0%nat; [apply ok_mapHdr|]. destruct a as [[kt vt] n]. destruct ((kt =? tBIN) && (vt =? tSTRUCT)).
  - apply (ok_times _ _ f); [|lia|lia|lia]. intros b q Lq. bind 1%nat 1%nat; [apply ok_bin|]. bind 1%nat 0%nat; [apply RV; lia|got].
  - bind 0%nat 0%nat; [|got]. apply (ok_times _ _ f); [|lia|lia|lia]. intros [] q Lq. bind 1%nat 1%nat; apply (ok_skip f f' false); lia.
Qed.
Ltac step := first [apply RV; lia|apply ok_props; lia|apply ok_bin|apply ok_i32|apply ok_i64|got|idtac].
Lemma ok_tag s : (List.length s < f)%nat -> ok 1 s (getTag rv f s) (getTag rv' f' (s ++ t)).
Proof. intros L. unfold getTag. apply ok_fields; try lia. intros id. ids id; bind 1%nat 0%nat; step. Qed.
Lemma ok_vertex v s : (List.length s < f)%nat -> ok 1 s (getVertexInto rv f v s) (getVertexInto rv' f' v (s ++ t)).
Proof. intros L. unfold getVertexInto. apply ok_fields; try lia. intros id. ids id; bind 1%nat 0%nat; step. apply ok_list; [exact ok_tag|lia]. Qed.
Lemma ok_edge s : (List.length s < f)%nat -> ok 1 s (getEdge rv f s) (getEdge rv' f' (s ++ t)).
Proof.
  intros L. unfold getEdge. bind 1%nat 0%nat; [|destruct a as [[e bt] br]; destruct (bt && br); [got|reflexivity]].
  apply ok_fields; try lia. intros id. ids id; destruct a as [[e bt] br]; bind 1%nat 0%nat; step.
Qed.
Lemma ok_step s : (List.length s < f)%nat -> ok 1 s (getStep rv f s) (getStep rv' f' (s ++ t)).
Proof. intros L. unfold getStep. apply ok_fields; try lia. intros id. ids id; bind 1%nat 0%nat; step. apply ok_vertex; lia. Qed.
Lemma ok_path s : (List.length s < f)%nat -> ok 1 s (getPath rv f s) (getPath rv' f' (s ++ t)).
Proof.
  intros L. unfold getPath. apply ok_fields; try lia. intros id. ids id; bind 1%nat 0%nat; step; [apply ok_list; [exact ok_step|lia]|apply ok_vertex; lia].
Qed.
Lemma ok_row s : (List.length s < f)%nat -> ok 1 s (getRow rv f s) (getRow rv' f' (s ++ t)).
Proof. intros L. unfold getRow. apply ok_fields; try lia. intros id. ids id. apply (ok_weak 1); [lia|]. apply ok_list; [intros; apply RV; lia|lia]. Qed.
Lemma ok_map s : (List.length s < f)%nat -> ok 1 s (getMap rv f s) (getMap rv' f' (s ++ t)).
Proof. intros L. unfold getMap. apply ok_fields; try lia. intros id. ids id. apply (ok_weak 1); [lia|]. apply ok_props; lia. Qed.
Lemma ok_dataSet s : (List.length s < f)%nat -> ok 1 s (getDataSet rv f s) (getDataSet rv' f' (s ++ t)).
Proof.
  intros L. unfold getDataSet. apply ok_fields; try lia. intros id. ids id; bind 1%nat 0%nat; step; apply ok_list; try lia; [exact ok_row|intros; apply ok_bin].
Qed.
Variable X : externals.
Lemma ok_set s : (List.length s < f)%nat -> ok 1 s (getSet rv f X s) (getSet rv' f' X (s ++ t)).
Proof.
  intros L. unfold getSet. apply ok_fields; try lia. intros id. ids id. apply (ok_weak 1); [lia|]. unfold getSetElems. bind 1%nat 0%nat; [apply ok_listHdr|]. destruct (fst a0 =? tSTRUCT).
  - apply (ok_times _ _ f); [|lia|lia|lia]. intros b q Lq. bind 1%nat 0%nat; [apply RV; lia|]. unfold setInsert. destruct (vhash X _); try reflexivity. got.
  - bind 0%nat 0%nat; [|got]. apply (ok_times _ _ f); [|lia|lia|lia]. intros [] q Lq. apply (ok_skip f f' false); lia.
Qed.
Lemma ok_member i id ty s : (List.length s < f)%nat -> ok 0 s (getMember X rv f i id ty s) (getMember X rv' f' i id ty (s ++ t)).
Proof.
  intros L.
  assert (S : ok 0 s (rbind (skip f true ty s) (fun _ r => Got i r)) (rbind (skip f' true ty (s ++ t)) (fun _ r => Got i r))).
  { bind 0%nat 0%nat; [apply (ok_skip f f' true); lia|got]. }
  unfold getMember.
  destruct id as [|p|p]; try exact S; repeat (destruct p as [p|p|]; try exact S); cbv zeta;
    match goal with |- context [if ?c then _ else _] => destruct c; [|exact S] end.
  all: try (bind 1%nat 0%nat; [|got]).
  all: first [apply ok_i64|apply ok_double|apply ok_bin|apply ok_date; lia|apply ok_time; lia|apply ok_dateTime; lia|apply ok_vertex; lia|apply ok_edge; lia|apply ok_path; lia
    |apply ok_row; lia|apply ok_map; lia|apply ok_set; lia|apply ok_dataSet; lia|got|idtac].
  bind 1%nat 0%nat; [apply ok_i32|]. destruct (nullOf a); [got|reflexivity].
Qed.
End Nested.

Variable X : externals.
Theorem ok_value : forall f f' i s, (List.length s < f)%nat -> (f <= f')%nat -> ok 1 s (getValue X f i s) (getValue X f' i (s ++ t)).
Proof.
  induction f as [|f IH]; intros f' i s L F; [lia|]. destruct f' as [|f']; [lia|]. cbn [getValue]. bind 1%nat 0%nat; [apply ok_field|]. destruct (snd a =? 0); [got|].
  bind 0%nat 0%nat; [apply ok_member; [intros; apply IH; lia|lia|lia]|]. bind 1%nat 0%nat; [apply ok_field|]. destruct (snd a1 =? 0); got.
Qed.
End Extend.
