(** C31, C76-C78: values and column expressions on the wire. *)
From Coq Require Import String List.
From Verif Require Import Prelude ValueBase FloatProofs DateModel TimeModel HashModel ValueModel ValueProofs GraphModel AssocModel WireModel WireSpec WireProofs WireSafe.
From Verif Require Import ExprModel ExprSpec ExprProofs ExprProps ValueProps.
Import ListNotations.
Local Open Scope list_scope.
Local Open Scope Z_scope.

(** * C76 *)
(** A value that can be sent arrives, apart from the sizes of its edge types, and its bytes are all that is read *)
Theorem C76_value_arrives X v : sendable X v -> readWire X (putValue v) = Got (carried v) [].
Proof. intros H. unfold readWire. pose proof (getValue_ok X v H (S (List.length (putValue v))) VEmpty [] ltac:(lia)) as E. rewrite app_nil_r in E. exact E. Qed.
(** Whatever follows the value stays unread, whatever object it is read into *)
Theorem C76_rest_stays X v init rest f : sendable X v -> (List.length (putValue v) <= f)%nat -> getValue X f init (putValue v ++ rest) = Got (carried v) rest.
Proof. intros H L. apply getValue_ok; assumption. Qed.

(** edge types are directions: nothing is lost *)
Definition direction (z : Z) : Prop := z = -1 \/ z = 0 \/ z = 1.
Definition nodeDirected (v : value) : Prop :=
  match v with
  | VEdge e => direction (etype e)
  | VPath p => forall s, In s (psteps p) -> direction (stype s)
  | _ => True
  end.
Inductive directed : value -> Prop := directed_intro v : nodeDirected v -> (forall c, In c (subvals v) -> directed c) -> directed v.
Lemma map_same {A} (g : A -> A) l : (forall x, In x l -> g x = x) -> map g l = l.
Proof. intros H. transitivity (map (fun x => x) l); [apply map_ext_in; exact H|apply map_id]. Qed.
Lemma props_same m : (forall c, In c (map snd m) -> carried c = c) -> carryProps carried m = m.
Proof. intros H. apply map_same. intros [k v] Hv. cbn [fst snd]. rewrite H; [reflexivity|]. apply (in_map snd) in Hv. exact Hv. Qed.
Lemma vertex_same x : (forall c, In c (vertexVals x) -> carried c = c) -> carryVertex carried x = x.
Proof.
  intros H. destruct x as [i ts]. unfold carryVertex. cbn [vvid vtags]. rewrite (H i) by (left; reflexivity). f_equal. apply map_same. intros [n ps] Ht. unfold carryTag. cbn [tgname tgprops].
  f_equal. apply props_same. intros c Hc. apply H. right. apply in_flat_map. exists (mkTag n ps). split; [exact Ht|exact Hc].
Qed.
Theorem C76_directions_arrive_whole X v : sendable X v -> directed v -> readWire X (putValue v) = Got v [].
Proof.
  intros S D. rewrite C76_value_arrives by exact S. f_equal. clear S. revert v D. apply (value_sub_ind (fun v => directed v -> carried v = v)). intros v IH D. inversion D as [v' N C E]; subst v'.
  assert (G : forall c, In c (subvals v) -> carried c = c) by (intros c Hc; apply IH; [exact Hc|apply C, Hc]). clear IH C D.
  assert (SG : forall z, direction z -> Z.sgn z = z) by (intros z [-> | [-> | ->]]; reflexivity).
  destruct v as [|n|b|z|x|x|d|t|t|x|e|p|l|m|l|d]; try reflexivity; cbn [carried]; f_equal.
  - apply vertex_same, G.
  - destruct e as [s d ty n r ps]. unfold carryEdge. cbn in *. rewrite (G s), (G d), SG by auto. f_equal. apply props_same. auto.
  - destruct p as [s ss]. unfold carryPath. cbn [psrc psteps] in *. f_equal; [apply vertex_same; intros c Hc; apply G, in_or_app; left; exact Hc|]. apply map_same. intros st Hs.
    specialize (N st Hs). assert (K : forall c, In c (stepVals st) -> carried c = c) by (intros c Hc; apply G, in_or_app; right; apply in_flat_map; exists st; auto).
    destruct st as [d ty n r ps]. unfold carryStep. cbn [sdst stype sname srank sprops] in *. rewrite SG by exact N. f_equal; [apply vertex_same|apply props_same]; intros c Hc; apply K, in_or_app; auto.
  - apply map_same, G.
  - apply props_same, G.
  - apply map_same, G.
  - destruct d as [cs rs]. cbn [dcols drows subvals] in *. f_equal. apply map_same. intros r Hr. apply map_same. intros c Hc. apply G, in_concat. exists r. auto.
Qed.

(** What is written is bytes *)
Definition bytes (s : str) : Prop := Forall byte s.
Lemma bytes_app a b : bytes a -> bytes b -> bytes (a ++ b).
Proof. intros A C. apply Forall_app. auto. Qed.
Lemma bytes_flat {A} (w : A -> str) l : (forall x, In x l -> bytes (w x)) -> bytes (flat_map w l).
Proof. induction l; intros H; [constructor|]. cbn. apply bytes_app; [apply H; left; reflexivity|apply IHl; intros; apply H; right; assumption]. Qed.
Lemma bytes_var : forall k n, 0 <= n < 128 ^ Z.of_nat (S k) -> bytes (putVar (S k) n).
Proof.
  induction k as [|k IH]; intros n H.
  - change (128 ^ Z.of_nat 1) with 128 in H. cbn [putVar]. assert (n <? 128 = true) as -> by lia. constructor; [unfold byte; lia|constructor].
  - rewrite (Nat2Z.inj_succ (S k)), Z.pow_succ_r in H by lia. assert (0 < 128 ^ Z.of_nat (S k)) by (apply Z.pow_pos_nonneg; lia). revert IH H H0. generalize (S k). intros j IH H H0.
    cbn [putVar]. destruct (n <? 128) eqn:E; [constructor; [unfold byte; lia|constructor]|]. constructor; [unfold byte; lia|]. apply IH. nia.
Qed.
Lemma bytes_u32 n : 0 <= n < 4294967296 -> bytes (putVar 5 n).
Proof. intros H. apply bytes_var. change (128 ^ Z.of_nat 5) with 34359738368. lia. Qed.
Lemma bytes_size n : bytes (putVar 5 (u32 (Z.of_nat n))).
Proof. apply bytes_u32. unfold u32. lia. Qed.
Lemma bytes_i32 n : inRange int32_min int32_max n -> bytes (putI32 n).
Proof. unfold inRange, int32_min, int32_max. intros H. apply bytes_u32. unfold zigzag. destruct (0 <=? n) eqn:E; lia. Qed.
Lemma bytes_i16 n : inRange int16_min int16_max n -> bytes (putI16 n).
Proof. unfold inRange, int16_min, int16_max. intros H. apply bytes_u32. unfold zigzag. destruct (0 <=? n) eqn:E; lia. Qed.
Lemma bytes_i64 n : inRange int64_min int64_max n -> bytes (putI64 n).
Proof.
  unfold inRange, int64_min, int64_max. intros H. apply bytes_var. change (128 ^ Z.of_nat 10) with 1180591620717411303424. unfold zigzag. destruct (0 <=? n) eqn:E; lia.
Qed.
Lemma bytes_byte n : bytes (putByte n).
Proof. constructor; [unfold byte; lia|constructor]. Qed.
Lemma bytes_bin s : strOk s -> bytes (putBin s).
Proof. intros [_ H]. apply bytes_app; [apply bytes_size|exact H]. Qed.
Lemma bytes_double x : bytes (putDouble x).
Proof.
  unfold putDouble, bytes. apply Forall_rev. generalize (f64bits x). generalize 8%nat. induction n; intros z; cbn [leBytes]; constructor; [unfold byte; lia|apply IHn].
Qed.
Lemma bytes_field last id t : 0 < id - last <= 15 -> 0 <= t < 16 -> bytes (putField last id t).
Proof. intros H H2. unfold putField. assert ((0 <? id - last) && (id - last <=? 15) = true) as -> by lia. constructor; [unfold byte; lia|constructor]. Qed.
Lemma bytes_stop : bytes putStop.
Proof. constructor; [unfold byte; lia|constructor]. Qed.
Lemma bytes_listHdr t n : 0 <= t < 16 -> bytes (putListHdr t n).
Proof.
  intros H. unfold putListHdr. cbv zeta. assert (0 <= u32 (Z.of_nat n)) by (unfold u32; lia).
  destruct (u32 (Z.of_nat n) <=? 14) eqn:E; constructor; [unfold byte; lia|constructor|unfold byte; lia|apply bytes_size].
Qed.
Lemma bytes_mapHdr k v n : 0 <= k < 16 -> 0 <= v < 16 -> bytes (putMapHdr k v n).
Proof.
  intros H H2. unfold putMapHdr. cbv zeta. destruct (u32 (Z.of_nat n) =? 0); [exact bytes_stop|]. apply bytes_app; [apply bytes_size|]. constructor; [unfold byte; lia|constructor].
Qed.
Ltac tys := unfold tBYTE, tI16, tI32, tI64, tDOUBLE, tBIN, tLIST, tSET, tMAP, tSTRUCT; lia.
Ltac bys := repeat (first [match goal with |- bytes (_ ++ _) => apply bytes_app end|apply bytes_stop|apply bytes_byte|apply bytes_double|apply bytes_field; [lia|tys]|apply bytes_listHdr; tys]).
Lemma bytes_props m : propsOk m -> (forall c, In c (map snd m) -> bytes (putValue c)) -> bytes (putProps putValue m).
Proof.
  intros (P1 & P2 & P3) H. apply bytes_app; [apply bytes_mapHdr; tys|]. apply bytes_flat. intros [k v] Hv. apply bytes_app; [exact (bytes_bin _ (P3 k v Hv))|].
  apply H. apply (in_map snd) in Hv. exact Hv.
Qed.
Lemma bytes_vertex x : vertexOk x -> (forall c, In c (vertexVals x) -> bytes (putValue c)) -> bytes (putVertex putValue x).
Proof.
  intros [V1 V2] H. unfold putVertex. bys; [apply H; left; reflexivity|]. apply bytes_flat. intros t Ht. destruct (V2 t Ht) as [T1 T2]. unfold putTag. bys; [apply bytes_bin, T1|].
  apply bytes_props; [exact T2|]. intros c Hc. apply H. right. apply in_flat_map. exists t. auto.
Qed.
Theorem C76_writes_bytes X v : sendable X v -> Forall (fun b => 0 <= b < 256) (putValue v).
Proof.
  change (sendable X v -> bytes (putValue v)). revert v. apply (value_sub_ind (fun v => sendable X v -> bytes (putValue v))). intros v IH S. inversion S as [v' N C E]; subst v'.
  assert (G : forall c, In c (subvals v) -> bytes (putValue c)) by (intros c Hc; apply IH; [exact Hc|apply C, Hc]). clear IH C S.
  destruct v as [|n|b|z|x|x|d|t|t|x|e|p|l|m|l|d]; cbn [putValue nodeOk subvals] in *; bys.
  - apply bytes_i32. unfold inRange, int32_min, int32_max. destruct n; cbn; lia.
  - apply bytes_field; [lia|destruct b; lia].
  - apply bytes_i64, N.
  - apply bytes_bin, N.
  - destruct N as (N1 & N2 & N3). unfold putDate. bys. apply bytes_i16, N1.
  - destruct N as (N1 & N2 & N3 & N4). unfold putTime. bys. apply bytes_i32, N4.
  - destruct N as (N1 & N2 & N3 & N4 & N5 & N6 & N7). unfold putDateTime. bys; [apply bytes_i16, N1|]. apply bytes_i32. unfold inRange, int32_min, int32_max in *. lia.
  - apply bytes_vertex; assumption.
  - destruct N as (N1 & N2 & N3 & N4). unfold putEdge. bys; [apply G; left; reflexivity|apply G; right; left; reflexivity|apply bytes_i32, wireType_sgn, N1|apply bytes_bin, N3|apply bytes_i64, N2|].
    apply bytes_props; [exact N4|]. intros c Hc. apply G. right. right. exact Hc.
  - destruct N as (N1 & N2 & N3). unfold putPath. bys; [apply bytes_vertex; [exact N1|intros c Hc; apply G, in_or_app; left; exact Hc]|]. apply bytes_flat. intros st Hs.
    destruct (N3 st Hs) as (M0 & M1 & M2 & M3 & M4).
    assert (K : forall c, In c (stepVals st) -> bytes (putValue c)) by (intros c Hc; apply G, in_or_app; right; apply in_flat_map; exists st; auto).
    unfold putStep. bys; [apply bytes_vertex; [exact M0|intros c Hc; apply K, in_or_app; left; exact Hc]|apply bytes_i32, wireType_sgn, M1|apply bytes_bin, M3|apply bytes_i64, M2|].
    apply bytes_props; [exact M4|]. intros c Hc. apply K, in_or_app. right. exact Hc.
  - unfold putRow, putList. bys. apply bytes_flat, G.
  - unfold putMap. bys. apply bytes_props; assumption.
  - unfold putSet, putList. bys. apply bytes_flat, G.
  - destruct N as (N1 & N2 & N3 & N4). unfold putDataSet. bys; [apply bytes_flat; intros c Hc; apply bytes_bin, N2, Hc|]. apply bytes_flat. intros r Hr. unfold putRow, putList. bys.
    apply bytes_flat. intros c Hc. apply G, in_concat. exists r. auto.
Qed.

(** The edge type itself does not arrive *)
Definition exEdge (t : Z) : edge := mkEdge (VInt 1) (VInt 2) t (B "like"%string) 0 [(B "w"%string, VInt 7)].
Theorem C76_edge_type_refuted X t : int32_min <= t <= int32_max -> ~ (-1 <= t <= 1) ->
  readWire X (putValue (VEdge (exEdge t))) = Got (VEdge (exEdge (Z.sgn t))) [] /\ VEdge (exEdge (Z.sgn t)) <> VEdge (exEdge t).
Proof.
  intros H1 H2. split; [|intros E; injection E; lia].
  rewrite C76_value_arrives; [reflexivity|]. constructor.
  - cbn [nodeOk]. unfold edgeOk. cbn [exEdge etype erank ename eprops]. splits; [exact H1|unfold inRange, int64_min, int64_max; lia|split; [reflexivity|repeat constructor; discriminate]|].
    unfold propsOk. splits; [reflexivity|constructor; [intros []|constructor]|]. intros k v [E|[]]. injection E as <- <-. split; [reflexivity|repeat constructor; discriminate].
  - intros c0 Hc. cbn in Hc. decompose [or] Hc; subst; try contradiction; constructor; try (cbn; unfold inRange, int64_min, int64_max; lia); intros ? [].
Qed.
(** Two edges of a set that differ in type become one *)
Theorem C76_set_loses_an_edge_refuted :
  readWire X0 (putValue (VSet [VEdge (exEdge 5); VEdge (exEdge 7)])) = Got (VSet [VEdge (exEdge 1)]) [] /\
  veq X0 (VEdge (exEdge 5)) (VEdge (exEdge 7)) = false.
Proof. split; vm_compute; reflexivity. Qed.

(** A value with every kind of member: sent and received *)
Definition exDoc : value :=
  VMap [(B "day"%string, VDate (mkDate 2020 2 29)); (B "at"%string, VTime (mkTime 23 59 59 999999));
        (B "both"%string, VDateTime (mkDT (-5) 12 31 0 0 59 4000000));
        (B "set"%string, VSet [VInt (-7); VStr (B "x"%string); VEdge (exEdge (-300))]);
        (B "row"%string, VList [VFloat (S754_finite true 4503599627370497 (-1074)); VNull NOverflow; VBool false; VEmpty])].
Example exDoc_arrives : readWire X0 (putValue exDoc) = Got (carried exDoc) [] /\ carried exDoc <> exDoc.
Proof. split; [vm_compute; reflexivity|]. vm_compute. discriminate. Qed.
Example exDoc_sendable : sendable X0 exDoc.
Proof.
  assert (SK : forall s, (List.length s <? 100)%nat && forallb (fun b => (0 <=? b) && (b <? 256)) s = true -> strOk s).
  { intros s H. apply andb_true_iff in H. destruct H as [H1 H2]. apply Nat.ltb_lt in H1. split; [unfold shortL; lia|]. apply Forall_forall. intros b Hb. rewrite forallb_forall in H2. specialize (H2 b Hb). unfold byte. lia. }
  assert (I : forall z, inRange int64_min int64_max z -> sendable X0 (VInt z)) by (intros z H; constructor; [exact H|intros ? []]).
  constructor.
  - cbn [nodeOk exDoc]. unfold propsOk. splits; [reflexivity|vm_compute; repeat (first [apply NoDup_nil | apply NoDup_cons; [cbn; intuition congruence|]])|].
    intros k v H. cbn in H. decompose [or] H; try contradiction; match goal with E : (_, _) = (_, _) |- _ => injection E as <- <- end; apply SK; reflexivity.
  - intros c0 H. cbn in H. decompose [or] H; clear H; try contradiction; subst c0.
    + constructor; [cbn; unfold dateOk, inRange, int16_min, int16_max, int8_min, int8_max; cbn; lia|intros ? []].
    + constructor; [cbn; unfold timeOk, inRange, int32_min, int32_max, int8_min, int8_max; cbn; lia|intros ? []].
    + constructor; [cbn; unfold dateTimeOk, inRange, int16_min, int16_max; cbn; lia|intros ? []].
    + constructor.
      * split; [reflexivity|]. cbn [map carried setOk]. splits; try exact Logic.I; try (eexists; vm_compute; reflexivity); intros w Hw; cbn in Hw; decompose [or] Hw; subst; try contradiction; vm_compute; reflexivity.
      * intros c0 H. cbn in H. decompose [or] H; clear H; try contradiction; subst c0; [apply I; unfold inRange, int64_min, int64_max; lia|constructor; [apply SK; reflexivity|intros ? []]|].
        constructor.
        -- cbn [nodeOk]. unfold edgeOk. cbn [exEdge etype erank ename eprops]. splits; [unfold inRange, int32_min, int32_max; lia|unfold inRange, int64_min, int64_max; lia|apply SK; reflexivity|].
           unfold propsOk. splits; [reflexivity|constructor; [intros []|constructor]|]. intros k v [E|[]]. injection E as <- <-. apply SK. reflexivity.
        -- intros c0 H. cbn in H. decompose [or] H; clear H; try contradiction; subst c0; apply I; unfold inRange, int64_min, int64_max; lia.
    + constructor; [reflexivity|]. intros c0 H. cbn in H. decompose [or] H; clear H; try contradiction; subst c0; (constructor; [first [exact Logic.I|reflexivity]|intros ? []]).
Qed.

(** * C77 *)
(** Reading any bytes whatever ends; what is read is taken from the front, and it is at least a byte *)
Theorem C77_reading_ends X s : readWire X s <> NoFuel.
Proof. unfold readWire. pose proof (ok_value [] X (S (List.length s)) (S (List.length s)) VEmpty s ltac:(lia) ltac:(lia)) as H. intros E. rewrite E in H. exact H. Qed.
Theorem C77_reads_from_the_front X s v r : readWire X s = Got v r -> exists p, s = p ++ r /\ p <> [].
Proof.
  unfold readWire. intros E. pose proof (ok_value [] X (S (List.length s)) (S (List.length s)) VEmpty s ltac:(lia) ltac:(lia)) as H. rewrite E in H. destruct H as [(p & -> & L) _].
  exists p. split; [reflexivity|]. intros ->. cbn in L. lia.
Qed.
(** What was read does not depend on what follows *)
Theorem C77_what_follows_is_ignored X s t v r : readWire X s = Got v r -> readWire X (s ++ t) = Got v (r ++ t).
Proof.
  unfold readWire. intros E. pose proof (ok_value t X (S (List.length s)) (S (List.length (s ++ t))) VEmpty s ltac:(lia) ltac:(rewrite app_length; lia)) as H. rewrite E in H. exact (proj2 H).
Qed.
(** Bytes can end the process: a set that contains a map *)
Theorem C77_set_of_map_aborts_refuted X : readWire X [236; 26; 28; 220; 27; 0; 0; 0; 0; 0] = Abort /\ putValue (VSet [VMap []]) = [236; 26; 28; 220; 27; 0; 0; 0; 0; 0].
Proof. split; vm_compute; reflexivity. Qed.
(** Bytes can give an edge with members never set: a struct without fields *)
Theorem C77_edge_members_unset_refuted X : readWire X [172; 0; 0] = Indet.
Proof. vm_compute. reflexivity. Qed.
(** A time whose hour is announced as a 16-bit number is accepted, and the hour comes out doubled: the bytes are read as a plain byte *)
Theorem C77_hour_of_wrong_type_doubled_refuted X h : 0 <= h < 64 ->
  readWire X (putField 0 7 tSTRUCT ++ putField 0 1 tI16 ++ putI16 h ++ putStop ++ putStop) = Got (VTime (mkTime (2 * h) 0 0 0)) [].
Proof.
  intros H. assert (E : putI16 h = putByte (2 * h)).
  { unfold putI16, putByte, zigzag. assert (0 <=? h = true) as -> by lia. cbn [putVar]. assert (2 * h <? 128 = true) as -> by lia. rewrite Z.mod_small by lia. reflexivity. }
  rewrite E. unfold readWire. rewrite !app_length. cbn [getValue List.length putField putByte putStop Nat.add]. change (putField 0 7 tSTRUCT) with [124]. change (putField 0 1 tI16) with [20].
  unfold putByte, putStop. rewrite Z.mod_small by lia. assert (W : wrap8 (2 * h) = 2 * h) by (unfold wrap8; lia). revert W. generalize (2 * h). intros b W. transitivity (@Got value (VTime (mkTime (wrap8 b) 0 0 0)) []); [vm_compute; reflexivity|rewrite W; reflexivity].
Qed.
Example C77_hour_example X : readWire X (putField 0 7 tSTRUCT ++ putField 0 1 tI16 ++ putI16 11 ++ putStop ++ putStop) = Got (VTime (mkTime 22 0 0 0)) [].
Proof. apply (C77_hour_of_wrong_type_doubled_refuted X 11). lia. Qed.

(** * C78 *)
(** Cut anywhere, an encoding is refused *)
Theorem C78_cut_is_refused X v p q : sendable X v -> putValue v = p ++ q -> q <> [] -> readWire X p = Throw.
Proof.
  intros S E Q. pose proof (C76_value_arrives X v S) as R. rewrite E in R. unfold readWire in *.
  pose proof (ok_value q X (Datatypes.S (List.length p)) (Datatypes.S (List.length (p ++ q))) VEmpty p ltac:(lia) ltac:(rewrite app_length; lia)) as H. rewrite R in H.
  destruct (getValue X (Datatypes.S (List.length p)) VEmpty p) as [a r| | | | |]; try discriminate H; [|reflexivity|contradiction].
  destruct H as [_ H]. injection H as _ H. symmetry in H. apply app_eq_nil in H. destruct H as [_ H]. contradiction.
Qed.
(** No encoding is the beginning of another *)
Theorem C78_no_encoding_begins_another X v w q : sendable X v -> sendable X w -> putValue w = putValue v ++ q -> q = [] /\ carried v = carried w.
Proof.
  intros S1 S2 E. pose proof (C76_value_arrives X v S1) as R1. pose proof (C76_value_arrives X w S2) as R2. rewrite E in R2.
  rewrite (C77_what_follows_is_ignored X _ q _ _ R1) in R2. injection R2 as -> ->. auto.
Qed.
Example C78_example : exists p q, putValue exDoc = p ++ q /\ (100 < List.length p)%nat /\ q <> [] /\ readWire X0 p = Throw.
Proof. exists (firstn 101 (putValue exDoc)), (skipn 101 (putValue exDoc)). splits; vm_compute; first [reflexivity|lia|discriminate]. Qed.

(** * The serializer of the expressions *)
(** serializer::serialize and deserialize of Value (thrift/ThriftTypes.h through Expression.cpp:44-46, 145-150); an exception
    ends the process since readValue is noexcept, and so do the other outcomes for the purpose of the model *)
Definition wireCodec (X : externals) : vcodec :=
  mkCodec putValue (fun b => match readWire X b with Got v r => Some (v, r) | _ => None end).
Definition wireValue (X : externals) (v : value) : Prop := sendable X v /\ directed v.
Lemma wireCodec_ok X : codecFor (wireCodec X) (wireValue X).
Proof.
  intros v rest [S D]. cbn [venc vdec wireCodec]. pose proof (C76_directions_arrive_whole X v S D) as R. rewrite (C77_what_follows_is_ignored X _ rest _ _ R). reflexivity.
Qed.
Lemma wireBool X b : wireValue X (VBool b).
Proof. split; constructor; try exact I; intros ? []. Qed.
(** C30 for the serializer of the code *)
Theorem C30_roundtrip_on_the_wire X e : wireable (wireValue X) e -> exists b, encode (wireCodec X) e = Ret b /\ decode (wireCodec X) b = Ret (Some e).
Proof. apply (C30_roundtrip (wireCodec X) (wireValue X) e (wireCodec_ok X) (wireBool X)). Qed.
Example C30_wire_example : match encode (wireCodec X0) sampleTree with Ret b => decode (wireCodec X0) b = Ret (Some sampleTree) | _ => False end.
Proof. vm_compute. reflexivity. Qed.

(** * C31 *)
(** how a varint ends *)
Lemma getVar_shape : forall k s n r, Forall byte s -> getVar k s = Got n r ->
  exists p x, s = p ++ x :: r /\ Forall (fun b => 128 <= b) p /\ x < 128 /\ 0 <= n < 128 ^ Z.of_nat (S (List.length p)) /\ n <= leVal s.
Proof.
  induction k as [|k IH]; intros s n r B E; [discriminate E|]. cbn [getVar] in E. destruct s as [|b s]; [discriminate E|]. cbn [getByte rbind] in E. inversion B as [|? ? Hb Bs]; subst. unfold byte in Hb.
  assert (LV : 0 <= leVal s). { clear - Bs. induction Bs as [|b l H _ IHl]; [cbn; lia|]. cbn [leVal]. unfold byte in H. lia. }
  destruct (b <? 128) eqn:C.
  - injection E as <- <-. exists [], b. splits; try reflexivity; try constructor; cbn [List.length leVal]; change (128 ^ Z.of_nat 1) with 128; lia.
  - destruct (getVar k s) as [hi r'| | | | |] eqn:G; try discriminate E. cbn [rbind] in E. injection E as <- <-. destruct (IH s hi r' Bs G) as (p & x & -> & P1 & P2 & P3 & P4).
    exists (b :: p), x. cbn [List.length]. rewrite (Nat2Z.inj_succ (S (List.length p))), Z.pow_succ_r by lia. splits; try reflexivity; try (constructor; [lia|exact P1]); cbn [leVal]; lia.
Qed.
Lemma getI64_shape s z r : Forall byte s -> getI64 s = Got z r -> exists p x n, s = p ++ x :: r /\ x < 128 /\ 0 <= n < 128 ^ Z.of_nat (S (List.length p)) /\ n <= leVal s /\ (z = n mod 2 ^ 64 / 2 \/ z = - (n mod 2 ^ 64 / 2) - 1).
Proof.
  intros B E. unfold getI64 in E. destruct (getVar 10 s) as [n r'| | | | |] eqn:G; try discriminate E. cbn [rbind] in E. injection E as <- <-. destruct (getVar_shape _ _ _ _ B G) as (p & x & P1 & P2 & P3 & P4 & P5).
  exists p, x, n. change (2 ^ 64) with 18446744073709551616.
  assert (U : unzigzag (u64 n) = n mod 18446744073709551616 / 2 \/ unzigzag (u64 n) = - (n mod 18446744073709551616 / 2) - 1).
  { unfold unzigzag, u64. destruct (Z.even (n mod 18446744073709551616)); auto. }
  split; [exact P1|]. split; [exact P3|]. split; [exact P4|]. split; [exact P5|exact U].
Qed.
Lemma readWire_int X s z r : readWire X s = Got (VInt z) r -> exists q s1 r1, s = q ++ s1 /\ q <> [] /\ hd 0 s <> 0 /\ getI64 s1 = Got z r1.
Proof.
  unfold readWire. cbn [getValue]. intros E. destruct (getField 0 s) as [h r0| | | | |] eqn:F; try discriminate E. cbn [rbind] in E. pose proof (ok_field [] 0 s) as K. rewrite F in K. destruct K as [(q & Eq & Lq) _].
  destruct (snd h =? 0) eqn:Eh; [discriminate E|].
  assert (H0 : hd 0 s <> 0). { destruct s as [|b s']; [discriminate F|]. cbn [hd]. intros ->. cbn in F. injection F as <- <-. cbn in Eh. discriminate. }
  destruct (getMember X (getValue X (List.length s)) (List.length s) VEmpty (fst h) (snd h) r0) as [v r1| | | | |] eqn:G; try discriminate E. cbn [rbind] in E.
  destruct (getField (fst h) r1) as [h' r2| | | | |]; try discriminate E. cbn [rbind] in E. destruct (snd h' =? 0); [|discriminate E]. injection E as -> <-.
  exists q, r0, r1. splits; [exact Eq|intros ->; cbn in Lq; lia|exact H0|]. clear - G.
  assert (SK : forall g, rbind (skip g true (snd h) r0) (fun _ r => Got VEmpty r) <> Got (VInt z) r1) by (intros g E; destruct (skip g true (snd h) r0); discriminate E).
  revert G. generalize (getValue X (List.length s)). generalize (List.length s). intros g rv G. unfold getMember in G. cbv zeta in G.
  destruct (fst h) as [|p|p]; try (exfalso; exact (SK _ G)); repeat (destruct p as [p|p|]; try (exfalso; exact (SK _ G)));
    match type of G with (if ?c then _ else _) = _ => destruct c; [|exfalso; exact (SK _ G)] end;
    try (injection G as G; discriminate G);
    match type of G with rbind ?m _ = _ => destruct m eqn:M; try discriminate G; cbn [rbind] in G end.
  all: try (injection G as G _; discriminate G).
  - injection G as -> ->. reflexivity.
  - destruct (nullOf a); discriminate G.
Qed.
(** Four bytes followed by four equal ones that make a long: the int64 read from a tail of them is never the number they stand for *)
Lemma tail_int b0 b1 b2 b3 (neg : bool) q s1 z r :
  byte b0 -> byte b1 -> byte b2 -> byte b3 -> b0 <> 0 -> q <> [] ->
  let e := if neg then 255 else 0 in
  let i := b0 + 256 * b1 + 65536 * b2 + 16777216 * b3 - (if neg then 4294967296 else 0) in
  -2147483648 <= i < 2147483648 -> q ++ s1 = [b0; b1; b2; b3; e; e; e; e] -> getI64 s1 = Got z r -> wrap32 z <> i.
Proof.
  intros B0 B1 B2 B3 N0 Q e i R E G. unfold byte in *.
  assert (Be : byte e) by (subst e; unfold byte; destruct neg; lia).
  assert (BA : Forall byte (q ++ s1)) by (rewrite E; repeat constructor; unfold byte in *; lia).
  apply Forall_app in BA. destruct BA as [Bq Bs]. destruct (getI64_shape _ _ _ Bs G) as (p & x & n & P1 & P2 & P3 & P4 & P5).
  change (2 ^ 64) with 18446744073709551616 in P5. destruct q as [|q0 q]; [contradiction|]. cbn [app] in E. injection E as -> E.
  assert (LE : leVal s1 <= b1 + 256 * b2 + 65536 * b3 + 16777216 * (e + 256 * e + 65536 * e + 16777216 * e)).
  { assert (M : forall a b, Forall byte a -> Forall byte b -> 0 <= leVal b <= leVal (a ++ b)).
    { clear. intros a b A C. assert (H : 0 <= leVal b) by (induction C as [|y l H _ IHl]; [cbn; lia|cbn [leVal]; unfold byte in H; lia]).
      induction A as [|y l HA _ IHl]; [cbn [app]; lia|]. cbn [app leVal]. unfold byte in HA. lia. }
    inversion Bq; subst. destruct (M q (p ++ x :: r)) as [_ L]; [assumption|assumption|]. rewrite E in L. cbn [leVal] in L. lia. }
  subst s1. rewrite app_assoc in E. set (m := q ++ p) in *. assert (Lm : (List.length p <= List.length m)%nat) by (subst m; rewrite app_length; lia). clearbody m. clear Bq Bs G.
  assert (PW : forall j, (List.length m <= j)%nat -> n < 128 ^ Z.of_nat (S j)).
  { intros j Hj. apply Z.lt_le_trans with (1 := proj2 P3). apply Z.pow_le_mono_r; lia. }
  destruct neg; subst e i; cbn iota in *.
  - destruct m as [|m0 [|m1 [|m2 m]]]; cbn [app List.length] in *.
    + injection E as -> _. specialize (PW 0%nat (le_n _)). change (128 ^ Z.of_nat 1) with 128 in PW. rewrite Z.mod_small in P5 by lia. unfold wrap32. destruct P5; subst z; lia.
    + injection E as -> -> _. specialize (PW 1%nat (le_n _)). change (128 ^ Z.of_nat 2) with 16384 in PW. rewrite Z.mod_small in P5 by lia. unfold wrap32. destruct P5; subst z; lia.
    + injection E as -> -> -> _. specialize (PW 2%nat (le_n _)). change (128 ^ Z.of_nat 3) with 2097152 in PW. rewrite Z.mod_small in P5 by lia. unfold wrap32. destruct P5; subst z; lia.
    + exfalso. injection E as _ _ _ E. assert (I : In x [255; 255; 255; 255]) by (rewrite <- E; apply in_or_app; right; left; reflexivity). cbn in I. lia.
  - rewrite Z.mod_small in P5 by lia. unfold wrap32. destruct P5; subst z; lia.
Qed.
(** No column index at all survives: what comes back is never the column expression that was sent *)
Theorem C31_every_index_refuted X i : int32_min <= i <= int32_max ->
  exists b, encode (wireCodec X) (Node (KColumn i) []) = Ret b /\ decode (wireCodec X) b <> Ret (Some (Node (KColumn i) [])).
Proof.
  unfold int32_min, int32_max. intros H. eexists. split; [reflexivity|]. cbn [decode kindNo]. change (29 mod 256) with 29. set (s := encSize (u64 i)).
  cbn [readExpr List.length]. unfold dbind at 1. cbn [readKind decBody]. unfold readInt, dbind, readValue. cbn [vdec wireCodec].
  destruct (readWire X s) as [v r| | | | |] eqn:R; try discriminate. destruct v; try discriminate. unfold dret. intros E. apply Ret_inj in E. injection E as E.
  destruct (readWire_int X s z r R) as (q & s1 & r1 & Es & Hq & H0 & G).
  set (u := u64 i). set (b0 := u mod 256). set (b1 := u / 256 mod 256). set (b2 := u / 256 / 256 mod 256). set (b3 := u / 256 / 256 / 256 mod 256).
  assert (U : u = if i <? 0 then i + 18446744073709551616 else i) by (unfold u, u64; destruct (i <? 0) eqn:C; lia).
  assert (S8 : s = [b0; b1; b2; b3; if i <? 0 then 255 else 0; if i <? 0 then 255 else 0; if i <? 0 then 255 else 0; if i <? 0 then 255 else 0]).
  { unfold s, encSize. cbn [leBytes]. fold u. fold b0 b1 b2 b3. destruct (i <? 0) eqn:C; repeat f_equal; lia. }
  rewrite S8 in H0, Es. cbn [hd] in H0.
  refine (tail_int b0 b1 b2 b3 (i <? 0) q s1 z r1 _ _ _ _ H0 Hq _ (eq_sym Es) G _); try (unfold byte, b0, b1, b2, b3; lia).
  - unfold b0, b1, b2, b3. destruct (i <? 0) eqn:C; lia.
  - rewrite E. unfold b0, b1, b2, b3. destruct (i <? 0) eqn:C; lia.
Qed.
(** and the process usually ends: column 0 *)
Theorem C31_column_zero_aborts_refuted X : exists b, encode (wireCodec X) (Node (KColumn 0) []) = Ret b /\ decode (wireCodec X) b = Fatal.
Proof. eexists. split; [reflexivity|]. vm_compute. reflexivity. Qed.
(** some indices come back as another column without any error *)
Theorem C31_wrong_column_refuted X : exists b, encode (wireCodec X) (Node (KColumn 1078) []) = Ret b /\ decode (wireCodec X) b = Ret (Some (Node (KColumn 2) [])).
Proof. eexists. split; [reflexivity|]. vm_compute. reflexivity. Qed.

Print Assumptions C76_value_arrives.
Print Assumptions C76_rest_stays.
Print Assumptions C76_directions_arrive_whole.
Print Assumptions C76_writes_bytes.
Print Assumptions C76_edge_type_refuted.
Print Assumptions C76_set_loses_an_edge_refuted.
Print Assumptions C77_reading_ends.
Print Assumptions C77_reads_from_the_front.
Print Assumptions C77_what_follows_is_ignored.
Print Assumptions C77_set_of_map_aborts_refuted.
Print Assumptions C77_edge_members_unset_refuted.
Print Assumptions C77_hour_of_wrong_type_doubled_refuted.
Print Assumptions C78_cut_is_refused.
Print Assumptions C78_no_encoding_begins_another.
Print Assumptions C30_roundtrip_on_the_wire.
Print Assumptions C31_every_index_refuted.
Print Assumptions C31_column_zero_aborts_refuted.
Print Assumptions C31_wrong_column_refuted.
