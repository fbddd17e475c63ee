(** Proofs for C191: what reading values from any bytes gives. *)
From Coq Require Import String List.
From Verif Require Import Prelude ValueBase DateModel TimeModel HashModel ValueModel ValueProofs GraphModel AssocModel WireModel WireSpec ExprModel ExprSpec ExprProofs ValueProps FloatProofs FaultSpec SoundSpec SoundProofs SoundWireProps.
Import ListNotations.
Local Open Scope list_scope.
Open Scope Z_scope.

Definition bytes (s : str) : Prop := Forall byte s.
(** Whatever is read is in [P], and bytes are left *)
Definition reads {A} (P : A -> Prop) (o : rd A) : Prop := match o with Got a r => P a /\ bytes r | _ => True end.
Definition all {A} (_ : A) : Prop := True.
Lemma reads_bind {A C} (R : A -> Prop) (P : C -> Prop) m c : reads R m -> (forall a r, R a -> bytes r -> reads P (c a r)) -> reads P (rbind m c).
Proof. intros H K. destruct m; cbn in *; try exact I. destruct H. now apply K. Qed.
Lemma reads_got {A} (P : A -> Prop) a r : P a -> bytes r -> reads P (Got a r).
Proof. now split. Qed.
Lemma reads_weak {A} (R P : A -> Prop) o : reads R o -> (forall a, R a -> P a) -> reads P o.
Proof. destruct o; cbn; try tauto. intros [H K] F. auto. Qed.
Ltac rb := eapply reads_bind; [|intros ? ? ? ?].

Lemma r_byte s : bytes s -> reads byte (getByte s).
Proof. intros H. destruct H; [exact I|]. now split. Qed.
Lemma r_var k : forall s, bytes s -> reads (@all Z) (getVar k s).
Proof.
  induction k as [|k IH]; intros s H; [exact I|]. cbn [getVar]. rb; [apply r_byte, H|]. destruct (_ <? 128); [now apply reads_got|]. rb; [apply IH; assumption|]. now apply reads_got.
Qed.
Lemma r_u32 s : bytes s -> reads (fun z => 0 <= z < 2 ^ 32) (getU32 s).
Proof. intros H. unfold getU32. rb; [apply r_var, H|]. apply reads_got; [|assumption]. unfold u32. lia. Qed.
Lemma r_i32 s : bytes s -> reads int32 (getI32 s).
Proof.
  intros H. unfold getI32. rb; [apply r_u32, H|]. apply reads_got; [|assumption]. unfold unzigzag, int32 in *. change (2 ^ 32) with 4294967296 in *. change (2 ^ 31) with 2147483648. destruct (Z.even a); lia.
Qed.
Lemma r_i64 s : bytes s -> reads int64 (getI64 s).
Proof.
  intros H. unfold getI64. rb; [apply r_var, H|]. apply reads_got; [|assumption]. unfold unzigzag, int64, u64. change (2 ^ 63) with 9223372036854775808. destruct (Z.even _); lia.
Qed.
Lemma r_i16 s : bytes s -> reads int16 (getI16 s).
Proof. intros H. unfold getI16. rb; [apply r_i32, H|]. apply reads_got; [|assumption]. apply wrap16_in. Qed.
Lemma r_i8 s : bytes s -> reads int8 (getI8 s).
Proof. intros H. unfold getI8. rb; [apply r_byte, H|]. apply reads_got; [|assumption]. apply wrap8_in. Qed.
Lemma bytes_split n s : bytes s -> bytes (firstn n s) /\ bytes (skipn n s).
Proof. unfold bytes. intros H. rewrite <- (firstn_skipn n s) in H. now apply Forall_app in H. Qed.
Lemma r_N n s : bytes s -> reads (fun b => bytes b /\ Z.of_nat (List.length b) <= Z.max 0 n) (getN n s).
Proof.
  intros H. unfold getN. destruct (_ <? n); [exact I|]. destruct (bytes_split (Z.to_nat n) s H) as [H1 H2]. split; [|exact H2]. split; [exact H1|]. rewrite firstn_length. lia.
Qed.
Lemma r_size s : bytes s -> reads (fun z => 0 <= z < 2 ^ 31) (getSize s).
Proof. intros H. unfold getSize. rb; [apply r_u32, H|]. cbn beta in *. destruct (2147483648 <=? a) eqn:Q; [exact I|]. apply reads_got; [|assumption]. lia. Qed.
Lemma r_bin s : bytes s -> reads strOk (getBin s).
Proof. intros H. unfold getBin. rb; [apply r_size, H|]. cbn beta in *. eapply reads_weak; [apply r_N; assumption|]. cbn beta. intros b [H2 H3]. split; [unfold shortL; lia|exact H2]. Qed.
Lemma finite_valid s m e : -1074 <= e <= 971 -> Z.pos m < 2 ^ 53 -> e = -1074 \/ 2 ^ 52 <= Z.pos m -> f64valid (S754_finite s m e) = true.
Proof.
  intros He Hm Hn. unfold f64valid, valid_binary, bounded, canonical_mantissa. pose proof (digits2_bounds m) as D. set (d := Z.pos (digits2_pos m)) in *.
  assert (D1 : d <= 53). { destruct (Z.le_gt_cases d 53) as [?|L]; [assumption|]. assert (2 ^ 53 <= 2 ^ (d - 1)) by (apply Z.pow_le_mono_r; lia). lia. }
  assert (D2 : e = -1074 \/ d = 53). { destruct Hn as [?|Hn]; [now left|right]. destruct (Z.le_gt_cases 53 d) as [?|L]; [lia|]. assert (2 ^ d <= 2 ^ 52) by (apply Z.pow_le_mono_r; lia). lia. }
  apply andb_true_iff. split; [|apply Z.leb_le; lia]. apply Zeq_is_eq_bool. unfold fexp, emin. lia.
Qed.
Lemma bits_valid u : f64valid (f64ofBits u) = true.
Proof.
  unfold f64ofBits. cbv zeta. destruct (_ =? 2047) eqn:Q1; [destruct (_ =? 0); reflexivity|]. destruct (_ =? 0) eqn:Q2.
  - destruct (u mod 4503599627370496) as [|p|p] eqn:M; try reflexivity. apply finite_valid; [lia| |now left]. change (2 ^ 53) with 9007199254740992. lia.
  - destruct (4503599627370496 + u mod 4503599627370496) as [|p|p] eqn:M; try reflexivity. change (2 ^ 53) with 9007199254740992. apply finite_valid; change (2 ^ 53) with 9007199254740992; change (2 ^ 52) with 4503599627370496; lia.
Qed.
Lemma r_double s : bytes s -> reads (fun f => f64valid f = true) (getDouble s).
Proof. intros H. unfold getDouble. rb; [apply r_N, H|]. apply reads_got; [|assumption]. apply bits_valid. Qed.
Lemma r_field l s : bytes s -> reads (@all (Z * Z)) (getField l s).
Proof.
  intros H. unfold getField. rb; [apply r_byte, H|]. cbv zeta. destruct (_ =? 0); [now apply reads_got|]. eapply (reads_bind (@all Z)).
  - destruct (_ =? 0); [|now apply reads_got]. eapply reads_weak; [now apply r_i16|now intros].
  - intros x q _ Hr. destruct (14 <=? _); [exact I|now apply reads_got].
Qed.
Lemma r_listHdr s : bytes s -> reads (fun h => 0 <= snd h < 2 ^ 31) (getListHdr s).
Proof.
  intros H. unfold getListHdr. rb; [apply r_byte, H|]. unfold byte in *. destruct (_ =? 15).
  - rb; [now apply r_size|]. now apply reads_got.
  - apply reads_got; [|assumption]. cbn. lia.
Qed.
Lemma r_mapHdr s : bytes s -> reads (fun h => 0 <= snd h < 2 ^ 31) (getMapHdr s).
Proof.
  intros H. unfold getMapHdr. rb; [apply r_size, H|]. cbn beta in *. destruct (_ =? 0); [apply reads_got; [cbn; lia|assumption]|]. rb; [now apply r_byte|]. now apply reads_got.
Qed.
Lemma r_times {A} (J : Z -> A -> Prop) step : (forall n a s, 0 < n -> J n a -> bytes s -> reads (J (n - 1)) (step a s)) ->
  forall f n a s, J n a -> bytes s -> reads (fun x => exists m, m <= 0 /\ J m x) (times step f n a s).
Proof.
  intros H. induction f as [|f IH]; intros n a s Ha Hs; cbn [times]; destruct (n <=? 0) eqn:Q; try exact I.
  1, 2: apply reads_got; [exists n; split; [lia|exact Ha]|exact Hs]. rb; [apply H; [|exact Ha|exact Hs]; lia|]. now apply IH.
Qed.
Lemma r_skips {A} (step : unit -> str -> rd unit) f n s (P : A -> Prop) c : (forall q, bytes q -> reads (@all unit) (step tt q)) -> bytes s -> (forall r, bytes r -> reads P (c tt r)) -> reads P (rbind (times step f n tt s) c).
Proof.
  intros H Hs K. eapply (reads_bind (fun x : unit => exists m, m <= 0 /\ True)).
  - apply (r_times (fun _ (_ : unit) => True)); [|exact I|exact Hs]. intros m [] q _ _ Hq. eapply reads_weak; [now apply H|now intros].
  - intros [] r _ Hr. now apply K.
Qed.
Lemma r_skip : forall f b t s, bytes s -> reads (@all unit) (skip f b t s).
Proof.
  induction f as [|f IH]; intros b t s H; [exact I|]. cbn [skip].
  assert (G : forall A (m : rd A) (P : A -> Prop), reads P m -> reads (@all unit) (rbind m (fun _ r => Got tt r))).
  { intros A m P K. rb; [exact K|]. now apply reads_got. }
  assert (T : forall (step : unit -> str -> rd unit) n q, (forall q', bytes q' -> reads (@all unit) (step tt q')) -> bytes q -> reads (@all unit) (times step f n tt q)).
  { intros step n q K Hq. eapply reads_weak; [apply (r_times (fun _ (_ : unit) => True)); [|exact I|exact Hq]|now intros]. intros m [] q' _ _ Hq'. eapply reads_weak; [now apply K|now intros]. }
  destruct ((t =? 1) || (t =? 2)). { destruct b; [now apply reads_got|]. eapply G, r_byte, H. }
  destruct (t =? tBYTE). { eapply G, r_byte, H. }
  destruct ((t =? tI16) || (t =? tI32)). { eapply G, r_var, H. }
  destruct (t =? tI64). { eapply G, r_var, H. }
  destruct (t =? tDOUBLE). { eapply G, r_N, H. }
  destruct (t =? tFLOAT). { eapply G, r_N, H. }
  destruct (t =? tBIN). { eapply G, r_bin, H. }
  destruct ((t =? tLIST) || (t =? tSET)). { rb; [apply r_listHdr, H|]. apply T; [|assumption]. intros. now apply IH. }
  destruct (t =? tMAP).
  { rb; [apply r_mapHdr, H|]. destruct a as [[kt vt] n]. apply T; [|assumption]. intros q Hq. rb; [now apply IH|]. now apply IH. }
  destruct (t =? tSTRUCT); [|exact I].
  assert (L : forall g last q, bytes q -> reads (@all unit) ((fix fields (g : nat) (last : Z) (s : str) : rd unit := match g with O => NoFuel | S g' => rbind (getField last s) (fun h r =>
                     if snd h =? 0 then Got tt r else rbind (skip f true (snd h) r) (fun _ => fields g' (fst h))) end) g last q)).
  { induction g as [|g IHg]; intros l q Hq; [exact I|]. rb; [apply r_field, Hq|]. destruct (_ =? 0); [now apply reads_got|]. rb; [now apply IH|]. now apply IHg. }
  exact (L (S f) 0 s H).
Qed.
Lemma r_fields {A} (P : A -> Prop) table quick f : (forall id t rf a s, table id = Some (t, rf) -> P a -> bytes s -> reads P (rf a s)) ->
  forall g cur d a s, P a -> bytes s -> reads P (fields table quick (skip f true) g cur d a s).
Proof.
  intros T. induction g as [|g IH]; intros cur d a s Ha Hs; [exact I|]. cbn [fields]. rb; [apply r_field, Hs|]. destruct (if d then _ else _) as [[id|]|].
  - destruct (table id) as [[t rf]|] eqn:Q; [|exact I]. rb; [eapply T; [exact Q|exact Ha|assumption]|]. now apply IH.
  - now apply reads_got.
  - destruct (snd a0 =? 0); [now apply reads_got|]. destruct (table (fst a0)) as [[t rf]|] eqn:Q; [destruct (snd a0 =? t)|].
    + rb; [eapply T; [exact Q|exact Ha|assumption]|]. now apply IH.
    + rb; [now apply r_skip|]. now apply IH.
    + rb; [now apply r_skip|]. now apply IH.
Qed.
(** case analysis on a literal field id *)
Ltac ids := intros id ty rf a0 s0 Q Ha Hs; destruct id as [|p|p]; try discriminate Q; repeat (destruct p as [p|p|]; try discriminate Q); injection Q as <- <-.
Definition pDate (d : date) : Prop := int16 (year d) /\ int8 (month d) /\ int8 (day d).
Definition pTime (t : time) : Prop := int8 (thour t) /\ int8 (tminute t) /\ int8 (tsec t) /\ int32 (tmicro t).
Definition pDateTime (t : datetime) : Prop := int16 (dyear t) /\ bits 4 (dmonth t) /\ bits 5 (dday t) /\ bits 5 (dhour t) /\ bits 6 (dminute t) /\ bits 6 (dsec t) /\ bits 22 (dmicro t).
Lemma c8 n : -128 <= n < 128 -> int8 n. Proof. unfold int8. change (2 ^ 7) with 128. tauto. Qed.
Lemma c16 n : -32768 <= n < 32768 -> int16 n. Proof. unfold int16. change (2 ^ 15) with 32768. tauto. Qed.
Lemma c32 n : -2147483648 <= n < 2147483648 -> int32 n. Proof. unfold int32. change (2 ^ 31) with 2147483648. tauto. Qed.
Lemma r_date f s : bytes s -> reads pDate (getDate f s).
Proof.
  intros H. apply r_fields; [|unfold pDate; cbn; split; [apply c16; lia|split; apply c8; lia]|exact H]. ids; destruct Ha as (A1 & A2 & A3); (rb; [first [apply r_i16, Hs|apply r_i8, Hs]|]); (apply reads_got; [|assumption]); unfold pDate; cbn; auto.
Qed.
Lemma r_time f s : bytes s -> reads pTime (getTime f s).
Proof.
  intros H. apply r_fields; [|unfold pTime; cbn; split; [apply c8; lia|split; [apply c8; lia|split; [apply c8; lia|apply c32; lia]]]|exact H].
  ids; destruct Ha as (A1 & A2 & A3 & A4); (rb; [first [apply r_i32, Hs|apply r_i8, Hs]|]); (apply reads_got; [|assumption]); unfold pTime; cbn; auto.
Qed.
Lemma r_dateTime f s : bytes s -> reads pDateTime (getDateTime f s).
Proof.
  assert (M : forall n k x, k = 2 ^ n -> 0 < k -> bits n (x mod k)) by (intros n k x -> K; unfold bits; apply Z.mod_pos_bound; exact K).
  intros H. apply r_fields; [| |exact H].
  - ids; destruct Ha as (A1 & A2 & A3 & A4 & A5 & A6 & A7); (rb; [first [apply r_i32, Hs|apply r_i16, Hs|apply r_i8, Hs]|]); (apply reads_got; [|assumption]); unfold pDateTime; cbn [dyear dmonth dday dhour dminute dsec dmicro];
      refine (conj _ (conj _ (conj _ (conj _ (conj _ (conj _ _)))))); first [assumption|apply M; reflexivity].
  - unfold pDateTime, bits; cbn [dyear dmonth dday dhour dminute dsec dmicro]. split; [apply c16; lia|]. repeat split; try lia; try reflexivity.
Qed.

Section X.
Variable X : externals.
(** a value, to any depth, as C187 and C189 ask *)
Definition fine (v : value) : Prop := sound X v /\ compact v.
Lemma fine_intro v : typed X v -> small v -> Forall fine (subvals v) -> fine v.
Proof.
  intros T M H. rewrite Forall_forall in H. split; intros w W; (inversion W as [|? c I0 W']; subst; [assumption|]); destruct (H c I0) as [H1 H2]; auto.
Qed.
Definition pProps (m : list (str * value)) : Prop := keysDiffer m /\ shortL m /\ Forall strOk (map fst m) /\ Forall fine (map snd m).
Definition pTag (t : tag) : Prop := strOk (tgname t) /\ pProps (tgprops t).
Definition pVertex (x : vertex) : Prop := fine (vvid x) /\ shortL (vtags x) /\ Forall pTag (vtags x).
Definition pEdge (e : edge) : Prop := fine (esrc e) /\ fine (edst e) /\ int32 (etype e) /\ strOk (ename e) /\ int64 (erank e) /\ pProps (eprops e).
Definition pStep (e : step) : Prop := pVertex (sdst e) /\ int32 (stype e) /\ strOk (sname e) /\ int64 (srank e) /\ pProps (sprops e).
Definition pPath (p : path) : Prop := pVertex (psrc p) /\ shortL (psteps p) /\ Forall pStep (psteps p).
Definition pRow (l : list value) : Prop := shortL l /\ Forall fine l.
Definition pSet (l : list value) : Prop := shortL l /\ Forall fine l /\ typed X (VSet l).
Definition pDataSet (d : dataset) : Prop := shortL (dcols d) /\ Forall strOk (dcols d) /\ shortL (drows d) /\ Forall pRow (drows d).
Lemma fine_empty : fine VEmpty. Proof. apply fine_intro; [exact I|exact I|constructor]. Qed.
Lemma short_nil A : shortL (@nil A). Proof. unfold shortL. cbn. lia. Qed.
Lemma strOk_nil : strOk []. Proof. split; [apply short_nil|constructor]. Qed.
Lemma props_nil : pProps []. Proof. split; [constructor|]. split; [apply short_nil|]. split; constructor. Qed.
Lemma vertex_nil : pVertex (mkVertex VEmpty []). Proof. split; [apply fine_empty|]. split; [apply short_nil|constructor]. Qed.
Hint Resolve fine_empty short_nil strOk_nil props_nil vertex_nil : rc.
Lemma tags_parts l : Forall pTag l -> Forall (fun t => keysDiffer (tgprops t)) l /\ Forall (fun t => strOk (tgname t) /\ shortL (tgprops t) /\ Forall strOk (map fst (tgprops t))) l /\ Forall fine (flat_map tagVals l).
Proof.
  induction 1 as [|t l (H1 & H2 & H3 & H4 & H5) _ (I1 & I2 & I3)]; [repeat constructor|]. split; [now constructor|]. split; [constructor; auto|]. cbn [flat_map]. apply Forall_app. auto.
Qed.
Lemma vertex_parts x : pVertex x -> typedVertex x /\ (shortL (vtags x) /\ Forall (fun t => strOk (tgname t) /\ shortL (tgprops t) /\ Forall strOk (map fst (tgprops t))) (vtags x)) /\ Forall fine (vertexVals x).
Proof. intros (H1 & H2 & H3). destruct (tags_parts _ H3) as (I1 & I2 & I3). split; [exact I1|]. split; [auto|]. constructor; assumption. Qed.
Lemma fine_vertex x : pVertex x -> fine (VVertex x).
Proof. intros H. destruct (vertex_parts x H) as (H1 & H2 & H3). now apply fine_intro. Qed.
Lemma fine_edge e : pEdge e -> fine (VEdge e).
Proof.
  intros (H1 & H2 & H3 & H4 & H5 & K1 & K2 & K3 & K4). apply fine_intro; [exact (conj K1 (conj H3 H5))|exact (conj H4 (conj K2 K3))|]. cbn [subvals]. unfold edgeVals. constructor; [exact H1|]. constructor; assumption.
Qed.
Lemma fine_path p : pPath p -> fine (VPath p).
Proof.
  intros (H1 & H2 & H3). destruct (vertex_parts _ H1) as (V1 & V2 & V3).
  assert (G : Forall typedStep (psteps p) /\ Forall (fun s => (shortL (vtags (sdst s)) /\ Forall (fun t => strOk (tgname t) /\ shortL (tgprops t) /\ Forall strOk (map fst (tgprops t))) (vtags (sdst s))) /\ strOk (sname s) /\ shortL (sprops s) /\ Forall strOk (map fst (sprops s))) (psteps p)
    /\ Forall fine (flat_map stepVals (psteps p))).
  { clear H2. induction H3 as [|t l (S1 & S2 & S3 & S4 & K1 & K2 & K3 & K4) _ (I1 & I2 & I3)]; [repeat constructor|]. destruct (vertex_parts _ S1) as (W1 & W2 & W3).
    split; [constructor; [exact (conj W1 (conj K1 (conj S2 S4)))|exact I1]|]. split; [constructor; auto|]. cbn [flat_map]. apply Forall_app. split; [|exact I3]. unfold stepVals. apply Forall_app. auto. }
  destruct G as (G1 & G2 & G3). apply fine_intro; [exact (conj V1 G1)|exact (conj V2 (conj H2 G2))|]. cbn [subvals]. unfold pathVals. apply Forall_app. auto.
Qed.
Lemma fine_dataSet d : pDataSet d -> fine (VDataSet d).
Proof.
  intros (H1 & H2 & H3 & H4). apply fine_intro; [exact I| |].
  - cbn. refine (conj H1 (conj H2 (conj H3 _))). eapply Forall_impl; [|exact H4]. now intros a [? _].
  - cbn [subvals]. clear H3. induction H4 as [|r l [_ Hr] _ IH]; [constructor|]. cbn [concat]. apply Forall_app. auto.
Qed.

Section Nested.
Variable rv : value -> str -> rd value.
Variable f : nat.
Hypothesis RV : forall i s, fine i -> bytes s -> reads fine (rv i s).
Lemma r_list {A} (P : A -> Prop) et (elem : str -> rd A) s : (forall q, bytes q -> reads P (elem q)) -> bytes s -> reads (fun l => shortL l /\ Forall P l) (getList f et elem s).
Proof.
  intros H Hs. unfold getList. rb; [apply r_listHdr, Hs|]. cbn beta in *. destruct (_ =? et).
  - eapply reads_weak.
    + apply (r_times (fun n l => Z.of_nat (List.length l) + Z.max 0 n <= snd a /\ Forall P l)); [|split; [cbn; lia|constructor]|assumption]. intros n l q Hn [L1 L2] Hq. rb; [now apply H|]. apply reads_got; [|assumption].
      split; [rewrite app_length; cbn; lia|]. apply Forall_app. auto.
    + cbn beta. intros l (m & Hm & L1 & L2). split; [unfold shortL; lia|exact L2].
  - apply r_skips; [intros; now apply r_skip|assumption|]. intros q Hq. apply reads_got; [|exact Hq]. split; [apply short_nil|constructor].
Qed.
Lemma aset_parts k v m : strOk k -> fine v -> keysDiffer m /\ Forall strOk (map fst m) /\ Forall fine (map snd m) ->
  let m' := aset strEqb k v m in (List.length m' <= List.length m + 1)%nat /\ keysDiffer m' /\ Forall strOk (map fst m') /\ Forall fine (map snd m').
Proof.
  intros Hk Hv (H1 & H2 & H3). cbv zeta. split; [|split].
  - clear. induction m as [|[k' v'] m IH]; cbn; [lia|]. destruct (strEqb k k'); cbn; lia.
  - unfold keysDiffer in *. apply (aset_keys strEqb strEqb_eq); exact H1.
  - clear H1. induction m as [|[k' v'] m IH]; cbn [aset map fst snd] in *; [split; (constructor; [assumption|constructor])|]. apply Forall_cons_iff in H2 as [A1 A2]. apply Forall_cons_iff in H3 as [B1 B2].
    destruct (strEqb k k'); cbn [map fst snd]; [split; constructor; assumption|]. destruct (IH A2 B2). split; constructor; assumption.
Qed.
Lemma r_props s : bytes s -> reads pProps (getProps rv f s).
Proof.
  intros Hs. unfold getProps. rb; [apply r_mapHdr, Hs|]. destruct a as [[kt vt] n]. cbn [snd] in *. destruct (_ && _).
  - eapply reads_weak.
    + apply (r_times (fun i m => Z.of_nat (List.length m) + Z.max 0 i <= n /\ keysDiffer m /\ Forall strOk (map fst m) /\ Forall fine (map snd m))); [|split; [cbn; lia|repeat constructor]|assumption].
      intros i m q Hi [L1 L2] Hq. rb; [now apply r_bin|]. rb.
      { apply RV; [|assumption]. destruct (aget strEqb a m) as [v|] eqn:G; [|apply fine_empty]. apply (aget_In strEqb strEqb_eq) in G. destruct L2 as (_ & _ & F). rewrite Forall_forall in F. exact (F v (in_map snd _ _ G)). }
      apply reads_got; [|assumption]. destruct (aset_parts a a0 m ltac:(assumption) ltac:(assumption) L2) as [B1 B2]. split; [lia|exact B2].
    + cbn beta. intros m (i & Hi & L1 & L2 & L3 & L4). split; [exact L2|]. split; [unfold shortL; lia|auto].
  - apply r_skips; [|assumption|].
    + intros q Hq. rb; [now apply r_skip|]. now apply r_skip.
    + intros q Hq. apply reads_got; [apply props_nil|exact Hq].
Qed.
Ltac done := apply reads_got; [|assumption].
Lemma r_tag s : bytes s -> reads pTag (getTag rv f s).
Proof.
  intros H. apply r_fields; [|split; [apply strOk_nil|apply props_nil]|exact H]. ids; destruct Ha as [A1 A2].
  - rb; [now apply r_props|]. done. split; assumption.
  - rb; [now apply r_bin|]. done. split; assumption.
Qed.
Lemma r_vertex v s : pVertex v -> bytes s -> reads pVertex (getVertexInto rv f v s).
Proof.
  intros Hv H. apply r_fields; [|exact Hv|exact H]. ids; destruct Ha as (A1 & A2 & A3).
  - rb; [apply r_list; [exact r_tag|exact Hs]|]. done. split; assumption.
  - rb; [now apply RV|]. done. split; [assumption|]. split; assumption.
Qed.
Lemma r_edge s : bytes s -> reads pEdge (getEdge rv f s).
Proof.
  intros H. unfold getEdge. eapply (reads_bind (fun p : protoEdge => pEdge (fst (fst p)))).
  - apply r_fields; [| |exact H].
    + ids; destruct a0 as [[e bt] br]; cbn [fst] in Ha; destruct Ha as (A1 & A2 & A3 & A4 & A5 & A6).
      all: rb; [first [now apply RV|now apply r_props|apply r_i32, Hs|apply r_i64, Hs|apply r_bin, Hs]|]; done; cbn [fst]; refine (conj _ (conj _ (conj _ (conj _ (conj _ _))))); assumption.
    + cbn [fst]. refine (conj fine_empty (conj fine_empty (conj (c32 0 _) (conj strOk_nil (conj _ props_nil))))); [lia|]. cbn. unfold int64. lia.
  - intros [[e bt] br] r He Hr. destruct (bt && br); [|exact I]. now apply reads_got.
Qed.
Lemma r_step s : bytes s -> reads pStep (getStep rv f s).
Proof.
  intros H. apply r_fields; [| |exact H].
  - ids; destruct Ha as (A1 & A2 & A3 & A4 & A5).
    all: rb; [first [now apply r_vertex|now apply r_props|apply r_i32, Hs|apply r_i64, Hs|apply r_bin, Hs]|]; done; refine (conj _ (conj _ (conj _ (conj _ _)))); assumption.
  - refine (conj vertex_nil (conj (c32 0 _) (conj strOk_nil (conj _ props_nil)))); [lia|]. cbn. unfold int64. lia.
Qed.
Lemma r_path s : bytes s -> reads pPath (getPath rv f s).
Proof.
  intros H. apply r_fields; [|split; [apply vertex_nil|]; split; [apply short_nil|constructor]|exact H]. ids; destruct Ha as (A1 & A2 & A3).
  - rb; [apply r_list; [exact r_step|exact Hs]|]. done. split; assumption.
  - rb; [now apply r_vertex|]. done. split; [assumption|]. split; assumption.
Qed.
Lemma r_row s : bytes s -> reads pRow (getRow rv f s).
Proof.
  intros H. apply r_fields; [|split; [apply short_nil|constructor]|exact H]. ids. apply r_list; [|exact Hs]. intros q Hq. apply RV; [apply fine_empty|exact Hq].
Qed.
Lemma r_map s : bytes s -> reads pProps (getMap rv f s).
Proof. intros H. apply r_fields; [|apply props_nil|exact H]. ids. now apply r_props. Qed.
Lemma r_dataSet s : bytes s -> reads pDataSet (getDataSet rv f s).
Proof.
  intros H. apply r_fields; [|split; [apply short_nil|]; split; [constructor|]; split; [apply short_nil|constructor]|exact H]. ids; destruct Ha as (A1 & A2 & A3 & A4).
  - rb; [apply r_list; [exact r_row|exact Hs]|]. done. refine (conj A1 (conj A2 _)). assumption.
  - rb; [apply r_list; [exact r_bin|exact Hs]|]. done. cbn beta in *. lazymatch goal with K : _ /\ Forall strOk _ |- _ => exact (conj (proj1 K) (conj (proj2 K) (conj A3 A4))) end.
Qed.
Lemma set_nil : typed X (VSet []).
Proof. split; [intros x []|constructor]. Qed.
Lemma r_setElems s : bytes s -> reads pSet (getSetElems rv f X s).
Proof.
  intros Hs. unfold getSetElems. rb; [apply r_listHdr, Hs|]. cbn beta in *. destruct (_ =? tSTRUCT).
  - eapply reads_weak.
    + apply (r_times (fun n l => Z.of_nat (List.length l) + Z.max 0 n <= snd a /\ Forall fine l /\ typed X (VSet l))); [|split; [cbn; lia|split; [constructor|apply set_nil]]|assumption].
      intros n l q Hn (L1 & L2 & T1 & T2) Hq. rb; [apply RV; [apply fine_empty|assumption]|]. unfold setInsert. destruct (vhash X a0) as [h| | |] eqn:Hh; try exact I. done.
      destruct (memberOf X a0 l) eqn:Mm; [split; [lia|split; [exact L2|split; assumption]]|]. split; [rewrite app_length; cbn; lia|]. split; [apply Forall_app; auto|]. split.
      * intros x Hx. apply in_app_or in Hx as [Hx|[<-|[]]]; [exact (T1 x Hx)|now exists h].
      * apply pairs_snoc; [exact T2|]. apply Forall_forall. intros p Hp [Q1 Q2]. assert (memberOf X a0 l = true); [|congruence]. unfold memberOf. apply existsb_exists. exists p. split; [exact Hp|]. now rewrite Q1, Q2.
    + cbn beta. intros l (m & Hm & L1 & L2 & L3). split; [unfold shortL; lia|]. split; assumption.
  - apply r_skips; [intros; now apply r_skip|assumption|]. intros q Hq. apply reads_got; [|exact Hq]. split; [apply short_nil|]. split; [constructor|apply set_nil].
Qed.
Lemma r_set s : bytes s -> reads pSet (getSet rv f X s).
Proof. intros H. apply r_fields; [|split; [apply short_nil|]; split; [constructor|apply set_nil]|exact H]. ids. now apply r_setElems. Qed.
Lemma r_member i id ty s : fine i -> bytes s -> reads fine (getMember X rv f i id ty s).
Proof.
  intros Hi H. assert (S : reads fine (rbind (skip f true ty s) (fun _ r => Got i r))) by (rb; [now apply r_skip|]; now apply reads_got).
  assert (L : forall v, typed X v -> small v -> subvals v = [] -> fine v) by (intros v T M N; apply fine_intro; [exact T|exact M|rewrite N; constructor]).
  unfold getMember. destruct id as [|p|p]; try exact S; repeat (destruct p as [p|p|]; try exact S); cbv zeta; match goal with |- context [if ?c then _ else _] => destruct c; [|exact S] end.
  all: first [rb; [first [apply r_edge, H|apply r_path, H|apply r_row, H|apply r_map, H|apply r_set, H|apply r_dataSet, H|apply r_vertex; [apply vertex_nil|exact H]|apply r_date, H|apply r_time, H|apply r_dateTime, H|apply r_bin, H|apply r_double, H|apply r_i64, H|apply r_i32, H]|]|idtac].
  all: try (apply reads_got; [|assumption]).
  all: try first [now apply fine_edge|now apply fine_path|now apply fine_vertex|now apply fine_dataSet|now apply L].
  - apply fine_intro; [apply H0|exact (conj (proj1 (proj2 H0)) (proj1 (proj2 (proj2 H0))))|apply H0].
  - destruct H0 as (H2 & H3 & H4). now apply fine_intro.
  - destruct H0 as [H2 H3]. now apply fine_intro.
  - destruct (nullOf a); [|exact I]. apply reads_got; [now apply L|assumption].
Qed.
End Nested.
Theorem r_value : forall f i s, fine i -> bytes s -> reads fine (getValue X f i s).
Proof.
  induction f as [|f IH]; intros i s Hi H; [exact I|]. cbn [getValue]. rb; [apply r_field, H|]. destruct (_ =? 0); [apply reads_got; [apply fine_empty|assumption]|]. rb; [now apply r_member|].
  rb; [now apply r_field|]. destruct (_ =? 0); [now apply reads_got|exact I].
Qed.
End X.

(** * Expressions *)
Section Decode.
Variable VC : vcodec.
Variable P : value -> Prop.
Hypothesis HV : forall b v r, bytes b -> vdec VC b = Some (v, r) -> P v /\ bytes r.
Definition consts (e : expr) : Prop := allNodes (fun k _ => match k with KConst v => P v | _ => True end) e.
Definition gives {A} (Q : A -> Prop) (m : dec A) : Prop := forall b, bytes b -> match m b with Ret (a, r) => Q a /\ bytes r | _ => True end.
Lemma g_ret {A} (Q : A -> Prop) a : Q a -> gives Q (dret a).
Proof. intros H b Hb. now split. Qed.
Lemma g_fail {A} (Q : A -> Prop) : gives Q dfail.
Proof. intros b Hb. exact I. Qed.
Lemma g_bind {A C} (R : A -> Prop) (Q : C -> Prop) m c : gives R m -> (forall a, R a -> gives Q (c a)) -> gives Q (dbind m c).
Proof. intros H K b Hb. unfold dbind. specialize (H b Hb). destruct (m b) as [[a r]| | |]; auto. destruct H as [H1 H2]. exact (K a H1 r H2). Qed.
Lemma g_kind : gives (@all Z) readKind.
Proof. intros b Hb. destruct Hb; [exact I|]. now split. Qed.
Lemma g_size : gives (@all Z) readSize.
Proof. intros b Hb. unfold readSize. destruct (_ <? _)%nat; [exact I|]. split; [exact I|]. apply (bytes_split 8 b Hb). Qed.
Lemma g_str : gives (@all str) readStr.
Proof.
  intros b Hb. unfold readStr. destruct (_ <? _)%nat; [exact I|]. cbv zeta. destruct (_ <=? _); [exact I|]. destruct (_ <? _); [exact I|]. split; [exact I|]. destruct (bytes_split 8 b Hb) as [_ H]. now apply bytes_split.
Qed.
Lemma g_value : gives P (readValue VC).
Proof. intros b Hb. unfold readValue. destruct (vdec VC b) as [[v r]|] eqn:Q; [|exact I]. exact (HV b v r Hb Q). Qed.
Lemma g_bool : gives (@all bool) (readBool VC).
Proof. eapply g_bind; [apply g_value|]. intros [] _; try apply g_fail. now apply g_ret. Qed.
Lemma g_int : gives (@all Z) (readInt VC).
Proof. eapply g_bind; [apply g_value|]. intros [] _; try apply g_fail. now apply g_ret. Qed.
Lemma g_opt {A} c (Q : A -> Prop) m : gives Q m -> gives (fun o => match o with Some a => Q a | None => True end) (readOpt c m).
Proof. intros H. unfold readOpt. destruct c; [|now apply g_ret]. eapply g_bind; [exact H|]. intros a q. now apply g_ret. Qed.
Lemma g_many {A} (Q : A -> Prop) item : gives Q item -> forall g n, gives (Forall Q) (readMany item g n).
Proof.
  intros H. induction g as [|g IH]; intros n; cbn [readMany]; destruct (n <=? 0); try (apply g_ret; constructor); [intros b Hb; exact I|]. eapply g_bind; [exact H|]. intros a Ha. eapply g_bind; [apply IH|]. intros l Hl. apply g_ret. now constructor.
Qed.
Section Node.
Variable readE : dec expr.
Hypothesis HE : gives consts readE.
Lemma node_consts k cs : match k with KConst v => P v | _ => True end -> Forall consts cs -> consts (Node k cs).
Proof. intros H F. split; [exact H|]. now apply fold_and_Forall. Qed.
Ltac nxt := eapply g_bind; [first [exact HE|apply g_size|apply g_str|apply g_value|apply g_bool|apply g_int|eapply g_opt; first [exact HE|apply g_str]]|intros ? ?].
Ltac node := apply g_ret; apply node_consts; [first [exact I|assumption]|].
Lemma opt_consts o : match o with Some a => consts a | None => True end -> Forall consts (opt1 o).
Proof. destruct o; cbn; intros H; repeat constructor. assumption. Qed.
Lemma g_pair : gives (fun p => consts (fst p) /\ consts (snd p)) (readPair readE).
Proof. unfold readPair. nxt. nxt. now apply g_ret. Qed.
Lemma g_entry : gives (fun p => consts (snd p)) (readEntry readE).
Proof. unfold readEntry. nxt. nxt. now apply g_ret. Qed.
Lemma g_manyNode k f : match k with KConst v => P v | _ => True end -> gives consts (manyNode readE k f).
Proof. intros H. unfold manyNode. nxt. eapply g_bind; [apply g_many, HE|]. intros cs F. apply g_ret. now apply node_consts. Qed.
Lemma g_body f k : gives consts (decBody VC readE f k).
Proof.
  unfold decBody. repeat match goal with |- gives _ (match ?x with _ => _ end) => destruct x end; try apply g_fail; unfold unaryNode, binaryNode, propNode.
  all: repeat first [apply g_manyNode; exact I|nxt|match goal with |- gives _ (if ?c then _ else _) => destruct c end].
  all: try (apply g_ret; apply node_consts; [first [exact I|assumption]|]).
  all: cbn beta in *.
  all: repeat match goal with H : match ?o with Some _ => consts _ | None => True end |- _ => apply opt_consts in H end.
  all: try solve [repeat (apply Forall_cons; [assumption|]); first [apply Forall_nil|assumption|apply Forall_app; split; assumption]].
  - eapply g_bind; [apply g_many, g_pair|]. intros ps F. apply g_ret. apply node_consts; [exact I|]. apply Forall_app. split; [assumption|]. apply Forall_app. split; [assumption|]. induction F as [|[x y] ps [P1 P2] _ IH]; cbn; repeat (apply Forall_cons; [assumption|]); [apply Forall_nil|exact IH].
  - eapply g_bind; [apply g_many, g_entry|]. intros ps F. apply g_ret. apply node_consts; [exact I|]. apply Forall_map. exact F.
Qed.
End Node.
Lemma g_expr f : gives consts (readExpr VC f).
Proof. induction f as [|f IH]; [intros b Hb; exact I|]. cbn [readExpr]. eapply g_bind; [apply g_kind|]. intros k _. now apply g_body. Qed.
Lemma g_decode b e : bytes b -> decode VC b = Ret (Some e) -> consts e.
Proof.
  intros Hb H. unfold decode in H. destruct b as [|x b]; [discriminate|]. pose proof (g_expr (S (List.length (x :: b))) _ Hb) as G. destruct (readExpr VC _ _) as [[e' r]| | |]; try discriminate. injection H as <-. apply G.
Qed.
End Decode.
