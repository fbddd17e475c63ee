(** Readers undo writers. *)
From Coq Require Import String List.
From Verif Require Import Prelude ValueBase FloatProofs DateModel TimeModel HashModel ValueModel ValueProofs GraphModel AssocModel WireModel WireSpec.
Import ListNotations.
Local Open Scope list_scope.
Local Open Scope Z_scope.

Lemma getVar_ok : forall k n s, 0 <= n < 128 ^ Z.of_nat (S k) -> getVar (S k) (putVar (S k) n ++ s) = Got n s.
Proof.
  induction k as [|k IH]; intros n s H.
  - change (128 ^ Z.of_nat 1) with 128 in H. cbn [putVar]. assert (n <? 128 = true) as -> by lia. cbn. assert (n <? 128 = true) as -> by lia. reflexivity.
  - rewrite (Nat2Z.inj_succ (S k)), Z.pow_succ_r in H by lia. assert (0 < 128 ^ Z.of_nat (S k)) by (apply Z.pow_pos_nonneg; lia). revert IH H H0. generalize (S k). intros j IH H H0.
    cbn [putVar]. destruct (n <? 128) eqn:E; [cbn; rewrite E; reflexivity|]. cbn [app getVar getByte rbind].
    assert (128 + n mod 128 <? 128 = false) as -> by lia. rewrite IH by nia. cbn [rbind]. f_equal. lia.
Qed.
Lemma unzigzag_zigzag n : unzigzag (zigzag n) = n.
Proof.
  unfold unzigzag, zigzag. destruct (0 <=? n) eqn:E.
  - rewrite Z.even_mul. cbn [Z.even orb]. lia.
  - replace (-2 * n - 1) with (2 * (- n - 1) + 1) by lia. rewrite Z.even_add, Z.even_mul. cbn [Z.even orb eqb]. lia.
Qed.
Lemma getU32_ok n s : 0 <= n < 4294967296 -> getU32 (putVar 5 n ++ s) = Got n s.
Proof. intros H. unfold getU32. rewrite getVar_ok by (change (128 ^ Z.of_nat 5) with 34359738368; lia). cbn [rbind]. unfold u32. rewrite Z.mod_small by lia. reflexivity. Qed.
Lemma getI32_ok n s : inRange int32_min int32_max n -> getI32 (putI32 n ++ s) = Got n s.
Proof.
  unfold inRange, int32_min, int32_max. intros H. unfold getI32, putI32. rewrite getU32_ok by (unfold zigzag; destruct (0 <=? n) eqn:E; lia). cbn [rbind].
  rewrite unzigzag_zigzag. reflexivity.
Qed.
Lemma getI16_ok n s : inRange int16_min int16_max n -> getI16 (putI16 n ++ s) = Got n s.
Proof.
  unfold inRange, int16_min, int16_max. intros H. unfold getI16. change (putI16 n) with (putI32 n). rewrite getI32_ok by (unfold inRange, int32_min, int32_max; lia).
  cbn [rbind]. unfold wrap16. f_equal. lia.
Qed.
Lemma getI64_ok n s : inRange int64_min int64_max n -> getI64 (putI64 n ++ s) = Got n s.
Proof.
  unfold inRange, int64_min, int64_max. intros H. assert (B : 0 <= zigzag n < 18446744073709551616) by (unfold zigzag; destruct (0 <=? n) eqn:E; lia).
  unfold getI64, putI64. rewrite getVar_ok by (change (128 ^ Z.of_nat 10) with 1180591620717411303424; lia). cbn [rbind]. unfold u64. rewrite Z.mod_small by lia.
  rewrite unzigzag_zigzag. reflexivity.
Qed.
Lemma getI8_ok n s : inRange int8_min int8_max n -> getI8 (putByte n ++ s) = Got n s.
Proof. unfold inRange, int8_min, int8_max. intros H. cbn. f_equal. unfold wrap8. lia. Qed.
Lemma getN_ok a s : getN (Z.of_nat (List.length a)) (a ++ s) = Got a s.
Proof.
  unfold getN. rewrite app_length. assert (Z.of_nat (List.length a + List.length s) <? Z.of_nat (List.length a) = false) as -> by lia.
  rewrite Nat2Z.id, firstn_app, skipn_app, Nat.sub_diag, firstn_all, skipn_all, firstn_O, skipn_O, app_nil_r. reflexivity.
Qed.
Lemma getSize_ok n s : (Z.of_nat n < 2 ^ 31) -> getSize (putVar 5 (u32 (Z.of_nat n)) ++ s) = Got (Z.of_nat n) s.
Proof.
  change (2 ^ 31) with 2147483648. intros H. unfold getSize. rewrite getU32_ok by (unfold u32; lia). cbn [rbind]. unfold u32. rewrite Z.mod_small by lia.
  assert (2147483648 <=? Z.of_nat n = false) as -> by lia. reflexivity.
Qed.
Lemma getBin_ok a s : strOk a -> getBin (putBin a ++ s) = Got a s.
Proof. intros [H _]. unfold getBin, putBin. rewrite <- app_assoc, getSize_ok by exact H. cbn [rbind]. apply getN_ok. Qed.
Lemma beVal_rev n z acc : beVal (rev (leBytes n z)) acc = acc * 256 ^ Z.of_nat n + z mod 256 ^ Z.of_nat n.
Proof.
  revert z acc. assert (A : forall l acc x, beVal (l ++ [x]) acc = 256 * beVal l acc + x) by (induction l; intros; cbn; auto).
  induction n as [|n IH]; intros z acc; [cbn [leBytes rev beVal Z.of_nat]; change (256 ^ 0) with 1; rewrite Z.mod_1_r; lia|].
  cbn [leBytes rev]. rewrite A, IH, Nat2Z.inj_succ, Z.pow_succ_r by lia. assert (0 < 256 ^ Z.of_nat n) by (apply Z.pow_pos_nonneg; lia).
  rewrite Z.rem_mul_r by lia. lia.
Qed.
Lemma f64ofBits_ok f : f64valid f = true -> f64ofBits (f64bits f) = f.
Proof.
  intros V. destruct f as [s|s| |s m e]; [destruct s; reflexivity|destruct s; reflexivity|reflexivity|].
  apply valid_finite in V. destruct V as (V1 & V2 & V3). change (2 ^ 53) with 9007199254740992 in V2. change (2 ^ 52) with 4503599627370496 in V3.
  unfold f64bits. set (sb := if s then 9223372036854775808 else 0). destruct (Z.pos m <? 4503599627370496) eqn:E.
  - unfold f64ofBits. assert (e = -1074) by lia. subst e.
    assert ((9223372036854775808 <=? sb + Z.pos m) = s) as -> by (subst sb; destruct s; lia).
    assert (((sb + Z.pos m) / 4503599627370496) mod 2048 = 0) as -> by (subst sb; destruct s; lia).
    assert ((sb + Z.pos m) mod 4503599627370496 = Z.pos m) as -> by (subst sb; destruct s; lia). reflexivity.
  - unfold f64ofBits. set (u := sb + ((e + 1074) * 4503599627370496 + Z.pos m)).
    assert ((9223372036854775808 <=? u) = s) as -> by (subst u sb; destruct s; lia).
    assert ((u / 4503599627370496) mod 2048 = e + 1075) as -> by (subst u sb; destruct s; lia).
    assert (u mod 4503599627370496 = Z.pos m - 4503599627370496) as -> by (subst u sb; destruct s; lia).
    assert (e + 1075 =? 2047 = false) as -> by lia. assert (e + 1075 =? 0 = false) as -> by lia.
    replace (4503599627370496 + (Z.pos m - 4503599627370496)) with (Z.pos m) by lia. f_equal. lia.
Qed.
Lemma f64bits_range f : f64valid f = true -> 0 <= f64bits f < 18446744073709551616.
Proof.
  intros V. destruct f as [s|s| |s m e]; [destruct s; cbn; lia|destruct s; cbn; lia|cbn; lia|].
  apply valid_finite in V. destruct V as (V1 & V2 & V3). change (2 ^ 53) with 9007199254740992 in V2.
  unfold f64bits. destruct s, (Z.pos m <? 4503599627370496); lia.
Qed.
Lemma leBytes_len n z : List.length (leBytes n z) = n.
Proof. revert z. induction n; intros; cbn; auto. Qed.
Lemma getDouble_ok f s : f64valid f = true -> getDouble (putDouble f ++ s) = Got f s.
Proof.
  intros V. unfold getDouble, putDouble. set (b := rev (leBytes 8 (f64bits f))). assert (L : List.length b = 8%nat) by (unfold b; rewrite rev_length; apply leBytes_len).
  pose proof (getN_ok b s) as G. rewrite L in G. change (Z.of_nat 8) with 8 in G. rewrite G. cbn [rbind]. unfold b. rewrite beVal_rev. change (256 ^ Z.of_nat 8) with 18446744073709551616.
  rewrite Z.mod_small by (apply f64bits_range; exact V). rewrite Z.mul_0_l, Z.add_0_l, f64ofBits_ok by exact V. reflexivity.
Qed.
Lemma getField_ok last id t s : 0 < id - last <= 15 -> 0 <= last -> id <= 15 -> 0 < t < 14 -> getField last (putField last id t ++ s) = Got (id, t) s.
Proof.
  intros H1 H2 H3 H4. unfold getField, putField. assert ((0 <? id - last) && (id - last <=? 15) = true) as -> by lia. cbn [app getByte rbind].
  assert ((16 * (id - last) + t) mod 16 = t) as -> by lia. assert ((16 * (id - last) + t) / 16 = id - last) as -> by lia.
  assert (t =? 0 = false) as -> by lia. assert (id - last =? 0 = false) as -> by lia. cbn [rbind]. assert (14 <=? t = false) as -> by lia. unfold wrap16. do 2 f_equal. lia.
Qed.
Lemma getField_stop last s : getField last (putStop ++ s) = Got (0, 0) s.
Proof. reflexivity. Qed.
Lemma getListHdr_ok t n s : 0 < t < 16 -> Z.of_nat n < 2 ^ 31 -> getListHdr (putListHdr t n ++ s) = Got (t, Z.of_nat n) s.
Proof.
  intros H1 H2. unfold getListHdr, putListHdr. assert (U : u32 (Z.of_nat n) = Z.of_nat n) by (unfold u32; apply Z.mod_small; change (2 ^ 31) with 2147483648 in H2; lia).
  destruct (u32 (Z.of_nat n) <=? 14) eqn:E.
  - rewrite U in *. cbn [app getByte rbind]. assert ((16 * Z.of_nat n + t) / 16 = Z.of_nat n) as -> by lia. assert ((16 * Z.of_nat n + t) mod 16 = t) as -> by lia.
    assert (Z.of_nat n =? 15 = false) as -> by lia. reflexivity.
  - cbn [app getByte rbind]. assert ((240 + t) / 16 =? 15 = true) as -> by lia. rewrite getSize_ok by exact H2. cbn [rbind]. do 2 f_equal. lia.
Qed.
Lemma getMapHdr_ok kt vt n s : 0 < kt < 16 -> 0 < vt < 16 -> Z.of_nat n < 2 ^ 31 ->
  getMapHdr (putMapHdr kt vt n ++ s) = Got (if (n =? 0)%nat then (0, 0, 0) else (kt, vt, Z.of_nat n)) s.
Proof.
  intros H1 H2 H3. unfold getMapHdr, putMapHdr. assert (U : u32 (Z.of_nat n) = Z.of_nat n) by (unfold u32; apply Z.mod_small; change (2 ^ 31) with 2147483648 in H3; lia).
  destruct n as [|n]; [reflexivity|]. assert (u32 (Z.of_nat (S n)) =? 0 = false) as -> by lia. rewrite <- app_assoc, getSize_ok by exact H3. cbn [rbind].
  assert (Z.of_nat (S n) =? 0 = false) as -> by lia. cbn [app getByte rbind Nat.eqb]. do 3 f_equal; lia.
Qed.

(** * Structs *)
Section Fields.
Context {A : Type}.
Variable table : Z -> option (Z * (A -> str -> rd A)).
Variable quick : Z -> Z * Z -> option (option Z).
Variable sk : Z -> str -> rd unit.
Lemma fields_step g cur id t rf a s : table id = Some (t, rf) -> quick cur (id, t) = None -> 0 < id - cur <= 15 -> 0 <= cur -> id <= 15 -> 0 < t < 14 ->
  fields table quick sk (S g) cur true a (putField cur id t ++ s) = rbind (rf a s) (fields table quick sk g id true).
Proof.
  intros T Q H1 H2 H3 H4. cbn [fields]. rewrite getField_ok by assumption. cbn [rbind fst snd]. rewrite Q, T. assert (t =? 0 = false) as -> by lia. rewrite Z.eqb_refl. reflexivity.
Qed.
Lemma fields_stop g cur a s : quick cur (0, 0) = None -> fields table quick sk (S g) cur true a (putStop ++ s) = Got a s.
Proof. intros Q. cbn [fields]. rewrite getField_stop. cbn [rbind fst snd]. rewrite Q. reflexivity. Qed.
End Fields.

Ltac fuel g := let g' := fresh g in destruct g as [|g']; [exfalso; cbn in *; lia|]; rename g' into g.
Ltac field := rewrite <- ?app_assoc; erewrite fields_step; [|reflexivity|reflexivity|lia|lia|lia|unfold tBYTE, tI16, tI32, tI64, tBIN, tLIST, tSET, tMAP, tSTRUCT; lia]; cbv beta iota.
Ltac stop := rewrite fields_stop by reflexivity.

Lemma putDate_ok g f d s : (4 <= g)%nat -> dateOk d -> fields dateTable noQuick (skip f true) g 0 true (mkDate 0 1 1) (putDate d ++ s) = Got d s.
Proof.
  intros G (D1 & D2 & D3). unfold putDate. fuel g. field. rewrite getI16_ok by exact D1. cbn [rbind]. fuel g. field. rewrite getI8_ok by exact D2. cbn [rbind].
  fuel g. field. rewrite getI8_ok by exact D3. cbn [rbind]. fuel g. stop. destruct d. reflexivity.
Qed.
Lemma putTime_ok g f t s : (5 <= g)%nat -> timeOk t -> fields timeTable timeQuick (skip f true) g 0 true (mkTime 0 0 0 0) (putTime t ++ s) = Got t s.
Proof.
  intros G (D1 & D2 & D3 & D4). unfold putTime. fuel g. field. rewrite getI8_ok by exact D1. cbn [rbind]. fuel g. field. rewrite getI8_ok by exact D2. cbn [rbind].
  fuel g. field. rewrite getI8_ok by exact D3. cbn [rbind]. fuel g. field. rewrite getI32_ok by exact D4. cbn [rbind]. fuel g. stop. destruct t. reflexivity.
Qed.
Lemma putDateTime_ok g f t s : (8 <= g)%nat -> dateTimeOk t -> fields dateTimeTable dateTimeQuick (skip f true) g 0 true (mkDT 0 1 1 0 0 0 0) (putDateTime t ++ s) = Got t s.
Proof.
  unfold dateTimeOk, inRange, int16_min, int16_max. intros G (D1 & D2 & D3 & D4 & D5 & D6 & D7). unfold putDateTime.
  fuel g. field. rewrite getI16_ok by exact D1. cbn [rbind]. fuel g. field. rewrite getI8_ok by (unfold inRange, int8_min, int8_max; lia). cbn [rbind].
  fuel g. field. rewrite getI8_ok by (unfold inRange, int8_min, int8_max; lia). cbn [rbind]. fuel g. field. rewrite getI8_ok by (unfold inRange, int8_min, int8_max; lia). cbn [rbind].
  fuel g. field. rewrite getI8_ok by (unfold inRange, int8_min, int8_max; lia). cbn [rbind]. fuel g. field. rewrite getI8_ok by (unfold inRange, int8_min, int8_max; lia). cbn [rbind].
  fuel g. field. rewrite getI32_ok by (unfold inRange, int32_min, int32_max; lia). cbn [rbind]. fuel g. stop. destruct t as [y mo d h mi se mu]. cbn in *. do 2 f_equal; lia.
Qed.

(** * Containers *)
Lemma times_list {A C} (elem : str -> rd C) (w : A -> str) (g : A -> C) : forall l f acc s, (List.length l <= f)%nat ->
  (forall x r, In x l -> elem (w x ++ r) = Got (g x) r) ->
  times (fun l r1 => rbind (elem r1) (fun x r2 => Got (l ++ [x]) r2)) f (Z.of_nat (List.length l)) acc (flat_map w l ++ s) = Got (acc ++ map g l) s.
Proof.
  induction l as [|x l IH]; intros f acc s L H.
  - destruct f; cbn; rewrite app_nil_r; reflexivity.
  - destruct f as [|f]; [cbn in L; lia|]. cbn [flat_map times]. assert (Z.of_nat (List.length (x :: l)) <=? 0 = false) as -> by (cbn [List.length]; lia).
    rewrite <- app_assoc, H by (left; reflexivity). cbn [rbind]. replace (Z.of_nat (List.length (x :: l)) - 1) with (Z.of_nat (List.length l)) by (cbn [List.length]; lia).
    rewrite IH; [cbn [map]; rewrite <- app_assoc; reflexivity|cbn in L; lia|intros y r Hy; apply H; right; exact Hy].
Qed.
Lemma getList_ok {A C} f et (elem : str -> rd C) (w : A -> str) (g : A -> C) l s : 0 < et < 16 -> shortL l -> (List.length l <= f)%nat ->
  (forall x r, In x l -> elem (w x ++ r) = Got (g x) r) -> getList f et elem (putListHdr et (List.length l) ++ flat_map w l ++ s) = Got (map g l) s.
Proof.
  intros H1 H2 H3 H4. unfold getList. rewrite getListHdr_ok by assumption. cbn [rbind fst snd]. rewrite Z.eqb_refl. exact (times_list elem w g l f [] s H3 H4).
Qed.
Lemma flat_map_len {A} (w : A -> str) l : (forall x, In x l -> (1 <= List.length (w x))%nat) -> (List.length l <= List.length (flat_map w l))%nat.
Proof.
  induction l as [|x l IH]; intros H; [cbn; lia|]. cbn [flat_map List.length]. rewrite app_length. specialize (H x (or_introl eq_refl)) as H1.
  assert (List.length l <= List.length (flat_map w l))%nat by (apply IH; intros y Hy; apply H; right; exact Hy). lia.
Qed.
Lemma flat_map_In_len {A} (w : A -> str) l x : In x l -> (List.length (w x) <= List.length (flat_map w l))%nat.
Proof. induction l as [|y l IH]; intros []; [subst|]; cbn [flat_map]; rewrite app_length; [lia|]. specialize (IH H). lia. Qed.
Lemma aset_new {V} k (v : V) m : ~ In k (map fst m) -> aset strEqb k v m = m ++ [(k, v)].
Proof.
  induction m as [|[k0 v0] m IH]; intros H; [reflexivity|]. cbn. destruct (strEqb k k0) eqn:E; [apply strEqb_eq in E; subst; exfalso; apply H; left; reflexivity|].
  rewrite IH; [reflexivity|]. intros X; apply H; right; exact X.
Qed.

Lemma props_len m : (List.length m <= List.length (putProps putValue m))%nat.
Proof.
  unfold putProps. rewrite app_length. pose proof (flat_map_len (fun p : str * value => putBin (fst p) ++ putValue (snd p)) m) as H.
  assert (List.length m <= List.length (flat_map (fun p : str * value => putBin (fst p) ++ putValue (snd p)) m))%nat; [|lia]. apply H.
  intros [k v] _. rewrite app_length. cbn [fst snd]. unfold putBin. rewrite app_length. change (putVar 5 ?n) with (if n <? 128 then [n] else 128 + n mod 128 :: putVar 4 (n / 128)).
  destruct (_ <? 128); cbn [List.length]; lia.
Qed.
Lemma putField_len last id t : 0 < id - last <= 15 -> List.length (putField last id t) = 1%nat.
Proof. intros H. unfold putField. assert ((0 <? id - last) && (id - last <=? 15) = true) as -> by lia. reflexivity. Qed.
Lemma putStop_len : List.length putStop = 1%nat.
Proof. reflexivity. Qed.
Ltac lens H := rewrite ?app_length in H; rewrite ?putField_len in H by lia; rewrite ?putStop_len in H.
Lemma putTag_len t : (1 <= List.length (putTag putValue t))%nat.
Proof. unfold putTag. rewrite app_length, putField_len by lia. lia. Qed.
Lemma putStep_len t : (1 <= List.length (putStep putValue t))%nat.
Proof. unfold putStep. rewrite app_length, putField_len by lia. lia. Qed.
Lemma putValue_len v : (1 <= List.length (putValue v))%nat.
Proof. destruct v; cbn [putValue]; rewrite ?app_length, ?putStop_len; lia. Qed.
Lemma putRow_len t : (1 <= List.length (putRow putValue t))%nat.
Proof. unfold putRow. rewrite app_length, putField_len by lia. lia. Qed.
Lemma putBin_len t : (1 <= List.length (putBin t))%nat.
Proof. unfold putBin. rewrite app_length. cbn [putVar]. destruct (_ <? 128); cbn [List.length]; lia. Qed.
Lemma props_sub m c : In c (map snd m) -> (List.length (putValue c) <= List.length (putProps putValue m))%nat.
Proof.
  intros H. apply in_map_iff in H. destruct H as ([k v] & <- & H). unfold putProps. rewrite app_length.
  pose proof (flat_map_In_len (fun p : str * value => putBin (fst p) ++ putValue (snd p)) m _ H) as L. cbn [fst snd] in L. rewrite app_length in L. cbn [snd]. lia.
Qed.
Lemma vertex_sub x c : In c (vertexVals x) -> (List.length (putValue c) <= List.length (putVertex putValue x))%nat.
Proof.
  intros H. unfold putVertex. rewrite !app_length. destruct H as [<- |H]; [lia|]. apply in_flat_map in H. destruct H as (t & Ht & H).
  pose proof (flat_map_In_len (putTag putValue) _ _ Ht) as L. apply props_sub in H. unfold putTag in L at 1. rewrite !app_length in L. lia.
Qed.
Lemma step_sub x c : In c (stepVals x) -> (List.length (putValue c) <= List.length (putStep putValue x))%nat.
Proof.
  intros H. unfold putStep. rewrite !app_length. apply in_app_or in H. destruct H as [H|H]; [apply vertex_sub in H|apply props_sub in H]; lia.
Qed.
Lemma value_sub v c : In c (subvals v) -> (List.length (putValue c) < List.length (putValue v))%nat.
Proof.
  destruct v as [|n|b|z|x|x|d|t|t|x|e|p|l|m|l|d]; intros H; cbn [subvals] in H; try contradiction; cbn [putValue]; rewrite !app_length, !putField_len, putStop_len by lia.
  - apply vertex_sub in H. lia.
  - unfold putEdge. rewrite !app_length. destruct H as [<- |[<- |H]]; [| |apply props_sub in H]; lia.
  - unfold putPath. rewrite !app_length. apply in_app_or in H. destruct H as [H|H]; [apply vertex_sub in H; lia|]. apply in_flat_map in H. destruct H as (t & Ht & H).
    pose proof (flat_map_In_len (putStep putValue) _ _ Ht). apply step_sub in H. lia.
  - unfold putRow, putList. rewrite !app_length. pose proof (flat_map_In_len putValue _ _ H). lia.
  - unfold putMap. rewrite !app_length. apply props_sub in H. lia.
  - unfold putSet, putList. rewrite !app_length. pose proof (flat_map_In_len putValue _ _ H). lia.
  - unfold putDataSet. rewrite !app_length. apply in_concat in H. destruct H as (r & Hr & H). pose proof (flat_map_In_len (putRow putValue) _ _ Hr) as L.
    unfold putRow in L at 1. unfold putList in L. rewrite !app_length in L. pose proof (flat_map_In_len putValue _ _ H). lia.
Qed.

Section Values.
Variable rv : value -> str -> rd value.
(** reading gives what was written *)
Definition good (v : value) : Prop := forall init r, rv init (putValue v ++ r) = Got (carried v) r.
Variable f : nat.
Lemma getProps_ok m s : propsOk m -> (List.length m <= f)%nat -> (forall v, In v (map snd m) -> good v) -> getProps rv f (putProps putValue m ++ s) = Got (carryProps carried m) s.
Proof.
  intros (P1 & P2 & P3) L H. unfold getProps, putProps. rewrite <- app_assoc, getMapHdr_ok by (try exact P1; unfold tBIN, tSTRUCT; lia). cbn [rbind].
  destruct m as [|p0 m0] eqn:Em; [cbn; destruct f; reflexivity|]. rewrite <- Em in *. assert ((List.length m =? 0)%nat = false) as -> by (subst; reflexivity). cbn iota beta.
  change ((tBIN =? tBIN) && (tSTRUCT =? tSTRUCT)) with true. cbn iota. clear Em p0 m0 P1.
  assert (G : forall l g acc, (List.length l <= g)%nat -> NoDup (map fst (acc ++ l)) -> (forall k v, In (k, v) l -> strOk k /\ good v) ->
    times (fun m r1 => rbind (getBin r1) (fun k r2 => rbind (rv (match aget strEqb k m with Some v => v | None => VEmpty end) r2) (fun v r3 => Got (aset strEqb k v m) r3)))
      g (Z.of_nat (List.length l)) (carryProps carried acc) (flat_map (fun p => putBin (fst p) ++ putValue (snd p)) l ++ s) = Got (carryProps carried (acc ++ l)) s).
  { induction l as [|[k v] l IH]; intros g acc Lg N Hl; [destruct g; cbn; rewrite app_nil_r; reflexivity|].
    destruct g as [|g]; [cbn in Lg; lia|]. cbn [flat_map times fst snd]. assert (Z.of_nat (List.length ((k, v) :: l)) <=? 0 = false) as -> by (cbn [List.length]; lia).
    destruct (Hl k v (or_introl eq_refl)) as [Sk Gv]. rewrite <- !app_assoc, getBin_ok by exact Sk. cbn [rbind]. rewrite Gv. cbn [rbind].
    replace (Z.of_nat (List.length ((k, v) :: l)) - 1) with (Z.of_nat (List.length l)) by (cbn [List.length]; lia).
    assert (~ In k (map fst (carryProps carried acc))).
    { unfold carryProps. rewrite map_map. cbn [fst]. change (map (fun x : str * value => fst x) acc) with (map fst acc). rewrite map_app in N. cbn [map fst] in N. apply NoDup_remove_2 in N. intros X; apply N, in_or_app; left; exact X. }
    rewrite aset_new by assumption. specialize (IH g (acc ++ [(k, v)])). 
    assert (Ea : carryProps carried (acc ++ [(k, v)]) = carryProps carried acc ++ [(k, carried v)]) by (unfold carryProps; rewrite map_app; reflexivity). rewrite Ea in IH.
    etransitivity; [apply IH|]; [cbn in Lg; lia|rewrite <- app_assoc; exact N|intros k' v' X; apply Hl; right; exact X|rewrite <- app_assoc; reflexivity]. }
  apply (G m f []); [exact L|exact P2|]. intros k v X. split; [exact (P3 k v X)|]. apply H. apply (in_map snd) in X. exact X.
Qed.
Lemma getTag_ok t s : tagOk t -> (List.length (putTag putValue t) <= f)%nat -> (forall v, In v (tagVals t) -> good v) -> getTag rv f (putTag putValue t ++ s) = Got (carryTag carried t) s.
Proof.
  intros [T1 T2] L H. unfold getTag. assert (E : forall g, (3 <= g)%nat -> fields (tagTable rv f) noQuick (skip f true) g 0 true (mkTag [] []) (putTag putValue t ++ s) = Got (carryTag carried t) s).
  { intros g G. pose proof (props_len (tgprops t)) as PL. unfold putTag in *. lens L. fuel g. field. rewrite getBin_ok by exact T1. cbn [rbind]. fuel g. field.
    rewrite getProps_ok by (auto; lia). cbn [rbind]. fuel g. stop. reflexivity. }
  apply E. unfold putTag in L. lens L. lia.
Qed.
Lemma getVertex_ok v s : vertexOk v -> (List.length (putVertex putValue v) <= f)%nat -> (forall x, In x (vertexVals v) -> good x) ->
  getVertexInto rv f (mkVertex VEmpty []) (putVertex putValue v ++ s) = Got (carryVertex carried v) s.
Proof.
  intros [T1 T2] L H. unfold getVertexInto.
  assert (E : forall g, (3 <= g)%nat -> fields (vertexTable rv f) noQuick (skip f true) g 0 true (mkVertex VEmpty []) (putVertex putValue v ++ s) = Got (carryVertex carried v) s).
  { intros g G. unfold putVertex in *. unfold putList in *. lens L. pose proof (flat_map_len (putTag putValue) (vtags v) (fun x _ => putTag_len x)) as FL.
    fuel g. field. rewrite (H (vvid v)) by (left; reflexivity). cbn [rbind]. fuel g. field.
    rewrite (getList_ok f tSTRUCT (getTag rv f) (putTag putValue) (carryTag carried)); [cbn [rbind]; fuel g; stop; reflexivity|unfold tSTRUCT; lia|exact T1|lia|].
    intros t r Ht. pose proof (flat_map_In_len (putTag putValue) _ _ Ht). apply getTag_ok; [apply T2, Ht|lia|]. intros x Hx. apply H. right. apply in_flat_map. exists t. auto. }
  apply E. unfold putVertex in L. lens L. lia.
Qed.
Lemma wireType_sgn z : inRange int32_min int32_max z -> wireType z = Z.sgn z /\ inRange int32_min int32_max (wireType z).
Proof. unfold inRange, int32_min, int32_max, wireType. intros H. destruct (z =? 0) eqn:E0; [|destruct (0 <? z) eqn:E]; lia. Qed.
Lemma getEdge_ok e s : edgeOk e -> (List.length (putEdge putValue e) <= f)%nat -> (forall x, In x (edgeVals e) -> good x) ->
  getEdge rv f (putEdge putValue e ++ s) = Got (carryEdge carried e) s.
Proof.
  intros (T1 & T2 & T3 & T4) L H. destruct (wireType_sgn _ T1) as [W1 W2]. unfold getEdge.
  assert (E : forall g, (7 <= g)%nat -> fields (edgeTable rv f) noQuick (skip f true) g 0 true (mkEdge VEmpty VEmpty 0 [] 0 [], false, false) (putEdge putValue e ++ s) =
     Got (carryEdge carried e, true, true) s).
  { intros g G. pose proof (props_len (eprops e)) as PL. unfold putEdge in *. lens L.
    fuel g. field. rewrite (H (esrc e)) by (left; reflexivity). cbn [rbind]. fuel g. field. rewrite (H (edst e)) by (right; left; reflexivity). cbn [rbind].
    fuel g. field. rewrite getI32_ok by exact W2. cbn [rbind]. fuel g. field. rewrite getBin_ok by exact T3. cbn [rbind].
    fuel g. field. rewrite getI64_ok by exact T2. cbn [rbind]. fuel g. field. rewrite getProps_ok; [|exact T4|lia|intros x Hx; apply H; right; right; exact Hx]. cbn [rbind].
    fuel g. stop. cbn [esrc edst etype ename erank eprops]. rewrite W1. reflexivity. }
  rewrite E; [reflexivity|]. unfold putEdge in L. lens L. lia.
Qed.
Lemma getStep_ok e s : stepOk e -> (List.length (putStep putValue e) <= f)%nat -> (forall x, In x (stepVals e) -> good x) ->
  getStep rv f (putStep putValue e ++ s) = Got (carryStep carried e) s.
Proof.
  intros (T0 & T1 & T2 & T3 & T4) L H. destruct (wireType_sgn _ T1) as [W1 W2]. unfold getStep.
  assert (E : forall g, (6 <= g)%nat -> fields (stepTable rv f) noQuick (skip f true) g 0 true (mkStep (mkVertex VEmpty []) 0 [] 0 []) (putStep putValue e ++ s) =
     Got (carryStep carried e) s).
  { intros g G. pose proof (props_len (sprops e)) as PL. unfold putStep in *. lens L.
    fuel g. field. cbn [sdst]. rewrite getVertex_ok; [|exact T0|lia|intros x Hx; apply H, in_or_app; left; exact Hx]. cbn [rbind].
    fuel g. field. rewrite getI32_ok by exact W2. cbn [rbind]. fuel g. field. rewrite getBin_ok by exact T3. cbn [rbind].
    fuel g. field. rewrite getI64_ok by exact T2. cbn [rbind]. fuel g. field. rewrite getProps_ok; [|exact T4|lia|intros x Hx; apply H, in_or_app; right; exact Hx]. cbn [rbind].
    fuel g. stop. cbn [sdst stype sname srank sprops]. rewrite W1. reflexivity. }
  rewrite E; [reflexivity|]. unfold putStep in L. lens L. lia.
Qed.
Lemma getPath_ok p s : vertexOk (psrc p) -> shortL (psteps p) -> (forall x, In x (psteps p) -> stepOk x) -> (List.length (putPath putValue p) <= f)%nat ->
  (forall x, In x (pathVals p) -> good x) -> getPath rv f (putPath putValue p ++ s) = Got (carryPath carried p) s.
Proof.
  intros T0 T1 T2 L H. unfold getPath.
  assert (E : forall g, (3 <= g)%nat -> fields (pathTable rv f) noQuick (skip f true) g 0 true (mkPath (mkVertex VEmpty []) []) (putPath putValue p ++ s) = Got (carryPath carried p) s).
  { intros g G. unfold putPath in *. lens L. pose proof (flat_map_len (putStep putValue) (psteps p) (fun x _ => putStep_len x)) as FL.
    fuel g. field. cbn [psrc]. rewrite getVertex_ok; [|exact T0|lia|intros x Hx; apply H, in_or_app; left; exact Hx]. cbn [rbind]. fuel g. field.
    rewrite (getList_ok f tSTRUCT (getStep rv f) (putStep putValue) (carryStep carried)); [cbn [rbind]; fuel g; stop; reflexivity|unfold tSTRUCT; lia|exact T1|lia|].
    intros t r Ht. pose proof (flat_map_In_len (putStep putValue) _ _ Ht). apply getStep_ok; [apply T2, Ht|lia|]. intros x Hx. apply H. apply in_or_app. right. apply in_flat_map. exists t. auto. }
  apply E. unfold putPath in L. lens L. lia.
Qed.
Lemma getRow_ok l s : shortL l -> (List.length (putRow putValue l) <= f)%nat -> (forall x, In x l -> good x) -> getRow rv f (putRow putValue l ++ s) = Got (map carried l) s.
Proof.
  intros T1 L H. unfold getRow.
  assert (E : forall g, (2 <= g)%nat -> fields (rowTable rv f) noQuick (skip f true) g 0 true [] (putRow putValue l ++ s) = Got (map carried l) s).
  { intros g G. unfold putRow, putList in *. lens L. pose proof (flat_map_len putValue l (fun x _ => putValue_len x)) as FL.
    fuel g. field. rewrite (getList_ok f tSTRUCT (rv VEmpty) putValue carried); [cbn [rbind]; fuel g; stop; reflexivity|unfold tSTRUCT; lia|exact T1|lia|].
    intros t r Ht. apply H, Ht. }
  apply E. unfold putRow in L. lens L. lia.
Qed.
Lemma getMap_ok m s : propsOk m -> (List.length (putMap putValue m) <= f)%nat -> (forall x, In x (map snd m) -> good x) -> getMap rv f (putMap putValue m ++ s) = Got (carryProps carried m) s.
Proof.
  intros T1 L H. unfold getMap.
  assert (E : forall g, (2 <= g)%nat -> fields (mapTable rv f) noQuick (skip f true) g 0 true [] (putMap putValue m ++ s) = Got (carryProps carried m) s).
  { intros g G. pose proof (props_len m). unfold putMap in *. lens L. fuel g. field. rewrite getProps_ok; [|exact T1|lia|exact H]. cbn [rbind]. fuel g. stop. reflexivity. }
  apply E. unfold putMap in L. lens L. lia.
Qed.
Lemma getDataSet_ok X d s : nodeOk X (VDataSet d) -> (List.length (putDataSet putValue d) <= f)%nat -> (forall x, In x (concat (drows d)) -> good x) ->
  getDataSet rv f (putDataSet putValue d ++ s) = Got (mkDataSet (dcols d) (map (map carried) (drows d))) s.
Proof.
  intros (T1 & T2 & T3 & T4) L H. unfold getDataSet.
  assert (E : forall g, (3 <= g)%nat -> fields (dataSetTable rv f) noQuick (skip f true) g 0 true (mkDataSet [] []) (putDataSet putValue d ++ s) =
    Got (mkDataSet (dcols d) (map (map carried) (drows d))) s).
  { intros g G. unfold putDataSet in *. lens L. pose proof (flat_map_len putBin (dcols d) (fun x _ => putBin_len x)) as FL.
    pose proof (flat_map_len (putRow putValue) (drows d) (fun x _ => putRow_len x)) as FL2.
    fuel g. field. rewrite (getList_ok f tBIN getBin putBin (fun x => x)); [|unfold tBIN; lia|exact T1|lia|intros t r Ht; apply getBin_ok, T2, Ht]. cbn [rbind]. rewrite map_id.
    fuel g. field. rewrite (getList_ok f tSTRUCT (getRow rv f) (putRow putValue) (map carried)); [cbn [rbind]; fuel g; stop; reflexivity|unfold tSTRUCT; lia|exact T3|lia|].
    intros t r Ht. pose proof (flat_map_In_len (putRow putValue) _ _ Ht). apply getRow_ok; [apply T4, Ht|lia|]. intros x Hx. apply H. apply in_concat. exists t. auto. }
  apply E. unfold putDataSet in L. lens L. lia.
Qed.
Variable X : externals.
Lemma setOk_app a b : setOk X (a ++ b) -> forall v w, In v a -> In w b -> sameHash X w v && veq X w v = false.
Proof.
  induction a as [|x a IH]; intros H v w Hv Hw; [destruct Hv|]. destruct H as (_ & H1 & H2). destruct Hv as [-> |Hv]; [apply H1, in_or_app; right; exact Hw|apply IH; assumption].
Qed.
Lemma setOk_hash a x b : setOk X (a ++ x :: b) -> exists h, vhash X x = Ret h.
Proof. induction a as [|y a IH]; intros H; [exact (proj1 H)|]. apply IH. exact (proj2 (proj2 H)). Qed.
Lemma getSet_ok l s : shortL l -> setOk X (map carried l) -> (List.length (putSet putValue l) <= f)%nat -> (forall x, In x l -> good x) ->
  getSet rv f X (putSet putValue l ++ s) = Got (map carried l) s.
Proof.
  intros T1 T2 L H. unfold getSet.
  assert (I : forall l' g acc r, (List.length l' <= g)%nat -> setOk X (acc ++ map carried l') -> (forall x, In x l' -> good x) ->
    times (fun l r1 => rbind (rv VEmpty r1) (fun x r2 => setInsert X l x r2)) g (Z.of_nat (List.length l')) acc (flat_map putValue l' ++ r) = Got (acc ++ map carried l') r).
  { induction l' as [|x l' IH]; intros g acc r Lg S Hl; [destruct g; cbn; rewrite app_nil_r; reflexivity|].
    destruct g as [|g]; [cbn in Lg; lia|]. cbn [flat_map times]. assert (Z.of_nat (List.length (x :: l')) <=? 0 = false) as -> by (cbn [List.length]; lia).
    rewrite <- app_assoc, (Hl x) by (left; reflexivity). cbn [rbind]. unfold setInsert. cbn [map] in S. destruct (setOk_hash _ _ _ S) as [h ->].
    assert (memberOf X (carried x) acc = false) as ->.
    { unfold memberOf. apply not_true_is_false. intros B. apply existsb_exists in B. destruct B as (w & Hw & B). rewrite (setOk_app _ _ S w (carried x) Hw) in B; [discriminate|left; reflexivity]. }
    cbn [rbind]. replace (Z.of_nat (List.length (x :: l')) - 1) with (Z.of_nat (List.length l')) by (cbn [List.length]; lia).
    etransitivity; [apply IH|]; [cbn in Lg; lia|rewrite <- app_assoc; exact S|intros y Hy; apply Hl; right; exact Hy|cbn [map]; rewrite <- app_assoc; reflexivity]. }
  assert (E : forall g, (2 <= g)%nat -> fields (setTable rv f X) noQuick (skip f true) g 0 true [] (putSet putValue l ++ s) = Got (map carried l) s).
  { intros g G. unfold putSet, putList in *. lens L. pose proof (flat_map_len putValue l (fun x _ => putValue_len x)) as FL.
    fuel g. field. unfold getSetElems. rewrite getListHdr_ok by (try exact T1; unfold tSTRUCT; lia). cbn [rbind fst snd]. rewrite Z.eqb_refl.
    rewrite (I l f []); [cbn [rbind app]; fuel g; stop; reflexivity|lia|exact T2|exact H]. }
  apply E. unfold putSet in L. lens L. lia.
Qed.
End Values.

(** * Values *)
Section Value.
Variable X : externals.
Lemma value_step f init id t b v s : 0 < id <= 15 -> 0 < t < 14 -> getMember X (getValue X f) f init id t (b ++ putStop ++ s) = Got v (putStop ++ s) ->
  getValue X (S f) init ((putField 0 id t ++ b ++ putStop) ++ s) = Got v s.
Proof.
  intros H1 H2 H3. cbn [getValue]. rewrite <- !app_assoc, getField_ok by lia. cbn [rbind fst snd]. assert (t =? 0 = false) as -> by lia. rewrite H3. cbn [rbind].
  rewrite getField_stop. reflexivity.
Qed.
Ltac types := unfold tBYTE, tI16, tI32, tI64, tDOUBLE, tBIN, tLIST, tSET, tMAP, tSTRUCT; lia.
Theorem getValue_ok : forall v, sendable X v -> forall f init s, (List.length (putValue v) <= f)%nat -> getValue X f init (putValue v ++ s) = Got (carried v) s.
Proof.
  apply (value_sub_ind (fun v => sendable X v -> forall f init s, (List.length (putValue v) <= f)%nat -> getValue X f init (putValue v ++ s) = Got (carried v) s)).
  intros v IH C f init s L. inversion C as [v' N S E]; subst v'. destruct f as [|f]; [pose proof (putValue_len v); lia|].
  assert (G : forall c, In c (subvals v) -> good (getValue X f) c).
  { intros c Hc i r. apply IH; [exact Hc|apply S, Hc|]. apply value_sub in Hc. lia. }
  destruct v as [|n|b|z|x|x|d|t|t|x|e|p|l|m|l|d]; cbn [putValue carried] in *; try (apply value_step; [lia|types|]).
  - reflexivity.
  - unfold getMember. rewrite Z.eqb_refl, getI32_ok by (unfold inRange, int32_min, int32_max; destruct n; cbn; lia). destruct n; reflexivity.
  - replace (putField 0 2 (if b then 1 else 2) ++ putStop) with (putField 0 2 (if b then 1 else 2) ++ [] ++ putStop) by reflexivity.
    apply value_step; [lia|destruct b; lia|]. destruct b; reflexivity.
  - unfold getMember. rewrite Z.eqb_refl, getI64_ok by exact N. reflexivity.
  - unfold getMember. rewrite Z.eqb_refl, getDouble_ok by exact N. reflexivity.
  - unfold getMember. rewrite Z.eqb_refl, getBin_ok by exact N. reflexivity.
  - unfold getMember. rewrite Z.eqb_refl. unfold getDate. rewrite putDate_ok; [reflexivity| |exact N]. unfold putDate in L. lens L. lia.
  - unfold getMember. rewrite Z.eqb_refl. unfold getTime. rewrite putTime_ok; [reflexivity| |exact N]. unfold putTime in L. lens L. lia.
  - unfold getMember. rewrite Z.eqb_refl. unfold getDateTime. rewrite putDateTime_ok; [reflexivity| |exact N]. unfold putDateTime in L. lens L. lia.
  - unfold getMember. rewrite Z.eqb_refl. lens L. rewrite getVertex_ok; [reflexivity|exact N|lia|exact G].
  - unfold getMember. rewrite Z.eqb_refl. lens L. rewrite getEdge_ok; [reflexivity|exact N|lia|exact G].
  - unfold getMember. rewrite Z.eqb_refl. lens L. destruct N as (N1 & N2 & N3). rewrite getPath_ok; [reflexivity|exact N1|exact N2|exact N3|lia|exact G].
  - unfold getMember. rewrite Z.eqb_refl. lens L. rewrite getRow_ok; [reflexivity|exact N|lia|exact G].
  - unfold getMember. rewrite Z.eqb_refl. lens L. rewrite getMap_ok; [reflexivity|exact N|lia|exact G].
  - unfold getMember. rewrite Z.eqb_refl. lens L. destruct N as (N1 & N2). rewrite getSet_ok; [reflexivity|exact N1|exact N2|lia|exact G].
  - unfold getMember. rewrite Z.eqb_refl. lens L. rewrite (getDataSet_ok _ _ X); [reflexivity|exact N|lia|exact G].
Qed.
End Value.
