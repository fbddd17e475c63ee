(** C155, C156: the announced size of a value and of an answer. *)
From Coq Require Import String List.
From Verif Require Import Prelude ValueBase DateModel TimeModel HashModel ValueModel ValueProofs GraphModel AssocModel WireModel WireSpec ReplyModel SizeModel.
Import ListNotations.
Local Open Scope list_scope.
Local Open Scope Z_scope.

(** * Specification *)
Definition bytes (s : str) : Z := Z.of_nat (List.length s).
(** the years inside a value are int16, as in Date.h *)
Inductive dated : value -> Prop :=
| dated_intro v : match v with VDate d => inRange int16_min int16_max (year d) | VDateTime t => inRange int16_min int16_max (dyear t) | _ => True end ->
    (forall c, In c (subvals v) -> dated c) -> dated v.
Definition datedSet (d : dataset) : Prop := forall c, In c (concat (drows d)) -> dated c.

(** * Proofs *)
(** a text and its size before wrapping *)
Definition fits (b : str) (s : Z) : Prop := bytes b <= s <= 10 * bytes b.
Lemma fits_app a b s r : fits a s -> fits b r -> fits (a ++ b) (s + r).
Proof. unfold fits, bytes. rewrite app_length. lia. Qed.
Lemma fits_nil : fits [] 0.
Proof. unfold fits, bytes. cbn. lia. Qed.
Lemma var_len k : forall n, (1 <= List.length (putVar (S k) n) <= S k)%nat.
Proof.
  induction k as [|k IH]; intros n; cbn [putVar].
  - destruct (n <? 128); cbn; lia.
  - destruct (n <? 128); [cbn; lia|]. cbn [List.length]. specialize (IH (n / 128)). cbn [putVar] in IH. lia.
Qed.
Lemma fits_var k n s : Z.of_nat (S k) <= s <= 10 -> fits (putVar (S k) n) s.
Proof. intros H. pose proof (var_len k n). unfold fits, bytes. lia. Qed.
Lemma fits_i32 n : fits (putI32 n) szI32.
Proof. apply fits_var. unfold szI32. lia. Qed.
Lemma fits_i64 n : fits (putI64 n) szI64.
Proof. apply fits_var. unfold szI64. lia. Qed.
Lemma fits_wide n : fits (putI32 n) szI64.
Proof. apply fits_var. unfold szI64. lia. Qed.
Lemma fits_i16 n : inRange int16_min int16_max n -> fits (putI16 n) szI16.
Proof.
  unfold inRange, int16_min, int16_max. intros H. unfold putI16, fits, bytes, szI16.
  assert (Hz : 0 <= zigzag n < 65536) by (unfold zigzag; destruct (0 <=? n) eqn:E; lia).
  generalize dependent (zigzag n). intros z Hz. cbn [putVar].
  destruct (z <? 128) eqn:E1; [cbn; lia|]. destruct (z / 128 <? 128) eqn:E2; [cbn; lia|]. destruct (z / 128 / 128 <? 128) eqn:E3; [cbn; lia|]. lia.
Qed.
Lemma fits_byte n : fits (putByte n) szByte.
Proof. unfold fits, bytes, szByte. cbn. lia. Qed.
Lemma fits_double f : fits (putDouble f) szDouble.
Proof. unfold fits, bytes, putDouble, szDouble. rewrite rev_length. cbn [leBytes List.length]. lia. Qed.
Lemma fits_bin s : fits (putBin s) (szBin s).
Proof. unfold fits, putBin, szBin, szI32, bytes. rewrite app_length. pose proof (var_len 4 (u32 (Z.of_nat (List.length s)))). lia. Qed.
Lemma fits_field last id t : 0 < id - last <= 15 -> fits (putField last id t) szField.
Proof. intros H. unfold putField. assert ((0 <? id - last) && (id - last <=? 15) = true) as -> by lia. unfold fits, bytes, szField, szByte, szI16. cbn. lia. Qed.
Lemma fits_bool last id t : 0 < id - last <= 15 -> fits (putField last id t) (szField + szBool).
Proof. intros H. unfold putField. assert ((0 <? id - last) && (id - last <=? 15) = true) as -> by lia. unfold fits, bytes, szField, szBool, szByte, szI16. cbn. lia. Qed.
Lemma fits_stop : fits putStop szStop.
Proof. unfold fits, bytes, szStop. cbn. lia. Qed.
Lemma fits_lhdr t n : fits (putListHdr t n) szListHdr.
Proof.
  unfold putListHdr, fits, bytes, szListHdr, szByte, szI32. destruct (_ <=? 14); [cbn; lia|]. cbn [List.length]. pose proof (var_len 4 (u32 (Z.of_nat n))). lia.
Qed.
Lemma fits_mhdr k v n : fits (putMapHdr k v n) szMapHdr.
Proof.
  unfold putMapHdr, fits, bytes, szMapHdr, szByte, szI32. destruct (_ =? 0); [cbn; lia|]. rewrite app_length. cbn [List.length]. pose proof (var_len 4 (u32 (Z.of_nat n))). lia.
Qed.
Lemma fits_sum {A} (w : A -> str) (f : A -> Z) l : (forall x, In x l -> fits (w x) (f x)) -> fits (flat_map w l) (sumOf f l).
Proof.
  induction l as [|x l IH]; intros H; cbn [flat_map sumOf fold_right]; [apply fits_nil|]. apply fits_app; [apply H, in_eq|]. apply IH. intros y Hy. apply H. right. exact Hy.
Qed.
(** [walk] takes a text and a size apart alike *)
Ltac leaf := first [assumption | lazymatch goal with
  | |- fits putStop _ => apply fits_stop | |- fits (putI32 _) _ => apply fits_i32 | |- fits (putI64 _) _ => apply fits_i64 | |- fits (putBin _) _ => apply fits_bin
  | |- fits (putByte _) _ => apply fits_byte | |- fits (putDouble _) _ => apply fits_double | |- fits (putListHdr _ _) _ => apply fits_lhdr
  | |- fits (putMapHdr _ _ _) _ => apply fits_mhdr | |- fits (putField _ _ _) _ => apply fits_field; lia end].
Ltac walk := rewrite <- ?Z.add_assoc, <- ?app_assoc;
  repeat (lazymatch goal with |- fits (_ ++ _) (_ + _) => apply fits_app; [leaf|] | |- _ => leaf end).
Lemma fits_eq b s r : fits b s -> s = r -> fits b r.
Proof. intros H <-. exact H. Qed.

Section Values.
Variables (w : value -> str) (z : value -> Z).
Definition ok (v : value) : Prop := fits (w v) (z v).
Lemma fits_props m : (forall v, In v (map snd m) -> ok v) -> fits (putProps w m) (szProps z m).
Proof.
  intros H. unfold putProps, szProps. apply fits_app; [apply fits_mhdr|]. apply fits_sum. intros p Hp. apply fits_app; [apply fits_bin|]. apply H, in_map, Hp.
Qed.
Lemma fits_tag t : (forall v, In v (tagVals t) -> ok v) -> fits (putTag w t) (szTag z t).
Proof. intros H. pose proof (fits_props (tgprops t) H). unfold putTag, szTag. walk. Qed.
Lemma fits_vertex v : (forall x, In x (vertexVals v) -> ok x) -> fits (putVertex w v) (szVertex z v).
Proof.
  intros H. assert (O : fits (w (vvid v)) (z (vvid v))) by (apply H; left; reflexivity).
  assert (L : fits (flat_map (putTag w) (vtags v)) (sumOf (szTag z) (vtags v))).
  { apply fits_sum. intros t Ht. apply fits_tag. intros x Hx. apply H. right. apply in_flat_map. eauto. }
  unfold putVertex, szVertex. walk.
Qed.
Lemma fits_edge e : (forall x, In x (edgeVals e) -> ok x) -> fits (putEdge w e) (szEdge z e).
Proof.
  intros H. assert (fits (w (esrc e)) (z (esrc e))) by (apply H; left; reflexivity). assert (fits (w (edst e)) (z (edst e))) by (apply H; right; left; reflexivity).
  assert (fits (putProps w (eprops e)) (szProps z (eprops e))) by (apply fits_props; intros v Hv; apply H; right; right; exact Hv).
  unfold putEdge, szEdge. walk.
Qed.
Lemma fits_step s : (forall x, In x (stepVals s) -> ok x) -> fits (putStep w s) (szStep z s).
Proof.
  intros H. assert (fits (putVertex w (sdst s)) (szVertex z (sdst s))) by (apply fits_vertex; intros v Hv; apply H, in_or_app; left; exact Hv).
  assert (fits (putProps w (sprops s)) (szProps z (sprops s))) by (apply fits_props; intros v Hv; apply H, in_or_app; right; exact Hv).
  unfold putStep, szStep. walk.
Qed.
Lemma fits_path p : (forall x, In x (pathVals p) -> ok x) -> fits (putPath w p) (szPath z p).
Proof.
  intros H. assert (fits (putVertex w (psrc p)) (szVertex z (psrc p))) by (apply fits_vertex; intros v Hv; apply H, in_or_app; left; exact Hv).
  assert (fits (flat_map (putStep w) (psteps p)) (sumOf (szStep z) (psteps p))).
  { apply fits_sum. intros s Hs. apply fits_step. intros x Hx. apply H, in_or_app. right. apply in_flat_map. eauto. }
  unfold putPath, szPath. walk.
Qed.
Lemma fits_list l : (forall x, In x l -> ok x) -> fits (putList w l) (szListHdr + sumOf z l).
Proof. intros H. unfold putList. apply fits_app; [apply fits_lhdr|]. apply fits_sum. exact H. Qed.
Lemma fits_row l : (forall x, In x l -> ok x) -> fits (putRow w l) (szRow z l).
Proof. intros H. pose proof (fits_list l H). unfold putRow, szRow. apply fits_eq with (s := szField + ((szListHdr + sumOf z l) + szStop)); [|lia]. apply fits_app; [apply fits_field; lia|]. apply fits_app; [assumption|apply fits_stop]. Qed.
Lemma fits_set l : (forall x, In x l -> ok x) -> fits (putSet w l) (szRow z l).
Proof. intros H. pose proof (fits_list l H). unfold putSet, szRow. apply fits_eq with (s := szField + ((szListHdr + sumOf z l) + szStop)); [|lia]. apply fits_app; [apply fits_field; lia|]. apply fits_app; [assumption|apply fits_stop]. Qed.
Lemma fits_map m : (forall v, In v (map snd m) -> ok v) -> fits (putMap w m) (szMap z m).
Proof. intros H. pose proof (fits_props m H). unfold putMap, szMap. walk. Qed.
Lemma fits_dataset d : (forall v, In v (concat (drows d)) -> ok v) -> fits (putDataSet w d) (szDataSet z d).
Proof.
  intros H. assert (fits (flat_map putBin (dcols d)) (sumOf szBin (dcols d))) by (apply fits_sum; intros; apply fits_bin).
  assert (fits (flat_map (putRow w) (drows d)) (sumOf (szRow z) (drows d))).
  { apply fits_sum. intros r Hr. apply fits_row. intros x Hx. apply H, in_concat. eauto. }
  unfold putDataSet, szDataSet. walk.
Qed.
End Values.
Lemma fits_value v : dated v -> fits (putValue v) (szValue v).
Proof.
  intros D. induction D as [v Y _ IH]. destruct v as [|n|b|z|x|x|d|t|t|x|e|p|l|m|l|d]; cbn [putValue szValue subvals] in *.
  - apply fits_stop.
  - walk.
  - rewrite <- Z.add_assoc. rewrite Z.add_assoc. apply fits_app; [apply fits_bool; lia|apply fits_stop].
  - walk.
  - walk.
  - walk.
  - pose proof (fits_i16 _ Y) as H16. assert (fits (putDate d) szDate) by (unfold putDate, szDate; walk). walk.
  - assert (fits (putTime t) szTime) by (unfold putTime, szTime; walk). walk.
  - pose proof (fits_i16 _ Y) as H16. assert (fits (putDateTime t) szDateTime) by (unfold putDateTime, szDateTime; walk). walk.
  - pose proof (fits_vertex putValue szValue x IH). walk.
  - pose proof (fits_edge putValue szValue e IH). walk.
  - pose proof (fits_path putValue szValue p IH). walk.
  - pose proof (fits_row putValue szValue l IH). walk.
  - pose proof (fits_map putValue szValue m IH). walk.
  - pose proof (fits_set putValue szValue l IH). walk.
  - pose proof (fits_dataset putValue szValue d IH). walk.
Qed.
Lemma small_u32 z : 0 <= z < 2 ^ 32 -> u32 z = z.
Proof. intros H. unfold u32. apply Z.mod_small. exact H. Qed.
Lemma fits_u32 b s : fits b s -> 10 * bytes b < 2 ^ 32 -> bytes b <= u32 s <= 10 * bytes b.
Proof. unfold fits. intros H L. rewrite small_u32; [exact H|]. unfold bytes in *. lia. Qed.

(** * C155 *)
(** The size announced for a value is enough for it, and at most ten times what is needed, as long as that is below 4 GiB. *)
Theorem C155_enough : forall v, dated v -> 10 * bytes (putValue v) < 2 ^ 32 ->
  bytes (putValue v) <= announced v <= 10 * bytes (putValue v).
Proof. intros v D L. apply fits_u32; [apply fits_value, D|exact L]. Qed.
(** From 4 GiB on it is not: it may be less than what is written. *)
Theorem C155_huge_refuted : exists v, dated v /\ announced v < bytes (putValue v).
Proof.
  exists (VStr (repeat 97 (Z.to_nat (2 ^ 32 - 10)))). split; [constructor; [exact I|intros c []]|].
  unfold announced. cbn [szValue putValue]. unfold szBin, bytes. rewrite repeat_length, Z2Nat.id by lia.
  replace (szField + (szI32 + (2 ^ 32 - 10)) + szStop) with (2 ^ 32) by (unfold szField, szI32, szStop, szByte, szI16; lia).
  change (u32 (2 ^ 32)) with 0. rewrite app_length. cbn [putField]. change (List.length (putField 0 5 tBIN)) with 1%nat. lia.
Qed.

(** * C156 *)
Lemma fits_members last : fits (putMembers last []) szStop.
Proof. apply fits_stop. Qed.
Lemma members_cons last id t b l s r : 0 < id - last <= 15 -> fits b s -> fits (putMembers id l) r -> fits (putMembers last ((id, t, b) :: l)) (szField + s + r).
Proof. intros H B R. cbn [putMembers]. rewrite <- Z.add_assoc. apply fits_app; [apply fits_field, H|]. apply fits_app; assumption. Qed.
(** a member that may be missing, before others with higher ids *)
Lemma members_opt {A} last id t (w : A -> str) (z : A -> Z) o l r : 0 < id - last -> id <= 15 -> 0 <= last ->
  (forall x, o = Some x -> fits (w x) (z x)) -> (forall k, last <= k <= id -> fits (putMembers k l) r) ->
  fits (putMembers last (optional id t w o ++ l)) (szOpt z o + r).
Proof.
  intros H1 H2 H3 B R. destruct o as [x|]; cbn [optional app szOpt].
  - apply members_cons; [lia|apply B; reflexivity|apply R; lia].
  - rewrite Z.add_0_l. apply R. lia.
Qed.
Lemma fits_kv p : fits (putKV p) (szKV p).
Proof.
  unfold putKV, kvMembers, szKV. eapply fits_eq; [apply members_cons; [lia|apply fits_bin|apply members_cons; [lia|apply fits_bin|apply fits_members]]|lia].
Qed.
Lemma fits_branch b : fits (putBranch b) (szBranch b).
Proof.
  unfold putBranch, branchMembers, szBranch. cbn [putMembers app]. eapply fits_eq.
  - apply fits_app; [apply fits_bool; lia|]. apply fits_app; [apply fits_field; lia|]. apply fits_app; [apply fits_i64|apply fits_stop].
  - lia.
Qed.
Lemma fits_listOf {A} t (w : A -> str) (z : A -> Z) l : (forall x, In x l -> fits (w x) (z x)) -> fits (putListOf t w l) (szListHdr + sumOf z l).
Proof. intros H. apply fits_app; [apply fits_lhdr|apply fits_sum, H]. Qed.
Lemma fits_mapOf {K A} kt vt (wk : K -> str) (w : A -> str) (f : K * A -> Z) m :
  (forall k v, fits (wk k ++ w v) (f (k, v))) -> fits (putMapOf kt vt wk w m) (szMapHdr + sumOf f m).
Proof. intros H. apply fits_app; [apply fits_mhdr|apply fits_sum]. intros [k v] _. apply H. Qed.
Lemma fits_prof p : fits (putProf p) (szProf p).
Proof.
  unfold putProf, profMembers, szProf. cbn [app]. eapply fits_eq.
  - apply members_cons; [lia|apply fits_i64|]. apply members_cons; [lia|apply fits_i64|]. apply members_cons; [lia|apply fits_i64|].
    rewrite <- (app_nil_r (optional 4 _ _ _)). apply members_opt with (z := fun m => szMapHdr + sumOf (fun e => szBin (fst e) + szBin (snd e)) m); [lia|lia|lia| |intros; apply fits_members].
    intros m _. apply fits_mapOf. intros k v. apply fits_app; apply fits_bin.
  - lia.
Qed.
Lemma fits_node n : fits (putNode n) (szNode n).
Proof.
  unfold putNode, nodeMembers, szNode. cbn [app]. eapply fits_eq.
  - apply members_cons; [lia|apply fits_bin|]. apply members_cons; [lia|apply fits_i64|]. apply members_cons; [lia|apply fits_bin|].
    apply members_opt with (z := fun l => szListHdr + sumOf szKV l); [lia|lia|lia|intros l _; apply fits_listOf; intros; apply fits_kv|]. intros k1 K1.
    apply members_opt with (z := fun l => szListHdr + sumOf szProf l); [lia|lia|lia|intros l _; apply fits_listOf; intros; apply fits_prof|]. intros k2 K2.
    apply members_opt with (z := szBranch); [lia|lia|lia|intros l _; apply fits_branch|]. intros k3 K3.
    rewrite <- (app_nil_r (optional 7 _ _ _)).
    apply members_opt with (z := fun l => szListHdr + sumOf (fun _ => szI64) l); [lia|lia|lia|intros l _; apply fits_listOf; intros; apply fits_i64|]. intros; apply fits_members.
  - lia.
Qed.
Lemma fits_plan p : fits (putPlan p) (szPlan p).
Proof.
  unfold putPlan, planMembers, szPlan. eapply fits_eq.
  - apply members_cons; [lia|apply fits_listOf with (z := szNode); intros; apply fits_node|].
    apply members_cons; [lia|apply fits_mapOf with (f := fun _ => szI64 + szI64); intros; apply fits_app; apply fits_i64|].
    apply members_cons; [lia|apply fits_bin|]. apply members_cons; [lia|apply fits_i32|apply fits_members].
  - lia.
Qed.
Lemma fits_exec e : (forall d, exData e = Some d -> datedSet d) -> fits (putExec e) (szExec e).
Proof.
  intros D. unfold putExec, execMembers, szExec. cbn [app]. eapply fits_eq.
  - apply members_cons; [lia|apply fits_i32|]. apply members_cons; [lia|apply fits_i32|].
    apply members_opt with (z := szDataSet szValue); [lia|lia|lia|intros d Hd; apply fits_dataset; intros v Hv; apply fits_value, (D d Hd), Hv|]. intros k1 K1.
    apply members_opt with (z := szBin); [lia|lia|lia|intros; apply fits_bin|]. intros k2 K2.
    apply members_opt with (z := szBin); [lia|lia|lia|intros; apply fits_bin|]. intros k3 K3.
    apply members_opt with (z := szPlan); [lia|lia|lia|intros; apply fits_plan|]. intros k4 K4.
    rewrite <- (app_nil_r (optional 7 _ _ _)). apply members_opt with (z := szBin); [lia|lia|lia|intros; apply fits_bin|]. intros; apply fits_members.
  - lia.
Qed.
Lemma fits_auth a : fits (putAuth a) (szAuth a).
Proof.
  unfold putAuth, authMembers, szAuth. cbn [app]. eapply fits_eq.
  - apply members_cons; [lia|apply fits_i32|].
    apply members_opt with (z := szBin); [lia|lia|lia|intros; apply fits_bin|]. intros k1 K1.
    apply members_opt with (z := fun _ => szI64); [lia|lia|lia|intros; apply fits_i64|]. intros k2 K2.
    apply members_opt with (z := fun _ => szI64); [lia|lia|lia|intros; apply fits_wide|]. intros k3 K3.
    rewrite <- (app_nil_r (optional 5 _ _ _)). apply members_opt with (z := szBin); [lia|lia|lia|intros; apply fits_bin|]. intros; apply fits_members.
  - lia.
Qed.
(** The size announced for an answer is enough for it, whatever members it has, and at most ten times what is needed, below 4 GiB. *)
Theorem C156_result : forall e, (forall d, exData e = Some d -> datedSet d) -> 10 * bytes (putExec e) < 2 ^ 32 ->
  bytes (putExec e) <= announcedExec e <= 10 * bytes (putExec e).
Proof. intros e D L. apply fits_u32; [apply fits_exec, D|exact L]. Qed.
Theorem C156_login : forall a, 10 * bytes (putAuth a) < 2 ^ 32 -> bytes (putAuth a) <= announcedAuth a <= 10 * bytes (putAuth a).
Proof. intros a L. apply fits_u32; [apply fits_auth|exact L]. Qed.
(** The parts on their own. *)
Theorem C156_parts : forall p n k a,
  (bytes (putPlan p) <= szPlan p <= 10 * bytes (putPlan p)) /\ (bytes (putNode n) <= szNode n <= 10 * bytes (putNode n)) /\
  (bytes (putKV k) <= szKV k <= 10 * bytes (putKV k)) /\ (bytes (putAddr a) <= szAddr a <= 10 * bytes (putAddr a)).
Proof.
  intros p n k a. split; [apply fits_plan|]. split; [apply fits_node|]. split; [apply fits_kv|].
  change (fits (putAddr a) (szAddr a)). unfold putAddr, addrMembers, szAddr.
  eapply fits_eq; [apply members_cons; [lia|apply fits_bin|apply members_cons; [lia|apply fits_i32|apply fits_members]]|lia].
Qed.

(** * Concrete cases *)
Definition exEdge : edge := mkEdge (VInt 1) (VStr (B "b")) 7 (B "follow") 0 [(B "since", VDate (mkDate 2020 2 29))].
Example value_case : dated (VList [VEdge exEdge; VFloat (f64ofZ 3)]) /\ 10 * bytes (putValue (VList [VEdge exEdge; VFloat (f64ofZ 3)])) < 2 ^ 32 /\
  bytes (putValue (VList [VEdge exEdge; VFloat (f64ofZ 3)])) = 58 /\ announced (VList [VEdge exEdge; VFloat (f64ofZ 3)]) = 151.
Proof.
  split; [|split; [vm_compute; reflexivity|split; vm_compute; reflexivity]]. constructor; [exact I|]. intros c [<-|[<-|[]]]; [|constructor; [exact I|intros c []]].
  constructor; [exact I|]. cbn. intros c [<-|[<-|[<-|[]]]]; constructor; try exact I; try (intros c []). unfold inRange, int16_min, int16_max. cbn. lia.
Qed.
Definition exAnswer : exec := mkExec 0 1200 (Some (mkDataSet [B "a"] [[VInt 1]])) (Some (B "space")) None
  (Some (mkPlan [mkNode (B "Start") 1 (B "v") (Some [mkKV (B "k") (B "v")]) None (Some (mkBranch true 3)) (Some [1; 2])] [(1, 0)] (B "row") 9)) None.
Example answer_case : (forall d, exData exAnswer = Some d -> datedSet d) /\ 10 * bytes (putExec exAnswer) < 2 ^ 32 /\
  bytes (putExec exAnswer) = 74 /\ announcedExec exAnswer = 281.
Proof.
  split; [|split; [vm_compute; reflexivity|split; vm_compute; reflexivity]]. intros d H. injection H as <-. intros c [<-|[]]. constructor; [exact I|intros c []].
Qed.

Print Assumptions C155_enough. Print Assumptions C155_huge_refuted. Print Assumptions C156_result. Print Assumptions C156_login. Print Assumptions C156_parts.
