(** protocol->skip passes over anything the writers produce. *)
From Coq Require Import String List.
From Verif Require Import Prelude ValueBase FloatProofs DateModel TimeModel HashModel ValueModel ValueProofs GraphModel AssocModel WireModel WireSpec WireProofs ReplyModel ReplySpec ReplyProofs.
Import ListNotations.
Local Open Scope list_scope.
Local Open Scope Z_scope.

(** the bytes of a value of the type, followed by anything, are skipped exactly *)
Definition skips (inField : bool) (t : Z) (b : str) : Prop := forall f s, (List.length b < f)%nat -> skip f inField t (b ++ s) = Got tt s.
Ltac plain := intros f s L; destruct f as [|f]; [lia|]; cbn [skip]; unfold tBYTE, tI16, tI32, tI64, tDOUBLE, tFLOAT, tBIN, tLIST, tSET, tMAP, tSTRUCT in *; cbn [Z.eqb Pos.eqb orb].
Lemma skips_bool n : n = 1 \/ n = 2 -> skips true n [].
Proof. intros H f s L. destruct f as [|f]; [cbn in L; lia|]. cbn [skip]. destruct H; subst n; reflexivity. Qed.
Lemma skips_byte i n : skips i tBYTE (putByte n).
Proof. plain. reflexivity. Qed.
Lemma skips_i16 i n : inRange int16_min int16_max n -> skips i tI16 (putI16 n).
Proof.
  unfold inRange, int16_min, int16_max. intros H. plain. unfold putI16. rewrite getVar_ok; [reflexivity|]. change (128 ^ Z.of_nat 5) with 34359738368. unfold zigzag. destruct (0 <=? n) eqn:E; lia.
Qed.
Lemma skips_i32 i n : int32 n -> skips i tI32 (putI32 n).
Proof.
  unfold int32, inRange, int32_min, int32_max. intros H. plain. unfold putI32. rewrite getVar_ok; [reflexivity|]. change (128 ^ Z.of_nat 5) with 34359738368. unfold zigzag. destruct (0 <=? n) eqn:E; lia.
Qed.
Lemma skips_i64 i n : int64 n -> skips i tI64 (putI64 n).
Proof.
  unfold int64, inRange, int64_min, int64_max. intros H. plain. unfold putI64. rewrite getVar_ok; [reflexivity|]. change (128 ^ Z.of_nat 10) with 1180591620717411303424. unfold zigzag. destruct (0 <=? n) eqn:E; lia.
Qed.
Lemma skips_double i x : skips i tDOUBLE (putDouble x).
Proof.
  plain. assert (E : List.length (putDouble x) = 8%nat) by (unfold putDouble; rewrite rev_length; apply leBytes_len). pose proof (getN_ok (putDouble x) s) as G. rewrite E in G. change (Z.of_nat 8) with 8 in G. rewrite G. reflexivity.
Qed.
Lemma skips_bin i a : strOk a -> skips i tBIN (putBin a).
Proof. intros H. plain. rewrite getBin_ok by exact H. reflexivity. Qed.
Lemma skips_struct i l : chain 0 l -> Forall (fun m => skips true (snd (fst m)) (snd m)) l -> skips i tSTRUCT (putMembers 0 l).
Proof.
  intros C F. plain.
  assert (G : forall l' last g, chain last l' -> 0 <= last -> (List.length l' < g)%nat -> (forall id t b, In (id, t, b) l' -> forall r, skip f true t (b ++ r) = Got tt r) ->
    (fix fields (g : nat) (last : Z) (s : str) : rd unit := match g with O => NoFuel | S g' => rbind (getField last s) (fun h r =>
       if snd h =? 0 then Got tt r else rbind (skip f true (snd h) r) (fun _ => fields g' (fst h))) end) g last (putMembers last l' ++ s) = Got tt s).
  { induction l' as [|[[id t] b] l' IH]; intros last g C' L' G' H; (destruct g as [|g]; [cbn in G'; lia|]); [reflexivity|]. destruct C' as (C1 & C2 & C3). cbn [putMembers]. rewrite <- !app_assoc, getField_ok by lia.
    cbn [rbind fst snd]. assert (t =? 0 = false) as -> by lia. rewrite (H id t b) by (left; reflexivity). cbn [rbind]. apply IH; [exact C3|lia|cbn in G'; lia|intros; eapply H; right; eassumption]. }
  refine (G l 0 (S f) C _ _ _); [lia|pose proof (putMembers_len l 0 ltac:(lia) C); lia|]. intros id t b H r. rewrite Forall_forall in F. specialize (F _ H). cbn [fst snd] in F. apply F.
  pose proof (putMembers_In l 0 id t b ltac:(lia) C H). lia.
Qed.
Lemma skips_list i et {A} (w : A -> str) ty l : ty = tLIST \/ ty = tSET -> 0 < et < 16 -> shortL l -> (forall x, In x l -> (1 <= List.length (w x))%nat) -> (forall x, In x l -> skips false et (w x)) -> skips i ty (putListOf et w l).
Proof.
  intros Y H1 H2 H3 H4 f s L. pose proof (putListOf_len et w l H3) as LL. destruct f as [|f]; [lia|]. unfold skip; fold skip.
  assert (((ty =? 1) || (ty =? 2)) = false /\ (ty =? tBYTE) = false /\ ((ty =? tI16) || (ty =? tI32)) = false /\ (ty =? tI64) = false /\ (ty =? tDOUBLE) = false /\ (ty =? tFLOAT) = false /\ (ty =? tBIN) = false /\ ((ty =? tLIST) || (ty =? tSET)) = true)
    as (-> & -> & -> & -> & -> & -> & -> & ->) by (destruct Y; subst ty; cbv; auto 10).
  unfold putListOf. rewrite <- app_assoc, getListHdr_ok by assumption. cbn [rbind fst snd].
  assert (G : forall l' g, (List.length l' <= g)%nat -> (forall x, In x l' -> forall r, skip f false et (w x ++ r) = Got tt r) -> times (fun _ => skip f false et) g (Z.of_nat (List.length l')) tt (flat_map w l' ++ s) = Got tt s).
  { induction l' as [|x l' IH]; intros g Lg H; [destruct g; reflexivity|]. destruct g as [|g]; [cbn in Lg; lia|]. cbn [flat_map times]. assert (Z.of_nat (List.length (x :: l')) <=? 0 = false) as -> by (cbn [List.length]; lia).
    rewrite <- app_assoc, H by (left; reflexivity). cbn [rbind]. replace (Z.of_nat (List.length (x :: l')) - 1) with (Z.of_nat (List.length l')) by (cbn [List.length]; lia).
    apply IH; [cbn in Lg; lia|intros; apply H; right; assumption]. }
  apply G; [lia|]. intros x Hx r. apply H4; [exact Hx|]. pose proof (putListOf_In et w l x Hx). lia.
Qed.
Lemma skips_map i kt vt {K A} (wk : K -> str) (w : A -> str) m : 0 < kt < 16 -> 0 < vt < 16 -> shortL m -> (forall k, (1 <= List.length (wk k))%nat) ->
  (forall k v, In (k, v) m -> skips false kt (wk k) /\ skips false vt (w v)) -> skips i tMAP (putMapOf kt vt wk w m).
Proof.
  intros H1 H2 H3 H4 H5. plain. pose proof (putMapOf_len kt vt wk w m H4) as LL. unfold putMapOf. rewrite <- app_assoc, getMapHdr_ok by assumption. cbn [rbind].
  destruct m as [|p0 m0] eqn:Em; [cbn [List.length Nat.eqb]; destruct f; reflexivity|]. rewrite <- Em in *. assert ((List.length m =? 0)%nat = false) as -> by (subst; reflexivity). cbn iota beta. clear Em p0 m0.
  assert (G : forall l g, (List.length l <= g)%nat -> (forall k v, In (k, v) l -> (forall r, skip f false kt (wk k ++ r) = Got tt r) /\ (forall r, skip f false vt (w v ++ r) = Got tt r)) ->
    times (fun _ r1 => rbind (skip f false kt r1) (fun _ => skip f false vt)) g (Z.of_nat (List.length l)) tt (flat_map (fun p => wk (fst p) ++ w (snd p)) l ++ s) = Got tt s).
  { induction l as [|[k v] l IH]; intros g Lg H; [destruct g; reflexivity|]. destruct g as [|g]; [cbn in Lg; lia|]. cbn [flat_map times fst snd]. assert (Z.of_nat (List.length ((k, v) :: l)) <=? 0 = false) as -> by (cbn [List.length]; lia).
    destruct (H k v (or_introl eq_refl)) as [Hk Hv]. rewrite <- !app_assoc, Hk. cbn [rbind]. rewrite Hv. cbn [rbind].
    replace (Z.of_nat (List.length ((k, v) :: l)) - 1) with (Z.of_nat (List.length l)) by (cbn [List.length]; lia). apply IH; [cbn in Lg; lia|intros; apply H; right; assumption]. }
  apply G; [lia|]. intros k v Hk. destruct (H5 k v Hk) as [S1 S2]. pose proof (putMapOf_In kt vt wk w m k v Hk). split; intros r; [apply S1|apply S2]; lia.
Qed.
Ltac mem := repeat (apply Forall_cons; [cbn [fst snd]|]); [..|apply Forall_nil].
Lemma skips_props i m : propsOk m -> (forall c, In c (map snd m) -> forall b, skips b tSTRUCT (putValue c)) -> skips i tMAP (putProps putValue m).
Proof.
  intros (P1 & P2 & P3) H. change (putProps putValue m) with (putMapOf tBIN tSTRUCT putBin putValue m). apply skips_map; [types|types|exact P1|exact putBin_len|].
  intros k v Hk. split; [apply skips_bin, (P3 k v Hk)|]. apply H. apply (in_map snd) in Hk. exact Hk.
Qed.
Lemma skips_vertex i x : vertexOk x -> (forall c, In c (vertexVals x) -> forall b, skips b tSTRUCT (putValue c)) -> skips i tSTRUCT (putVertex putValue x).
Proof.
  intros [V1 V2] H. replace (putVertex putValue x) with (putMembers 0 [(1, tSTRUCT, putValue (vvid x)); (2, tLIST, putListOf tSTRUCT (putTag putValue) (vtags x))]) by (unfold putVertex, putListOf; cbn [putMembers]; rewrite <- !app_assoc; reflexivity).
  apply skips_struct; [cbn [chain]; splits; types|]. mem; [apply H; left; reflexivity|]. apply skips_list; [left; reflexivity|types|exact V1|intros; apply putTag_len|]. intros t Ht. destruct (V2 t Ht) as [T1 T2].
  change (putTag putValue t) with (putMembers 0 [(1, tBIN, putBin (tgname t)); (2, tMAP, putProps putValue (tgprops t))]). apply skips_struct; [cbn [chain]; splits; types|]. mem; [apply skips_bin, T1|].
  apply skips_props; [exact T2|]. intros c Hc. apply H. right. apply in_flat_map. exists t. auto.
Qed.
Theorem skips_value X : forall v, sendable X v -> forall i, skips i tSTRUCT (putValue v).
Proof.
  apply (value_sub_ind (fun v => sendable X v -> forall i, skips i tSTRUCT (putValue v))). intros v IH S0 i. inversion S0 as [v' N C E]; subst v'.
  assert (G : forall c, In c (subvals v) -> forall b, skips b tSTRUCT (putValue c)) by (intros c Hc; apply IH; [exact Hc|apply C, Hc]). clear IH C S0.
  assert (W : forall id t b, 0 < id <= 15 -> 0 < t < 14 -> skips true t b -> skips i tSTRUCT (putField 0 id t ++ b ++ putStop)).
  { intros id t b H1 H2 H3. change (putField 0 id t ++ b ++ putStop) with (putMembers 0 [(id, t, b)]). apply skips_struct; [cbn [chain]; splits; lia|]. mem. exact H3. }
  destruct v as [|n|b|z|x|x|d|t|t|x|e|p|l|m|l|d]; cbn [putValue WireSpec.nodeOk subvals] in *.
  - exact (skips_struct i [] I (Forall_nil _)).
  - apply W; [lia|types|]. apply skips_i32. unfold int32, inRange, int32_min, int32_max. destruct n; cbn; lia.
  - change (putField 0 2 (if b then 1 else 2) ++ putStop) with (putField 0 2 (if b then 1 else 2) ++ [] ++ putStop). apply W; [lia|destruct b; lia|]. apply skips_bool. destruct b; auto.
  - apply W; [lia|types|]. apply skips_i64, N.
  - apply W; [lia|types|]. apply skips_double.
  - apply W; [lia|types|]. apply skips_bin, N.
  - apply W; [lia|types|]. destruct N as (N1 & N2 & N3). change (putDate d) with (putMembers 0 [(1, tI16, putI16 (year d)); (2, tBYTE, putByte (month d)); (3, tBYTE, putByte (day d))]).
    apply skips_struct; [cbn [chain]; splits; types|]. mem; [apply skips_i16, N1|apply skips_byte|apply skips_byte].
  - apply W; [lia|types|]. destruct N as (N1 & N2 & N3 & N4). change (putTime t) with (putMembers 0 [(1, tBYTE, putByte (thour t)); (2, tBYTE, putByte (tminute t)); (3, tBYTE, putByte (tsec t)); (4, tI32, putI32 (tmicro t))]).
    apply skips_struct; [cbn [chain]; splits; types|]. mem; [apply skips_byte|apply skips_byte|apply skips_byte|apply skips_i32, N4].
  - apply W; [lia|types|]. destruct N as (N1 & N2 & N3 & N4 & N5 & N6 & N7).
    change (putDateTime t) with (putMembers 0 [(1, tI16, putI16 (dyear t)); (2, tBYTE, putByte (dmonth t)); (3, tBYTE, putByte (dday t)); (4, tBYTE, putByte (dhour t)); (5, tBYTE, putByte (dminute t)); (6, tBYTE, putByte (dsec t)); (7, tI32, putI32 (dmicro t))]).
    apply skips_struct; [cbn [chain]; splits; types|]. mem; try apply skips_byte; [apply skips_i16, N1|apply skips_i32]. unfold int32, inRange, int32_min, int32_max in *. lia.
  - apply W; [lia|types|]. apply skips_vertex; assumption.
  - apply W; [lia|types|]. destruct N as (N1 & N2 & N3 & N4).
    change (putEdge putValue e) with (putMembers 0 [(1, tSTRUCT, putValue (esrc e)); (2, tSTRUCT, putValue (edst e)); (3, tI32, putI32 (wireType (etype e))); (4, tBIN, putBin (ename e)); (5, tI64, putI64 (erank e)); (6, tMAP, putProps putValue (eprops e))]).
    apply skips_struct; [cbn [chain]; splits; types|]. mem; [apply G; left; reflexivity|apply G; right; left; reflexivity|apply skips_i32, wireType_sgn, N1|apply skips_bin, N3|apply skips_i64, N2|].
    apply skips_props; [exact N4|]. intros c Hc. apply G. right. right. exact Hc.
  - apply W; [lia|types|]. destruct N as (N1 & N2 & N3).
    replace (putPath putValue p) with (putMembers 0 [(1, tSTRUCT, putVertex putValue (psrc p)); (2, tLIST, putListOf tSTRUCT (putStep putValue) (psteps p))]) by (unfold putPath, putListOf; cbn [putMembers]; rewrite <- !app_assoc; reflexivity).
    apply skips_struct; [cbn [chain]; splits; types|]. mem; [apply skips_vertex; [exact N1|intros c Hc; apply G, in_or_app; left; exact Hc]|]. apply skips_list; [left; reflexivity|types|exact N2|intros; apply putStep_len|].
    intros st Hs. destruct (N3 st Hs) as (M0 & M1 & M2 & M3 & M4).
    assert (K : forall c, In c (stepVals st) -> forall b, skips b tSTRUCT (putValue c)) by (intros c Hc; apply G, in_or_app; right; apply in_flat_map; exists st; auto).
    change (putStep putValue st) with (putMembers 0 [(1, tSTRUCT, putVertex putValue (sdst st)); (2, tI32, putI32 (wireType (stype st))); (3, tBIN, putBin (sname st)); (4, tI64, putI64 (srank st)); (5, tMAP, putProps putValue (sprops st))]).
    apply skips_struct; [cbn [chain]; splits; types|]. mem; [apply skips_vertex; [exact M0|intros c Hc; apply K, in_or_app; left; exact Hc]|apply skips_i32, wireType_sgn, M1|apply skips_bin, M3|apply skips_i64, M2|].
    apply skips_props; [exact M4|]. intros c Hc. apply K, in_or_app. right. exact Hc.
  - apply W; [lia|types|]. change (putRow putValue l) with (putMembers 0 [(1, tLIST, putListOf tSTRUCT putValue l)]). apply skips_struct; [cbn [chain]; splits; types|]. mem.
    apply skips_list; [left; reflexivity|types|exact N|intros; apply putValue_len|]. intros x Hx. apply G, Hx.
  - apply W; [lia|types|]. change (putMap putValue m) with (putMembers 0 [(1, tMAP, putProps putValue m)]). apply skips_struct; [cbn [chain]; splits; types|]. mem. apply skips_props; assumption.
  - apply W; [lia|types|]. destruct N as (N1 & _). change (putSet putValue l) with (putMembers 0 [(1, tSET, putListOf tSTRUCT putValue l)]). apply skips_struct; [cbn [chain]; splits; types|]. mem.
    apply skips_list; [right; reflexivity|types|exact N1|intros; apply putValue_len|]. intros x Hx. apply G, Hx.
  - apply W; [lia|types|]. destruct N as (N1 & N2 & N3 & N4).
    replace (putDataSet putValue d) with (putMembers 0 [(1, tLIST, putListOf tBIN putBin (dcols d)); (2, tLIST, putListOf tSTRUCT (putRow putValue) (drows d))]) by (unfold putDataSet, putListOf; cbn [putMembers]; rewrite <- !app_assoc; reflexivity).
    apply skips_struct; [cbn [chain]; splits; types|]. mem; (apply skips_list; [left; reflexivity|types|assumption| |]).
    + intros; apply putBin_len.
    + intros x Hx. apply skips_bin, N2, Hx.
    + intros; apply putRow_len.
    + intros r Hr. change (putRow putValue r) with (putMembers 0 [(1, tLIST, putListOf tSTRUCT putValue r)]). apply skips_struct; [cbn [chain]; splits; types|]. mem.
      apply skips_list; [left; reflexivity|types|exact (N4 r Hr)|intros; apply putValue_len|]. intros x Hx. apply G, in_concat. exists r. auto.
Qed.

(** What a newer peer writes: the types of the protocol and the bytes, Booleans in the field header *)
Fixpoint putExtra (x : extra) : Z * str :=
  match x with
  | XBool b => (if b then 1 else 2, [])
  | XByte z => (tBYTE, putByte z)
  | XI16 z => (tI16, putI16 z)
  | XI32 z => (tI32, putI32 z)
  | XI64 z => (tI64, putI64 z)
  | XDouble d => (tDOUBLE, putDouble d)
  | XText s => (tBIN, putBin s)
  | XValue v => (tSTRUCT, putValue v)
  | XList l => (tLIST, putListOf tSTRUCT putValue l)
  | XMap m => (tMAP, putMapOf tBIN tSTRUCT putBin putValue m)
  | XStruct l => (tSTRUCT, putMembers 0 (putExtras l))
  end
with putExtras (l : extras) : list member :=
  match l with XNone => [] | XMore id x l' => (id, fst (putExtra x), snd (putExtra x)) :: putExtras l' end.
Scheme extra_rect' := Induction for extra Sort Prop with extras_rect' := Induction for extras Sort Prop.
Combined Scheme extra_both from extra_rect', extras_rect'.
Lemma putExtra_type x : 0 < fst (putExtra x) < 14.
Proof. destruct x as [[]| | | | | | | | | |]; cbn [putExtra fst]; types. Qed.
Lemma extras_chain X l : forall last, extrasOk X last l -> chain last (putExtras l).
Proof. induction l as [|id x l IH]; intros last H; [exact I|]. destruct H as (H1 & H2 & H3). cbn [putExtras chain]. splits; [lia|lia|apply putExtra_type|apply putExtra_type|apply IH, H3]. Qed.
Lemma skips_extra X : (forall x, extraOk X x -> skips true (fst (putExtra x)) (snd (putExtra x))) /\
  (forall l last, extrasOk X last l -> Forall (fun m => skips true (snd (fst m)) (snd m)) (putExtras l)).
Proof.
  apply extra_both; cbn [putExtra putExtras fst snd extraOk extrasOk].
  - intros b _. apply skips_bool. destruct b; auto.
  - intros. apply skips_byte.
  - intros z H. apply skips_i16, H.
  - intros z H. apply skips_i32, H.
  - intros z H. apply skips_i64, H.
  - intros. apply skips_double.
  - intros s H. apply skips_bin, H.
  - intros v H. exact (skips_value X v H true).
  - intros l [H1 H2]. apply skips_list; [left; reflexivity|types|exact H1|intros; apply putValue_len|]. intros x Hx. exact (skips_value X x (H2 x Hx) false).
  - intros m [H1 H2]. apply skips_map; [types|types|exact H1|exact putBin_len|]. intros k v Hk. destruct (H2 k v Hk) as [K1 K2]. split; [apply skips_bin, K1|exact (skips_value X v K2 false)].
  - intros l IH H. apply skips_struct; [exact (extras_chain X l 0 H)|exact (IH 0 H)].
  - constructor.
  - intros id x IHx l IHl last (H1 & H2 & H3). constructor; [exact (IHx H2)|exact (IHl id H3)].
Qed.
