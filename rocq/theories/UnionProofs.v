(** Proofs about the memory behind Values. *)
From Verif Require Import Prelude CastModel UnionModel UnionSpec.
Open Scope Z_scope.

Scheme rep_mut := Induction for rep Sort Prop with reps_mut := Induction for reps Sort Prop.
Combined Scheme rep_reps_ind from rep_mut, reps_mut.

Lemma tags t : heapTag t = true -> (t =? tEmpty) = false /\ scalarTag t = false.
Proof.
  unfold heapTag, scalarTag. intros H. apply existsb_exists in H as (x & H & Q). apply Z.eqb_eq in Q. subst x. cbn [In] in H.
  repeat (destruct H as [<-|H]; [split; reflexivity|]). destruct H.
Qed.
Lemma stags t : scalarTag t = true -> (t =? tEmpty) = false /\ heapTag t = false.
Proof.
  unfold heapTag, scalarTag. intros H. apply existsb_exists in H as (x & H & Q). apply Z.eqb_eq in Q. subst x. cbn [In] in H.
  repeat (destruct H as [<-|H]; [split; reflexivity|]). destruct H.
Qed.
Lemma rep_ext h c t (P P' : Z -> Prop) : rep h c t P -> (forall q, P q <-> P' q) -> rep h c t P'.
Proof.
  intros R E. inversion R; subst.
  - constructor. intros q Hq. apply E in Hq. eapply H; eauto.
  - constructor; auto. intros q Hq. apply E in Hq. eapply H0; eauto.
  - eapply RP; eauto. intros q. rewrite <- E. auto.
Qed.
Lemma reps_ext h cs ts (P P' : Z -> Prop) : reps h cs ts P -> (forall q, P q <-> P' q) -> reps h cs ts P'.
Proof.
  intros R E. inversion R; subst.
  - constructor. intros q Hq. apply E in Hq. eapply H; eauto.
  - eapply RC; eauto. intros q. rewrite <- E. auto.
Qed.
Lemma frame_both h h' : (forall c t P, rep h c t P -> (forall q, P q -> h' q = h q) -> rep h' c t P) /\ (forall cs ts P, reps h cs ts P -> (forall q, P q -> h' q = h q) -> reps h' cs ts P).
Proof.
  apply (rep_reps_ind h (fun c t P _ => (forall q, P q -> h' q = h q) -> rep h' c t P) (fun cs ts P _ => (forall q, P q -> h' q = h q) -> reps h' cs ts P)).
  - intros s P N _. constructor. exact N.
  - intros tag z P St N _. constructor; assumption.
  - intros tag p d cs ts P Q Ht Hp E N _ IH F. eapply RP; eauto.
    + rewrite F; [exact Hp|]. apply E. auto.
    + apply IH. intros q Hq. apply F, E. auto.
  - intros P N _. constructor. exact N.
  - intros c cs t ts P P1 P2 E D _ IH1 _ IH2 F. eapply RC; eauto; [apply IH1|apply IH2]; intros q Hq; apply F, E; auto.
Qed.
Lemma rep_frame h h' c t P : rep h c t P -> (forall q, P q -> h' q = h q) -> rep h' c t P.
Proof. apply frame_both. Qed.
Lemma reps_frame h h' cs ts P : reps h cs ts P -> (forall q, P q -> h' q = h q) -> reps h' cs ts P.
Proof. apply frame_both. Qed.
Lemma live_both h : (forall c t P, rep h c t P -> forall q, P q -> h q <> None) /\ (forall cs ts P, reps h cs ts P -> forall q, P q -> h q <> None).
Proof.
  apply (rep_reps_ind h (fun c t P _ => forall q, P q -> h q <> None) (fun cs ts P _ => forall q, P q -> h q <> None)).
  - intros s P N q Hq. destruct (N q Hq).
  - intros tag z P St N q Hq. destruct (N q Hq).
  - intros tag p d cs ts P Q Ht Hp E N _ IH q Hq. apply E in Hq as [->|Hq]; [rewrite Hp; discriminate|auto].
  - intros P N q Hq. destruct (N q Hq).
  - intros c cs t ts P P1 P2 E D _ IH1 _ IH2 q Hq. apply E in Hq as [Hq|Hq]; auto.
Qed.
Lemma reps_nth h cs ts P : reps h cs ts P -> forall i t, nth_error ts i = Some t -> exists cs1 c cs2 ts1 ts2 (P1 P0 P2 : Z -> Prop),
  cs = cs1 ++ c :: cs2 /\ ts = ts1 ++ t :: ts2 /\ List.length cs1 = i /\ List.length ts1 = i /\ reps h cs1 ts1 P1 /\ rep h c t P0 /\ reps h cs2 ts2 P2 /\
  (forall q, P q <-> P1 q \/ P0 q \/ P2 q) /\ (forall q, P1 q -> P0 q -> False) /\ (forall q, P1 q -> P2 q -> False) /\ (forall q, P0 q -> P2 q -> False).
Proof.
  intros R. induction R as [P N|c cs t ts P P1 P2 E D Rc Rs IH]; intros i u Hi.
  - destruct i; discriminate.
  - destruct i as [|i]; cbn in Hi.
    + injection Hi as <-. exists [], c, cs, [], ts, (fun _ => False), P1, P2. splits; auto; try tauto; [constructor; tauto|intros q; rewrite E; tauto].
    + destruct (IH i u Hi) as (cs1 & c' & cs2 & ts1 & ts2 & Q1 & Q0 & Q2 & -> & -> & L1 & L2 & R1 & R0 & R2 & E' & D1 & D2 & D3).
      exists (c :: cs1), c', cs2, (t :: ts1), ts2, (fun q => P1 q \/ Q1 q), Q0, Q2. cbn [List.length app].
      assert (DD : forall q, P1 q -> Q1 q \/ Q0 q \/ Q2 q -> False) by (intros q A B; apply (D q A), E', B).
      splits; auto.
      * apply (RC h _ _ _ _ _ P1 Q1); auto; [intros q; reflexivity|]. intros q A B. apply (DD q A). auto.
      * intros q. rewrite E, E'. tauto.
      * intros q [A|A] B; [apply (DD q A); auto|eauto].
      * intros q [A|A] B; [apply (DD q A); auto|eauto].
Qed.
Lemma reps_join h cs1 ts1 (P1 : Z -> Prop) : reps h cs1 ts1 P1 -> forall c t (P0 : Z -> Prop) cs2 ts2 P2 P, rep h c t P0 -> reps h cs2 ts2 P2 ->
  (forall q, P q <-> P1 q \/ P0 q \/ P2 q) -> (forall q, P1 q -> P0 q -> False) -> (forall q, P1 q -> P2 q -> False) -> (forall q, P0 q -> P2 q -> False) ->
  reps h (cs1 ++ c :: cs2) (ts1 ++ t :: ts2) P.
Proof.
  intros R. induction R as [Q N|c' cs t' ts Q Q1 Q2 E D Rc Rs IH]; intros c t P0 cs2 ts2 P2 P R0 R2 EP D1 D2 D3; cbn [app].
  - apply (RC h _ _ _ _ P P0 P2); auto. intros q. rewrite EP. specialize (N q). tauto.
  - apply (RC h _ _ _ _ P Q1 (fun q => Q2 q \/ P0 q \/ P2 q)); auto.
    + intros q. rewrite EP, E. tauto.
    + intros q A [B|[B|B]]; [eapply D; eauto|apply (D1 q); [apply E; auto|auto]|apply (D2 q); [apply E; auto|auto]].
    + apply (IH c t P0 cs2 ts2 P2); auto; try (intros q; tauto); intros q A B; [apply (D1 q)|apply (D2 q)]; auto; apply E; auto.
Qed.

(** * A place inside a Value, what is around it, and how to put something else there *)
Section spot.
Variable h : Z -> option block.
Inductive spot : addr -> cell -> tree -> list nat -> addr -> cell -> tree -> (Z -> Prop) -> (Z -> Prop) -> Prop :=
| Spot0 a c t (O P : Z -> Prop) : rep h c t P -> (forall q, ~ O q) -> spot a c t [] a c t O P
| SpotS a tag p d cs1 ci cs2 ts1 ti ts2 i path x c t (O Oi P P1 P2 : Z -> Prop) :
    heapTag tag = true -> h p = Some (Block tag d (cs1 ++ ci :: cs2)) -> List.length cs1 = i -> List.length ts1 = i -> reps h cs1 ts1 P1 -> reps h cs2 ts2 P2 ->
    spot (p, i) ci ti path x c t Oi P -> (forall q, O q <-> q = p \/ P1 q \/ P2 q \/ Oi q) ->
    ~ P1 p -> ~ P2 p -> ~ Oi p -> ~ P p -> (forall q, P1 q -> P2 q -> False) -> (forall q, P1 q -> Oi q -> False) -> (forall q, P2 q -> Oi q -> False) ->
    (forall q, P1 q -> P q -> False) -> (forall q, P2 q -> P q -> False) ->
    spot a (Cell tag (SPtr (Some p))) (Node tag d (ts1 ++ ti :: ts2)) (i :: path) x c t O P.
Lemma spot_of_rep path : forall a c t P u, rep h c t P -> subtree t path = Some u ->
  exists x c' (O P' : Z -> Prop), spot a c t path x c' u O P' /\ (forall q, P q <-> O q \/ P' q) /\ (forall q, O q -> P' q -> False).
Proof.
  induction path as [|i path IH]; intros a c t P u R S.
  - injection S as <-. exists a, c, (fun _ => False), P. splits; [constructor; auto|tauto|tauto].
  - cbn [subtree] in S. destruct t as [tag d ts]. destruct (nth_error ts i) as [ti|] eqn:N; [|discriminate].
    inversion R; subst; try (destruct i; discriminate N).
    destruct (reps_nth _ _ _ _ H8 i ti N) as (cs1 & ci & cs2 & ts1 & ts2 & P1 & P0 & P2 & -> & -> & L1 & L2 & R1 & R0 & R2 & E & D1 & D2 & D3).
    destruct (IH (p, i) ci ti P0 u R0 S) as (x & c' & Oi & P' & Sp & Ei & Di).
    exists x, c', (fun q => q = p \/ P1 q \/ P2 q \/ Oi q), P'.
    assert (Np : ~ P1 p /\ ~ P2 p /\ ~ Oi p /\ ~ P' p).
    { assert (X : ~ (P1 p \/ P0 p \/ P2 p)) by (rewrite <- E; auto). pose proof (Ei p). tauto. }
    splits.
    + eapply SpotS; try eassumption; try tauto; try (intros q A B; specialize (Ei q); specialize (D1 q); specialize (D3 q); tauto).
    + intros q. rewrite H5, E, Ei. tauto.
    + intros q [->|[A|[A|A]]] B; [tauto|..]; specialize (Ei q); specialize (D1 q); specialize (D3 q); specialize (Di q); tauto.
Qed.
Lemma spot_inner a c t path x c' t' O P : spot a c t path x c' t' O P -> rep h c' t' P /\ (forall q, O q -> P q -> False).
Proof.
  induction 1 as [a c t O P R N|a tag p d cs1 ci cs2 ts1 ti ts2 i path x c t O Oi P P1 P2 Ht Hp L1 L2 R1 R2 _ IH E N1 N2 N3 N4 D1 D2 D3 D4 D5].
  - split; [exact R|]. intros q A. destruct (N q A).
  - destruct IH as [IH1 IH2]. split; [exact IH1|]. intros q A B. apply E in A as [->|[A|[A|A]]]; eauto.
Qed.
Lemma spot_back a c t path x c' t' O P : spot a c t path x c' t' O P -> rep h c t (fun q => O q \/ P q).
Proof.
  induction 1 as [a c t O P R N|a tag p d cs1 ci cs2 ts1 ti ts2 i path x c t O Oi P P1 P2 Ht Hp L1 L2 R1 R2 Sp IH E N1 N2 N3 N4 D1 D2 D3 D4 D5].
  - eapply rep_ext; [exact R|]. intros q. specialize (N q). tauto.
  - apply (RP h tag p d (cs1 ++ ci :: cs2) (ts1 ++ ti :: ts2) _ (fun q => P1 q \/ (Oi q \/ P q) \/ P2 q) Ht Hp).
    + intros q. rewrite E. tauto.
    + cbv beta. tauto.
    + apply (reps_join h cs1 ts1 P1 R1 ci ti (fun q => Oi q \/ P q) cs2 ts2 P2); auto; try (intros q; tauto); intros q; specialize (D2 q); specialize (D3 q); specialize (D4 q); specialize (D5 q); tauto.
Qed.
Lemma spot_owner a c t path x c' t' O P : spot a c t path x c' t' O P -> path <> [] -> O (fst x) /\ exists b, h (fst x) = Some b /\ nth_error (bkids b) (snd x) = Some c'.
Proof.
  induction 1 as [a c t O P R N|a tag p d cs1 ci cs2 ts1 ti ts2 i path x c t O Oi P P1 P2 Ht Hp L1 L2 R1 R2 Sp IH E N1 N2 N3 N4 D1 D2 D3 D4 D5]; intros Np; [contradiction|].
  destruct path as [|j path].
  - inversion Sp; subst. cbn [fst snd]. split; [apply E; auto|]. eexists. split; [exact Hp|]. cbn [bkids]. rewrite nth_error_app2 by lia. rewrite Nat.sub_diag. reflexivity.
  - destruct IH as [IH1 IH2]; [discriminate|]. split; [apply E; auto|exact IH2].
Qed.
End spot.
Lemma nth_mid {A} (l1 : list A) x l2 : nth_error (l1 ++ x :: l2) (List.length l1) = Some x.
Proof. rewrite nth_error_app2 by lia. rewrite Nat.sub_diag. reflexivity. Qed.
Lemma setKid_mid l1 x l2 c : setKid (List.length l1) c (l1 ++ x :: l2) = l1 ++ c :: l2.
Proof. induction l1; cbn; [reflexivity|]. f_equal. assumption. Qed.
Lemma mapNth_mid l1 x l2 f : mapNth (List.length l1) f (l1 ++ x :: l2) = l1 ++ f x :: l2.
Proof. induction l1; cbn; [reflexivity|]. f_equal. assumption. Qed.
Lemma spot_resolve m a c t path x c' t' O P : spot (heap m) a c t path x c' t' O P -> readA m a = Ret c -> resolve m (fst a) (snd a) path = Ret x /\ readA m x = Ret c'.
Proof.
  induction 1 as [a c t O P R N|a tag p d cs1 ci cs2 ts1 ti ts2 i path x c t O Oi P P1 P2 Ht Hp L1 L2 R1 R2 Sp IH E N1 N2 N3 N4 D1 D2 D3 D4 D5]; intros Ra.
  - destruct a. auto.
  - cbn [resolve]. replace (fst a, snd a) with a by (destruct a; reflexivity). rewrite Ra. cbn [obind ctag cslot]. rewrite Ht.
    apply IH. unfold readA. cbn [fst snd]. rewrite Hp. cbn [bkids]. rewrite <- L1, nth_mid. reflexivity.
Qed.
(** putting another Value at the place *)
Definition put (h h2 : Z -> option block) (O : Z -> Prop) (x : addr) (c2 : cell) : Prop :=
  (forall q, O q -> q <> fst x -> h2 q = h q) /\
  forall b, h (fst x) = Some b -> h2 (fst x) = Some (Block (bkind b) (bdata b) (setKid (snd x) c2 (bkids b))).
Lemma refill h a c t path x c' t' O P : spot h a c t path x c' t' O P -> forall h2 c2 t2 P2, path <> [] -> put h h2 O x c2 -> rep h2 c2 t2 P2 -> (forall q, O q -> P2 q -> False) ->
  spot h2 a c (replace t path t2) path x c2 t2 O P2.
Proof.
  induction 1 as [a c t O P R N|a tag p d cs1 ci cs2 ts1 ti ts2 i path x c t O Oi P P1 P2 Ht Hp L1 L2 R1 R2 Sp IH E N1 N2 N3 N4 D1 D2 D3 D4 D5]; intros h2 c2 t2 Q Np [Hf Hx] R' D'; [contradiction|].
  cbn [replace]. subst i. rewrite <- L2. rewrite mapNth_mid. rewrite L2.
  assert (F : forall (Z0 : Z -> Prop), (forall q, Z0 q -> O q) -> ~ Z0 (fst x) -> forall q, Z0 q -> h2 q = h q) by (intros Z0 HZ Nx q Hq; apply Hf; [auto|intros ->; contradiction]).
  destruct path as [|j path].
  - inversion Sp; subst. cbn [fst snd replace] in *. specialize (Hx _ Hp). cbn [bkind bdata bkids] in Hx. rewrite setKid_mid in Hx.
    eapply (SpotS h2 a tag p d cs1 c2 cs2 ts1 t2 ts2 (List.length cs1) [] (p, List.length cs1) c2 t2 O (fun _ => False) Q P1 P2); auto.
    + eapply reps_frame; [exact R1|]. apply F; [intros q A; apply E; auto|assumption].
    + eapply reps_frame; [exact R2|]. apply F; [intros q A; apply E; auto|assumption].
    + constructor; auto.
    + intros q. rewrite E. match goal with H : forall q, ~ Oi q |- _ => specialize (H q) end. tauto.
    + intros A. apply (D' p); [apply E; auto|exact A].
    + intros q A B. apply (D' q); [apply E; auto|exact B].
    + intros q A B. apply (D' q); [apply E; auto|exact B].
  - destruct (spot_owner _ _ _ _ _ _ _ _ _ _ Sp ltac:(discriminate)) as [Ox _].
    assert (Npx : p <> fst x) by (intros ->; contradiction).
    apply (SpotS h2 a tag p d cs1 ci cs2 ts1 (replace ti (j :: path) t2) ts2 (List.length cs1) (j :: path) x c2 t2 O Oi Q P1 P2); try assumption; try reflexivity.
    + rewrite Hf; [exact Hp|apply E; auto|exact Npx].
    + eapply reps_frame; [exact R1|]. apply F; [intros q A; apply E; auto|intros A; eauto].
    + eapply reps_frame; [exact R2|]. apply F; [intros q A; apply E; auto|intros A; eauto].
    + apply IH; [discriminate|split; [intros q A B; apply Hf; [apply E; auto|exact B]|exact Hx]|exact R'|]. intros q A B. apply (D' q); [apply E; auto|exact B].
    + intros A. apply (D' p); [apply E; auto|exact A].
    + intros q A B. apply (D' q); [apply E; auto|exact B].
    + intros q A B. apply (D' q); [apply E; auto|exact B].
Qed.

(** a second place, apart from the first, stays as it is *)
Lemma inside_cons i a j b : inside (i :: a) (j :: b) <-> i = j /\ inside a b.
Proof. unfold inside. split; [intros (c & [= -> ->]); eauto|intros (-> & c & ->); exists c; reflexivity]. Qed.
Lemma apart_cons i a j b : apart (i :: a) (j :: b) <-> i <> j \/ apart a b.
Proof.
  unfold apart. pose proof (inside_cons i a j b) as H1. pose proof (inside_cons j b i a) as H2. destruct (Nat.eq_dec i j) as [->|N]; [tauto|].
  assert (j <> i) by congruence. tauto.
Qed.
Lemma apart_nil a : ~ apart [] a /\ ~ apart a [].
Proof. split; intros [H1 H2]; [apply H2|apply H1]; exists a; reflexivity. Qed.
Lemma apart_sym a b : apart a b -> apart b a.
Proof. unfold apart. tauto. Qed.
Lemma subtree_nth g d ts i path : subtree (Node g d ts) (i :: path) = match nth_error ts i with Some t' => subtree t' path | None => None end.
Proof. reflexivity. Qed.
Lemma spot_frame h h2 a c t path x c' t' O P : spot h a c t path x c' t' O P -> (forall q, O q \/ P q -> h2 q = h q) -> spot h2 a c t path x c' t' O P.
Proof.
  induction 1 as [a c t O P R N|a tag p d cs1 ci cs2 ts1 ti ts2 i path x c t O Oi P P1 P2 Ht Hp L1 L2 R1 R2 Sp IH E N1 N2 N3 N4 D1 D2 D3 D4 D5]; intros F.
  - constructor; auto. eapply rep_frame; [exact R|auto].
  - apply (SpotS h2 a tag p d cs1 ci cs2 ts1 ti ts2 i path x c t O Oi P P1 P2); try assumption.
    + rewrite F; [exact Hp|]. left. apply E. auto.
    + eapply reps_frame; [exact R1|]. intros q A. apply F. left. apply E. auto.
    + eapply reps_frame; [exact R2|]. intros q A. apply F. left. apply E. auto.
    + apply IH. intros q [A|A]; apply F; [left; apply E; auto|auto].
Qed.
Lemma det_both h : (forall c t P, rep h c t P -> forall t' P', rep h c t' P' -> t = t' /\ forall q, P q <-> P' q) /\
  (forall cs ts P, reps h cs ts P -> forall ts' P', reps h cs ts' P' -> ts = ts' /\ forall q, P q <-> P' q).
Proof.
  apply (rep_reps_ind h (fun c t P _ => forall t' P', rep h c t' P' -> t = t' /\ forall q, P q <-> P' q) (fun cs ts P _ => forall ts' P', reps h cs ts' P' -> ts = ts' /\ forall q, P q <-> P' q)).
  - intros s P N t' P' R. inversion R; subst; try discriminate. split; [reflexivity|]. intros q. specialize (N q). match goal with X : forall q, ~ P' q |- _ => specialize (X q) end. tauto.
  - intros tag z P St N t' P' R. inversion R; subst; try discriminate. split; [reflexivity|]. intros q. specialize (N q). match goal with X : forall q, ~ P' q |- _ => specialize (X q) end. tauto.
  - intros tag p d cs ts P Q Ht Hp E N _ IH t' P' R. inversion R as [| |tag' p' d' cs' ts' P'' Q' Ht' Hp' E' N' R']; subst; try discriminate. rewrite Hp in Hp'. injection Hp' as <- <-. destruct (IH _ _ R') as [<- Eq].
    split; [reflexivity|]. intros q. rewrite E, E', Eq. reflexivity.
  - intros P N ts' P' R. inversion R; subst. split; [reflexivity|]. intros q. specialize (N q). match goal with X : forall q, ~ P' q |- _ => specialize (X q) end. tauto.
  - intros c cs t ts P P1 P2 E D _ IH1 _ IH2 ts' P' R. inversion R as [|c' cs' t' ts'' P'' P1' P2' E' D' R1 R2]; subst. destruct (IH1 _ _ R1) as [<- E1]. destruct (IH2 _ _ R2) as [<- E2].
    split; [reflexivity|]. intros q. rewrite E, E', E1, E2. reflexivity.
Qed.
Lemma spot_total h a c t path x c' t' O P path2 y c2 t2 O2 P2 : spot h a c t path x c' t' O P -> spot h a c t path2 y c2 t2 O2 P2 -> forall q, O q \/ P q <-> O2 q \/ P2 q.
Proof. intros S1 S2 q. apply spot_back in S1, S2. destruct (proj1 (det_both h) _ _ _ S1 _ _ S2) as [_ E]. apply E. Qed.
Lemma in_reps_spot h p tag d cs1 ci cs2 ts1 ti ts2 (P1 P2 Pi : Z -> Prop) : heapTag tag = true -> h p = Some (Block tag d (cs1 ++ ci :: cs2)) -> List.length cs1 = List.length ts1 ->
  reps h cs1 ts1 P1 -> reps h cs2 ts2 P2 -> forall path y c u O P a, spot h (p, List.length cs1) ci ti path y c u O P -> (forall q, Pi q <-> O q \/ P q) ->
  ~ P1 p -> ~ P2 p -> ~ Pi p -> (forall q, P1 q -> P2 q -> False) -> (forall q, P1 q -> Pi q -> False) -> (forall q, P2 q -> Pi q -> False) ->
  spot h a (Cell tag (SPtr (Some p))) (Node tag d (ts1 ++ ti :: ts2)) (List.length cs1 :: path) y c u (fun q => q = p \/ P1 q \/ P2 q \/ O q) P.
Proof.
  intros Ht Hp L R1 R2 path y c u O P a S E N1 N2 N3 D1 D2 D3.
  apply (SpotS h a tag p d cs1 ci cs2 ts1 ti ts2 _ path y c u _ O P P1 P2); auto; try tauto; try (rewrite E in N3; tauto); intros q A B; [apply (D2 q)|apply (D3 q)|apply (D2 q)|apply (D3 q)]; auto; apply E; auto.
Qed.
Lemma rep_ptr h tag p tag' d ts (W : Z -> Prop) : rep h (Cell tag (SPtr (Some p))) (Node tag' d ts) W -> tag' = tag /\ (tag <> tEmpty -> exists cs (Q : Z -> Prop), heapTag tag = true /\ h p = Some (Block tag d cs) /\
  (forall q, W q <-> q = p \/ Q q) /\ ~ Q p /\ reps h cs ts Q).
Proof. intros R. inversion R; subst; (split; [reflexivity|]); intros N; [contradiction N; reflexivity|]. eexists _, _. splits; eassumption. Qed.
Lemma via_kid h a tag p d cs ts W j cj tj path y cu u Oj Pj : heapTag tag = true -> rep h (Cell tag (SPtr (Some p))) (Node tag d ts) W -> h p = Some (Block tag d cs) ->
  nth_error cs j = Some cj -> nth_error ts j = Some tj -> spot h (p, j) cj tj path y cu u Oj Pj -> exists O, spot h a (Cell tag (SPtr (Some p))) (Node tag d ts) (j :: path) y cu u O Pj.
Proof.
  intros Ht R Hp Nc Nt S. apply rep_ptr in R as [_ R]. destruct R as (cs' & Q & _ & Hp' & E & N & Rs); [intros ->; discriminate Ht|]. rewrite Hp in Hp'. injection Hp' as <-.
  destruct (reps_nth _ _ _ _ Rs j tj Nt) as (cs1 & c0 & cs2 & ts1 & ts2 & P1 & P0 & P2 & -> & -> & L1 & L2 & R1 & R0 & R2 & E' & D1 & D2 & D3).
  subst j. rewrite nth_mid in Nc. injection Nc as ->.
  destruct (proj1 (det_both h) _ _ _ (spot_back _ _ _ _ _ _ _ _ _ _ S) _ _ R0) as [_ E0].
  assert (X : ~ (P1 p \/ P0 p \/ P2 p)) by (rewrite <- E'; exact N).
  eexists. apply (in_reps_spot h p tag d cs1 cj cs2 ts1 tj ts2 P1 P2 P0); try assumption; try tauto; try congruence; try (intros q; rewrite E0; tauto); try (intros q A B; eapply D3; eauto; fail). exact S.
Qed.
Lemma setKid_nth i c cs j : i <> j -> nth_error (setKid i c cs) j = nth_error cs j.
Proof. revert i j. induction cs as [|x cs IH]; intros i j N; [destruct i; reflexivity|]. destruct i, j; cbn; try reflexivity; [contradiction|apply IH; congruence]. Qed.
Lemma mapNth_nth i f ts j : nth_error (mapNth i f ts) j = if Nat.eqb i j then option_map f (nth_error ts j) else nth_error ts j.
Proof. revert i j. induction ts as [|x ts IH]; intros [|i] [|j]; cbn [mapNth nth_error Nat.eqb]; try reflexivity; [destruct (Nat.eqb i j); reflexivity|apply IH]. Qed.
Lemma spot_apart h a c t path x c' t' O P : spot h a c t path x c' t' O P -> forall path2 u, apart path path2 -> subtree t path2 = Some u ->
  exists y cu (O' P' : Z -> Prop), spot h a c t path2 y cu u O' P' /\ y <> x /\ (forall q, P' q -> O q) /\ ~ P' (fst x) /\
    forall h2 c2 t2 P2, put h h2 O x c2 -> rep h2 c2 t2 P2 -> (forall q, O q -> P2 q -> False) -> exists O2, spot h2 a c (replace t path t2) path2 y cu u O2 P'.
Proof.
  intros Sf. pose proof Sf as Sf0. revert Sf0.
  induction Sf as [a c t O P R N|a tag p d cs1 ci cs2 ts1 ti ts2 i path x c t O Oi P P1 P2 Ht Hp L1 L2 R1 R2 Sp IH E N1 N2 N3 N4 D1 D2 D3 D4 D5]; intros Sf path2 u A S; [destruct (apart_nil path2); contradiction|].
  destruct path2 as [|j path2]; [destruct (apart_nil (i :: path)); contradiction|]. apply apart_cons in A. rewrite subtree_nth in S.
  assert (Hx : fst x = p /\ x = (p, i) /\ path = [] \/ Oi (fst x)).
  { destruct path as [|k path]; [inversion Sp; subst; left; auto|right; apply (spot_owner _ _ _ _ _ _ _ _ _ _ Sp); discriminate]. }
  pose proof (spot_back _ _ _ _ _ _ _ _ _ _ Sf) as Rh.
  destruct (Nat.eq_dec i j) as [<-|Nij].
  - destruct A as [A|A]; [contradiction|]. rewrite <- L2, nth_mid in S.
    destruct path as [|k path]; [destruct (apart_nil path2); contradiction|].
    destruct (IH Sp path2 u A S) as (y & cu & O' & P' & S' & Ny & HP & Nx & Hput).
    destruct (via_kid h a tag p d _ _ _ i ci ti path2 y cu u O' P' Ht Rh Hp) as [O1 S1]; [rewrite <- L1; apply nth_mid|rewrite <- L2; apply nth_mid|exact S'|].
    exists y, cu, O1, P'. splits; auto; [intros q B; apply E; auto|].
    intros h2 c2 t2 Q Hp2 R' D'.
    pose proof (spot_back _ _ _ _ _ _ _ _ _ _ (refill _ _ _ _ _ _ _ _ _ _ Sf h2 c2 t2 Q ltac:(discriminate) Hp2 R' D')) as Rh2.
    destruct Hx as [(_ & _ & X)|Hx]; [discriminate X|]. destruct Hp2 as [Hp1 Hp2].
    destruct (Hput h2 c2 t2 Q) as [O2 S2]; [split; [intros q B C; apply Hp1; [apply E; auto|exact C]|exact Hp2]|exact R'|intros q B C; apply (D' q); [apply E; auto|exact C]|].
    change (replace (Node tag d (ts1 ++ ti :: ts2)) (i :: k :: path) t2) with (Node tag d (mapNth i (fun t' => replace t' (k :: path) t2) (ts1 ++ ti :: ts2))) in *.
    eapply (via_kid h2 a tag p d (cs1 ++ ci :: cs2)); [exact Ht|exact Rh2| |rewrite <- L1; apply nth_mid| |exact S2].
    + rewrite Hp1; [exact Hp|apply E; auto|]. intros ->. contradiction.
    + rewrite <- L2, mapNth_mid, nth_mid. reflexivity.
  - clear A IH. destruct (nth_error (ts1 ++ ti :: ts2) j) as [tj|] eqn:Nj; [|discriminate].
    assert (K : exists cj (Pj : Z -> Prop), nth_error (cs1 ++ ci :: cs2) j = Some cj /\ rep h cj tj Pj /\ (forall q, Pj q -> P1 q \/ P2 q)).
    { destruct (Nat.lt_ge_cases j i) as [L|L].
      - rewrite nth_error_app1 in Nj by lia. destruct (reps_nth _ _ _ _ R1 j tj Nj) as (a1 & cj & a2 & b1 & b2 & Q1 & Q0 & Q2 & -> & -> & La & Lb & _ & Rj & _ & Ej & _).
        exists cj, Q0. splits; [rewrite <- app_assoc; cbn [app]; rewrite <- La; apply nth_mid|exact Rj|intros q B; left; apply Ej; auto].
      - assert (Hj : exists k, j = (i + Datatypes.S k)%nat) by (exists (j - i - 1)%nat; lia). destruct Hj as [k ->]. rewrite nth_error_app2 in Nj by lia. replace (i + Datatypes.S k - List.length ts1)%nat with (Datatypes.S k) in Nj by lia. cbn [nth_error] in Nj.
        destruct (reps_nth _ _ _ _ R2 k tj Nj) as (a1 & cj & a2 & b1 & b2 & Q1 & Q0 & Q2 & -> & -> & La & Lb & _ & Rj & _ & Ej & _).
        exists cj, Q0. splits; [rewrite nth_error_app2 by lia; replace (i + Datatypes.S k - List.length cs1)%nat with (Datatypes.S k) by lia; cbn [nth_error]; rewrite <- La; apply nth_mid|exact Rj|intros q B; right; apply Ej; auto]. }
    destruct K as (cj & Pj & Nc & Rj & Hj). destruct (spot_of_rep h path2 (p, j) cj tj Pj u Rj S) as (y & cu & Oj & P' & Sj & Ej & Dj).
    destruct (via_kid h a tag p d _ _ _ j cj tj path2 y cu u Oj P' Ht Rh Hp Nc Nj Sj) as [O1 S1].
    assert (Nx : forall q, Pj q -> q <> fst x).
    { intros q B ->. apply Hj in B. destruct Hx as [(Hx & _)|Hx]; [rewrite Hx in B; tauto|]. specialize (D2 (fst x)). specialize (D3 (fst x)). tauto. }
    exists y, cu, O1, P'. splits; auto.
    + intros ->. destruct path2 as [|k path2].
      * inversion Sj; subst. destruct Hx as [(_ & [= ->] & _)|Hx]; [contradiction Nij; reflexivity|]. cbn [fst] in Hx. contradiction.
      * destruct (spot_owner _ _ _ _ _ _ _ _ _ _ Sj ltac:(discriminate)) as [B _]. apply (Nx (fst x)); [apply Ej; auto|reflexivity].
    + intros q B. apply E. destruct (Hj q); [apply Ej; auto|auto..].
    + intros B. apply (Nx (fst x)); [apply Ej; auto|reflexivity].
    + intros h2 c2 t2 Q Hp2 R' D'.
      pose proof (spot_back _ _ _ _ _ _ _ _ _ _ (refill _ _ _ _ _ _ _ _ _ _ Sf h2 c2 t2 Q ltac:(discriminate) Hp2 R' D')) as Rh2. destruct Hp2 as [Hp1 Hp2].
      assert (F : forall q, Pj q -> h2 q = h q) by (intros q B; apply Hp1; [apply E; destruct (Hj q B); auto|apply Nx, B]).
      change (replace (Node tag d (ts1 ++ ti :: ts2)) (i :: path) t2) with (Node tag d (mapNth i (fun t' => replace t' path t2) (ts1 ++ ti :: ts2))) in *.
      assert (Nt : nth_error (mapNth i (fun t' => replace t' path t2) (ts1 ++ ti :: ts2)) j = Some tj) by (rewrite mapNth_nth; destruct (Nat.eqb_spec i j); [contradiction|exact Nj]).
      assert (Sj2 : spot h2 (p, j) cj tj path2 y cu u Oj P') by (eapply spot_frame; [exact Sj|]; intros q B; apply F, Ej, B).
      destruct Hx as [(Hx & -> & ->)|Hx].
      * cbn [fst snd] in *. specialize (Hp2 _ Hp). cbn [bkind bdata bkids] in Hp2. eapply (via_kid h2 a tag p d); [exact Ht|exact Rh2|exact Hp2| |exact Nt|exact Sj2]. rewrite setKid_nth; [exact Nc|exact Nij].
      * eapply (via_kid h2 a tag p d); [exact Ht|exact Rh2| |exact Nc|exact Nt|exact Sj2]. rewrite Hp1; [exact Hp|apply E; auto|]. intros ->. contradiction.
Qed.

(** * Copying, destroying, building, looking *)
Definition above (m : mem) : Prop := forall q, next m <= q -> heap m q = None.
Lemma copy_both h :
  (forall c t P, rep h c t P -> exists N, forall n m, (N <= n)%nat -> above m -> (forall q, P q -> heap m q = h q /\ q < next m) ->
     exists m' c', copyCell n m c = Ret (m', c') /\ next m <= next m' /\ above m' /\ (forall q, q < next m -> heap m' q = heap m q) /\ rep (heap m') c' t (fun q => next m <= q < next m') /\ (forall q, next m <= q < next m' -> heap m' q <> None)) /\
  (forall cs ts P, reps h cs ts P -> exists N, forall n m, (N <= n)%nat -> above m -> (forall q, P q -> heap m q = h q /\ q < next m) ->
     exists m' cs', copyCells (copyCell n) m cs = Ret (m', cs') /\ next m <= next m' /\ above m' /\ (forall q, q < next m -> heap m' q = heap m q) /\ reps (heap m') cs' ts (fun q => next m <= q < next m') /\ (forall q, next m <= q < next m' -> heap m' q <> None)).
Proof.
  apply (rep_reps_ind h
    (fun c t P _ => exists N, forall n m, (N <= n)%nat -> above m -> (forall q, P q -> heap m q = h q /\ q < next m) ->
       exists m' c', copyCell n m c = Ret (m', c') /\ next m <= next m' /\ above m' /\ (forall q, q < next m -> heap m' q = heap m q) /\ rep (heap m') c' t (fun q => next m <= q < next m') /\ (forall q, next m <= q < next m' -> heap m' q <> None))
    (fun cs ts P _ => exists N, forall n m, (N <= n)%nat -> above m -> (forall q, P q -> heap m q = h q /\ q < next m) ->
       exists m' cs', copyCells (copyCell n) m cs = Ret (m', cs') /\ next m <= next m' /\ above m' /\ (forall q, q < next m -> heap m' q = heap m q) /\ reps (heap m') cs' ts (fun q => next m <= q < next m') /\ (forall q, next m <= q < next m' -> heap m' q <> None))).
  - intros s P N. exists 1%nat. intros [|n] m Hn Ab F; [lia|]. exists m, emptyCell. cbn [copyCell ctag]. rewrite Z.eqb_refl. splits; auto; try lia; constructor; intros q; lia.
  - intros tag z P St N. exists 1%nat. intros [|n] m Hn Ab F; [lia|]. exists m, (Cell tag (SScal z)). cbn [copyCell ctag cslot]. destruct (stags tag St) as [-> _]. rewrite St. splits; auto; try lia; constructor; [exact St|intros q; lia].
  - intros tag p d cs ts P Q Ht Hp E Np R [N IH]. exists (S N). intros [|n] m Hn Ab F; [lia|].
    destruct (F p) as [Fp Lp]; [apply E; auto|]. destruct (tags tag Ht) as [T1 T2]. cbn [copyCell ctag cslot]. rewrite T1, T2, Ht, Fp, Hp. cbn [bkind bkids bdata]. rewrite Z.eqb_refl.
    destruct (IH n m) as (m1 & cs1 & -> & L & Ab1 & Fr & R1 & Lv); [lia|exact Ab|intros q Hq; apply F, E; auto|]. cbn [obind fst snd alloc].
    eexists _, _. split; [reflexivity|]. cbn [next heap]. splits.
    + lia.
    + intros q Hq. cbn [next heap] in *. destruct (Z.eqb_spec q (next m1)); [lia|]. apply Ab1. lia.
    + intros q Hq. destruct (Z.eqb_spec q (next m1)); [lia|]. apply Fr, Hq.
    + apply (RP _ tag (next m1) d cs1 ts _ (fun q => next m <= q < next m1)); auto.
      * rewrite Z.eqb_refl. reflexivity.
      * intros q. lia.
      * lia.
      * eapply reps_frame; [exact R1|]. intros q Hq. cbv beta. destruct (Z.eqb_spec q (next m1)); [lia|reflexivity].
    + intros q Hq. destruct (Z.eqb_spec q (next m1)); [discriminate|]. apply Lv. lia.
  - intros P N. exists O. intros n m Hn Ab F. exists m, []. splits; auto; try lia; constructor; intros q; lia.
  - intros c cs t ts P P1 P2 E D R1 [N1 IH1] R2 [N2 IH2]. exists (Nat.max N1 N2). intros n m Hn Ab F. cbn [copyCells].
    destruct (IH1 n m) as (m1 & c1 & -> & L1 & Ab1 & Fr1 & Rc & Lv1); [lia|exact Ab|intros q Hq; apply F, E; auto|]. cbn [obind fst snd].
    destruct (IH2 n m1) as (m2 & cs2 & -> & L2 & Ab2 & Fr2 & Rs & Lv2); [lia|exact Ab1| |].
    { intros q Hq. destruct (F q) as [F1 F2]; [apply E; auto|]. split; [rewrite Fr1 by exact F2; exact F1|lia]. }
    cbn [obind fst snd]. exists m2, (c1 :: cs2). splits; auto; try lia.
    + intros q Hq. rewrite Fr2 by lia. apply Fr1, Hq.
    + apply (RC _ _ _ _ _ _ (fun q => next m <= q < next m1) (fun q => next m1 <= q < next m2)); [intros q; lia|intros q; lia| |exact Rs].
      eapply rep_frame; [exact Rc|]. intros q Hq. apply Fr2. lia.
    + intros q Hq. destruct (Z.lt_ge_cases q (next m1)); [rewrite Fr2 by lia; apply Lv1; lia|apply Lv2; lia].
Qed.
Lemma delete_both h :
  (forall c t P, rep h c t P -> exists N, forall n m, (N <= n)%nat -> (forall q, P q -> heap m q = h q) ->
     exists m', deleteCell n m c = Ret m' /\ next m' = next m /\ (forall q, P q -> heap m' q = None) /\ (forall q, ~ P q -> heap m' q = heap m q)) /\
  (forall cs ts P, reps h cs ts P -> exists N, forall n m, (N <= n)%nat -> (forall q, P q -> heap m q = h q) ->
     exists m', deleteCells (deleteCell n) m cs = Ret m' /\ next m' = next m /\ (forall q, P q -> heap m' q = None) /\ (forall q, ~ P q -> heap m' q = heap m q)).
Proof.
  apply (rep_reps_ind h
    (fun c t P _ => exists N, forall n m, (N <= n)%nat -> (forall q, P q -> heap m q = h q) ->
       exists m', deleteCell n m c = Ret m' /\ next m' = next m /\ (forall q, P q -> heap m' q = None) /\ (forall q, ~ P q -> heap m' q = heap m q))
    (fun cs ts P _ => exists N, forall n m, (N <= n)%nat -> (forall q, P q -> heap m q = h q) ->
       exists m', deleteCells (deleteCell n) m cs = Ret m' /\ next m' = next m /\ (forall q, P q -> heap m' q = None) /\ (forall q, ~ P q -> heap m' q = heap m q))).
  - intros s P N. exists 1%nat. intros [|n] m Hn F; [lia|]. exists m. splits; auto. intros q Hq. destruct (N q Hq).
  - intros tag z P St N. exists 1%nat. intros [|n] m Hn F; [lia|]. exists m. cbn [deleteCell ctag]. rewrite St, orb_true_r. splits; auto. intros q Hq. destruct (N q Hq).
  - intros tag p d cs ts P Q Ht Hp E Np R [N IH]. exists (S N). intros [|n] m Hn F; [lia|].
    destruct (tags tag Ht) as [T1 T2]. cbn [deleteCell ctag cslot]. rewrite T1, T2, Ht, (F p), Hp by (apply E; auto). cbn [orb bkind bkids]. rewrite Z.eqb_refl.
    destruct (IH n (setBlock m p None)) as (m' & -> & Nx & G1 & G2); [lia| |].
    { intros q Hq. cbn. destruct (Z.eqb_spec q p) as [->|]; [contradiction|]. apply F, E. auto. }
    exists m'. splits; auto.
    + intros q Hq. apply E in Hq as [->|Hq]; [|auto]. rewrite (G2 p Np). cbn. rewrite Z.eqb_refl. reflexivity.
    + intros q Hq. rewrite E in Hq. rewrite G2 by tauto. cbn. destruct (Z.eqb_spec q p); [tauto|reflexivity].
  - intros P N. exists O. intros n m Hn F. exists m. splits; auto. intros q Hq. destruct (N q Hq).
  - intros c cs t ts P P1 P2 E D R1 [N1 IH1] R2 [N2 IH2]. exists (Nat.max N1 N2). intros n m Hn F. cbn [deleteCells].
    destruct (IH1 n m) as (m1 & -> & X1 & A1 & B1); [lia|intros q Hq; apply F, E; auto|]. cbn [obind].
    destruct (IH2 n m1) as (m2 & -> & X2 & A2 & B2); [lia| |].
    { intros q Hq. rewrite B1; [apply F, E; auto|]. intros Hq1. eapply D; eauto. }
    exists m2. splits; auto; [congruence| |].
    + intros q Hq. apply E in Hq as [Hq|Hq]; [|auto]. rewrite B2; [auto|]. intros Hq2. eapply D; eauto.
    + intros q Hq. rewrite E in Hq. rewrite B2, B1 by tauto. reflexivity.
Qed.
Definition lookAll (n : nat) (m : mem) := fix go (cs : list cell) : outcome (list tree) := match cs with [] => Ret [] | c :: cs' => let* t := look n m c in let* ts := go cs' in Ret (t :: ts) end.
Lemma look_both h :
  (forall c t P, rep h c t P -> exists N, forall n m, (N <= n)%nat -> (forall q, P q -> heap m q = h q) -> look n m c = Ret t) /\
  (forall cs ts P, reps h cs ts P -> exists N, forall n m, (N <= n)%nat -> (forall q, P q -> heap m q = h q) -> lookAll n m cs = Ret ts).
Proof.
  apply (rep_reps_ind h
    (fun c t P _ => exists N, forall n m, (N <= n)%nat -> (forall q, P q -> heap m q = h q) -> look n m c = Ret t)
    (fun cs ts P _ => exists N, forall n m, (N <= n)%nat -> (forall q, P q -> heap m q = h q) -> lookAll n m cs = Ret ts)).
  - intros s P N. exists 1%nat. intros [|n] m Hn F; [lia|]. reflexivity.
  - intros tag z P St N. exists 1%nat. intros [|n] m Hn F; [lia|]. cbn [look ctag cslot]. destruct (stags tag St) as [-> _]. rewrite St. reflexivity.
  - intros tag p d cs ts P Q Ht Hp E Np R [N IH]. exists (S N). intros [|n] m Hn F; [lia|].
    destruct (tags tag Ht) as [T1 T2]. cbn [look ctag cslot]. rewrite T1, T2, Ht, (F p), Hp by (apply E; auto). cbn [bkind bkids bdata]. rewrite Z.eqb_refl.
    fold (lookAll n m). rewrite (IH n m); [reflexivity|lia|]. intros q Hq. apply F, E. auto.
  - intros P N. exists O. intros n m Hn F. reflexivity.
  - intros c cs t ts P P1 P2 E D R1 [N1 IH1] R2 [N2 IH2]. exists (Nat.max N1 N2). intros n m Hn F. cbn [lookAll]. rewrite (IH1 n m); [|lia|intros q Hq; apply F, E; auto]. cbn [obind].
    fold (lookAll n m). rewrite (IH2 n m); [reflexivity|lia|intros q Hq; apply F, E; auto].
Qed.
Definition buildAll := fix go (m : mem) (ts : list tree) : mem * list cell :=
  match ts with [] => (m, []) | t :: ts' => let (m1, c) := build m t in let (m2, cs) := go m1 ts' in (m2, c :: cs) end.
Section tree_ind.
Variable P : tree -> Prop.
Hypothesis H : forall g d ts, Forall P ts -> P (Node g d ts).
Fixpoint tree_all (t : tree) : P t :=
  match t with Node g d ts => H g d ts ((fix go (l : list tree) : Forall P l := match l with [] => Forall_nil P | x :: l' => Forall_cons x (tree_all x) (go l') end) ts) end.
End tree_ind.
Lemma build_spec t : isValue t -> forall m, above m -> exists m' c, build m t = (m', c) /\ next m <= next m' /\ above m' /\ (forall q, q < next m -> heap m' q = heap m q) /\
  rep (heap m') c t (fun q => next m <= q < next m') /\ (forall q, next m <= q < next m' -> heap m' q <> None).
Proof.
  induction t as [g d ts IH] using tree_all. intros V m Ab.
  assert (Scal : ts = [] -> heapTag g = false -> (g = tEmpty /\ d = [] \/ scalarTag g = true) -> exists m' c, build m (Node g d ts) = (m', c) /\ next m <= next m' /\ above m' /\ (forall q, q < next m -> heap m' q = heap m q) /\
    rep (heap m') c (Node g d ts) (fun q => next m <= q < next m') /\ (forall q, next m <= q < next m' -> heap m' q <> None)).
  { intros -> Hg [[-> ->]|Sg]; cbn [build]; rewrite ?Hg.
    - eexists _, _. split; [reflexivity|]. splits; auto; try lia; constructor; intros q; lia.
    - destruct (stags g Sg) as [-> _]. eexists _, _. split; [reflexivity|]. splits; auto; try lia; constructor; [exact Sg|intros q; lia]. }
  inversion V as [|? ? Sg|? ? ? Hg F]; subst.
  - apply Scal; [reflexivity|reflexivity|left; auto].
  - apply Scal; [reflexivity|apply stags, Sg|right; exact Sg].
  - clear Scal V. cbn [build]. rewrite Hg. fold buildAll.
    assert (G : forall m, above m -> exists m' cs, buildAll m ts = (m', cs) /\ next m <= next m' /\ above m' /\ (forall q, q < next m -> heap m' q = heap m q) /\
      reps (heap m') cs ts (fun q => next m <= q < next m') /\ (forall q, next m <= q < next m' -> heap m' q <> None)).
    { clear m Ab. induction ts as [|t ts IHts]; intros m Ab; cbn [buildAll].
      - eexists _, _. split; [reflexivity|]. splits; auto; try lia; constructor; intros q; lia.
      - destruct (Forall_inv IH (Forall_inv F) m Ab) as (m1 & c1 & -> & L1 & Ab1 & Fr1 & Rc & Lv1).
        destruct (IHts (Forall_inv_tail IH) (Forall_inv_tail F) m1 Ab1) as (m2 & cs2 & E2 & L2 & Ab2 & Fr2 & Rs & Lv2).
        fold buildAll. rewrite E2. eexists _, _. split; [reflexivity|]. splits; auto; try lia.
        + intros q Hq. rewrite Fr2 by lia. apply Fr1, Hq.
        + apply (RC _ _ _ _ _ _ (fun q => next m <= q < next m1) (fun q => next m1 <= q < next m2)); [intros q; lia|intros q; lia| |exact Rs].
          eapply rep_frame; [exact Rc|]. intros q Hq. apply Fr2. lia.
        + intros q Hq. destruct (Z.lt_ge_cases q (next m1)); [rewrite Fr2 by lia; apply Lv1; lia|apply Lv2; lia]. }
    destruct (G m Ab) as (m1 & cs1 & -> & L & Ab1 & Fr & R1 & Lv). cbn [fst snd alloc]. eexists _, _. split; [reflexivity|]. cbn [next heap]. splits.
    + lia.
    + intros q Hq. cbn [next heap] in *. destruct (Z.eqb_spec q (next m1)); [lia|]. apply Ab1. lia.
    + intros q Hq. destruct (Z.eqb_spec q (next m1)); [lia|]. apply Fr, Hq.
    + apply (RP _ g (next m1) d cs1 ts _ (fun q => next m <= q < next m1)); auto.
      * rewrite Z.eqb_refl. reflexivity.
      * intros q. lia.
      * lia.
      * eapply reps_frame; [exact R1|]. intros q Hq. cbv beta. destruct (Z.eqb_spec q (next m1)); [lia|reflexivity].
    + intros q Hq. destruct (Z.eqb_spec q (next m1)); [discriminate|]. apply Lv. lia.
Qed.

(** * Trees *)
Lemma mapNth_mapNth i f g ts : mapNth i f (mapNth i g ts) = mapNth i (fun t => f (g t)) ts.
Proof. revert i. induction ts as [|t ts IH]; intros [|i]; cbn; f_equal; auto. Qed.
Lemma mapNth_comm i j f g ts : i <> j -> mapNth i f (mapNth j g ts) = mapNth j g (mapNth i f ts).
Proof. revert i j. induction ts as [|t ts IH]; intros [|i] [|j] N; cbn; try reflexivity; [contradiction|]. f_equal. apply IH. congruence. Qed.
Lemma mapNth_at i f g ts : (forall t, nth_error ts i = Some t -> f t = g t) -> mapNth i f ts = mapNth i g ts.
Proof. revert i. induction ts as [|t ts IH]; intros [|i] H; cbn; try reflexivity; f_equal; auto. Qed.
Lemma mapNth_same i f ts : (forall t, nth_error ts i = Some t -> f t = t) -> mapNth i f ts = ts.
Proof. revert i. induction ts as [|t ts IH]; intros [|i] H; cbn; try reflexivity; f_equal; auto. Qed.
Lemma replace_replace a : forall T s t, replace (replace T a s) a t = replace T a t.
Proof. induction a as [|i a IH]; intros [g d ts] s t; cbn [replace]; [reflexivity|]. f_equal. rewrite mapNth_mapNth. apply mapNth_at. auto. Qed.
Lemma replace_comm a : forall b T s t, apart a b -> replace (replace T a s) b t = replace (replace T b t) a s.
Proof.
  induction a as [|i a IH]; intros [|j b] [g d ts] s t A; try (destruct (apart_nil (i :: a)); contradiction); try (destruct (apart_nil (j :: b)); contradiction); try (destruct (apart_nil []); contradiction).
  cbn [replace]. f_equal. apply apart_cons in A. destruct (Nat.eq_dec i j) as [<-|N].
  - rewrite !mapNth_mapNth. apply mapNth_at. intros u _. apply IH. tauto.
  - rewrite mapNth_comm by congruence. reflexivity.
Qed.
Lemma replace_same a : forall T s, subtree T a = Some s -> replace T a s = T.
Proof.
  induction a as [|i a IH]; intros [g d ts] s H; cbn [replace]; [injection H as <-; reflexivity|]. f_equal. apply mapNth_same. intros t Ht.
  rewrite subtree_nth, Ht in H. apply IH, H.
Qed.
Lemma subtree_apart a : forall b T s t, apart a b -> subtree T b = Some t -> subtree (replace T a s) b = Some t.
Proof.
  induction a as [|i a IH]; intros [|j b] [g d ts] s t A H; try (destruct (apart_nil (i :: a)); contradiction); try (destruct (apart_nil (j :: b)); contradiction); try (destruct (apart_nil []); contradiction).
  cbn [replace]. rewrite subtree_nth in *. rewrite mapNth_nth. apply apart_cons in A. destruct (Nat.eqb_spec i j) as [<-|N]; [|exact H].
  destruct (nth_error ts i) as [u|]; [|discriminate]. cbn. apply IH; tauto.
Qed.

(** * Writing *)
Definition wr (h : Z -> option block) (x : addr) (c : cell) : Z -> option block :=
  fun q => if q =? fst x then match h q with Some b => Some (Block (bkind b) (bdata b) (setKid (snd x) c (bkids b))) | None => None end else h q.
Lemma setKid_set i c d cs : setKid i c (setKid i d cs) = setKid i c cs.
Proof. revert i. induction cs as [|x cs IH]; intros [|i]; cbn; f_equal; auto. Qed.
Lemma setKid_comm i j c d cs : i <> j -> setKid i c (setKid j d cs) = setKid j d (setKid i c cs).
Proof. revert i j. induction cs as [|x cs IH]; intros [|i] [|j] N; cbn; try reflexivity; [contradiction|]. f_equal. apply IH. congruence. Qed.
Lemma setKid_same i c cs : nth_error cs i = Some c -> setKid i c cs = cs.
Proof. revert i. induction cs as [|x cs IH]; intros [|i] H; cbn in *; try discriminate; [congruence|]. f_equal. auto. Qed.
Lemma setKid_hit i c cs : (i < List.length cs)%nat -> nth_error (setKid i c cs) i = Some c.
Proof. revert i. induction cs as [|x cs IH]; intros [|i] H; cbn in *; try lia; [reflexivity|]. apply IH. lia. Qed.
Lemma wr_off h x c q : q <> fst x -> wr h x c q = h q.
Proof. intros N. unfold wr. destruct (Z.eqb_spec q (fst x)); [contradiction|reflexivity]. Qed.
Lemma wr_live h x c q : wr h x c q <> None <-> h q <> None.
Proof. unfold wr. destruct (q =? fst x); [|reflexivity]. destruct (h q); split; congruence. Qed.
Lemma wr_wr h x c d q : wr (wr h x d) x c q = wr h x c q.
Proof. unfold wr. destruct (q =? fst x); [|reflexivity]. destruct (h q) as [b|]; [|reflexivity]. cbn [bkind bdata bkids]. rewrite setKid_set. reflexivity. Qed.
Lemma wr_comm h x y c d q : x <> y -> wr (wr h x c) y d q = wr (wr h y d) x c q.
Proof.
  intros N. unfold wr. destruct (Z.eqb_spec q (fst x)) as [E|E], (Z.eqb_spec q (fst y)) as [F|F]; destruct (h q) as [b|]; try reflexivity. cbn [bkind bdata bkids].
  rewrite setKid_comm; [reflexivity|]. intros G. apply N. destruct x, y. cbn in *. congruence.
Qed.
Lemma wr_cong h h' x c q : h q = h' q -> wr h x c q = wr h' x c q.
Proof. intros E. unfold wr. rewrite E. reflexivity. Qed.
Lemma readA_eq m m' x : heap m (fst x) = heap m' (fst x) -> readA m x = readA m' x.
Proof. intros E. unfold readA. rewrite E. reflexivity. Qed.
Lemma wr_read m x c : readA m x = Ret c -> forall q, wr (heap m) x c q = heap m q.
Proof.
  unfold readA, wr. intros R q. destruct (Z.eqb_spec q (fst x)) as [->|]; [|reflexivity]. destruct (heap m (fst x)) as [b|]; [|reflexivity].
  destruct (nth_error (bkids b) (snd x)) eqn:E; [|discriminate]. injection R as ->. rewrite setKid_same by exact E. destruct b. reflexivity.
Qed.
(** [m'] is [m] with [c] written at [x], outside [P] *)
Definition wrote (m m' : mem) (x : addr) (c : cell) : Prop := next m' = next m /\ forall q, heap m' q = wr (heap m) x c q.
Lemma writeA_ok m x c c2 : readA m x = Ret c -> exists m', writeA m x c2 = Ret m' /\ wrote m m' x c2.
Proof.
  unfold readA, writeA. intros R. destruct (heap m (fst x)) as [b|] eqn:E; [|discriminate]. destruct (nth_error (bkids b) (snd x)) eqn:N; [|discriminate].
  assert (L : (snd x < List.length (bkids b))%nat) by (apply nth_error_Some; congruence). destruct (Nat.ltb_spec (snd x) (List.length (bkids b))); [|lia].
  eexists. split; [reflexivity|]. split; [reflexivity|]. intros q. cbn. unfold wr. destruct (Z.eqb_spec q (fst x)) as [->|]; [rewrite E|]; reflexivity.
Qed.
Lemma wr_hit m m' x c c2 : readA m x = Ret c -> heap m' (fst x) = wr (heap m) x c2 (fst x) -> readA m' x = Ret c2.
Proof.
  unfold readA. intros R ->. unfold wr. rewrite Z.eqb_refl. destruct (heap m (fst x)) as [b|]; [|discriminate]. cbn [bkids].
  destruct (nth_error (bkids b) (snd x)) eqn:N; [|discriminate]. rewrite setKid_hit; [reflexivity|]. apply nth_error_Some. congruence.
Qed.
Lemma wr_miss m m' x y c : x <> y -> heap m' (fst y) = wr (heap m) x c (fst y) -> readA m' y = readA m y.
Proof.
  unfold readA. intros N ->. unfold wr. destruct (Z.eqb_spec (fst y) (fst x)) as [E|]; [|reflexivity]. destruct (heap m (fst y)) as [b|]; [|reflexivity]. cbn [bkids].
  rewrite setKid_nth; [reflexivity|]. intros G. apply N. destruct x, y. cbn in *. congruence.
Qed.

Lemma rep_empty h c P : rep h c empty_ P -> ctag c = tEmpty /\ forall q, ~ P q.
Proof. intros R. inversion R; subst; [auto|discriminate|discriminate]. Qed.
Lemma rep_tag h c t P : rep h c t P -> ctag c = tagOf t.
Proof. intros R. inversion R; reflexivity. Qed.
Lemma rep_is_empty h c t P : rep h c t P -> ctag c = tEmpty -> t = empty_.
Proof. intros R E. inversion R; subst; [reflexivity|cbn in E; subst; discriminate|cbn in E; subst; discriminate]. Qed.
Lemma rep_E h c : ctag c = tEmpty -> rep h c empty_ (fun _ => False).
Proof. destruct c as [g s]. cbn. intros ->. constructor. auto. Qed.
(** clear() *)
Lemma clear_spec h c t P : rep h c t P -> exists N, forall n m x, (N <= n)%nat -> readA m x = Ret c -> (forall q, P q -> heap m q = h q) -> ~ P (fst x) ->
  exists m' c0, clearA n m x = Ret m' /\ next m' = next m /\ ctag c0 = tEmpty /\ (forall q, P q -> heap m' q = None) /\ (forall q, ~ P q -> heap m' q = wr (heap m) x c0 q).
Proof.
  intros R. destruct (proj1 (delete_both h) _ _ _ R) as [N D]. exists N. intros n m x Hn Rd F Np. unfold clearA. rewrite Rd. cbn [obind].
  destruct (Z.eqb_spec (ctag c) tEmpty) as [E|E].
  - exists m, c. pose proof (rep_is_empty _ _ _ _ R E) as ->. destruct (rep_empty _ _ _ R) as [_ NP]. splits; auto; [intros q Hq; destruct (NP q Hq)|intros q _; symmetry; apply wr_read, Rd].
  - destruct (D n m Hn F) as (m1 & -> & Nx & G1 & G2). cbn [obind].
    assert (Rd1 : readA m1 x = Ret c) by (rewrite <- Rd; apply readA_eq, G2, Np).
    destruct (writeA_ok m1 x c emptyCell Rd1) as (m2 & -> & Nx2 & W). exists m2, emptyCell. splits; auto; [congruence| |].
    + intros q Hq. rewrite W, wr_off by (intros ->; contradiction). auto.
    + intros q Hq. rewrite W. apply wr_cong. auto.
Qed.

(** * One place, and two places apart *)
Lemma spot_subtree h a c t path x c' t' O P : spot h a c t path x c' t' O P -> subtree t path = Some t'.
Proof.
  induction 1 as [a c t O P R N|a tag p d cs1 ci cs2 ts1 ti ts2 i path x c t O Oi P P1 P2 Ht Hp L1 L2 R1 R2 Sp IH E N1 N2 N3 N4 D1 D2 D3 D4 D5]; [reflexivity|].
  rewrite subtree_nth, <- L2, nth_mid. exact IH.
Qed.
Definition origin : addr := (0, O).
Lemma at_spot m T a x c t O P : spot (heap m) origin frameCell T a x c t O P -> a <> [] -> at_ m a = Ret x /\ readA m x = Ret c.
Proof.
  intros S Na. destruct a as [|i a]; [contradiction|]. cbn [at_]. inversion S; subst.
  match goal with H : spot _ (0, _) _ _ _ _ _ _ _ _ |- _ => apply (spot_resolve m _ _ _ _ _ _ _ _ _ H) end.
  unfold readA. cbn [fst snd]. match goal with H : heap m 0 = Some _ |- _ => rewrite H end. cbn [bkids]. rewrite nth_mid. reflexivity.
Qed.
Lemma put_wr h h2 (O : Z -> Prop) x c : O (fst x) -> (forall q, O q -> h2 q = wr h x c q) -> put h h2 O x c.
Proof.
  intros Ox H. split.
  - intros q Oq N. rewrite H by exact Oq. apply wr_off, N.
  - intros b E. rewrite H by exact Ox. unfold wr. rewrite Z.eqb_refl, E. reflexivity.
Qed.
Lemma holds_above m T : holds m T -> above m.
Proof. intros (P & _ & D & B) q Hq. destruct (heap m q) eqn:E; [|reflexivity]. assert (X : P q) by (apply D; congruence). apply B in X. lia. Qed.
Lemma single m T a s : holds m T -> subtree T a = Some s -> a <> [] -> exists x c (R P : Z -> Prop),
  at_ m a = Ret x /\ readA m x = Ret c /\ R (fst x) /\ rep (heap m) c s P /\ (forall q, R q -> P q -> False) /\ (forall q, heap m q <> None <-> R q \/ P q) /\ (forall q, R q \/ P q -> q < next m) /\
  forall m2 c2 t2 (Q : Z -> Prop), (forall q, R q -> heap m2 q = wr (heap m) x c2 q) -> rep (heap m2) c2 t2 Q -> (forall q, R q -> Q q -> False) ->
    (forall q, heap m2 q <> None -> R q \/ Q q) -> (forall q, Q q -> q < next m2) -> next m <= next m2 -> holds m2 (replace T a t2).
Proof.
  intros (W & RW & DW & BW) S Na. destruct (spot_of_rep (heap m) a origin frameCell T W s RW S) as (x & c & R & P & Sp & E & D).
  destruct (at_spot _ _ _ _ _ _ _ _ Sp Na) as [A Rd]. destruct (spot_owner _ _ _ _ _ _ _ _ _ _ Sp Na) as [Rx _]. exists x, c, R, P.
  splits; auto; [apply (spot_inner _ _ _ _ _ _ _ _ _ _ Sp)|intros q; rewrite DW, E; reflexivity|intros q H; apply BW, E, H|].
  intros m2 c2 t2 Q H1 H2 H3 H4 H5 H6. pose proof (refill _ _ _ _ _ _ _ _ _ _ Sp (heap m2) c2 t2 Q Na (put_wr _ _ _ _ _ Rx H1) H2 H3) as S2.
  apply spot_back in S2. exists (fun q => R q \/ Q q). splits; [exact S2| |].
  - intros q. split; [apply H4|]. apply (proj1 (live_both (heap m2)) _ _ _ S2).
  - intros q [H|H]; [|auto]. enough (q < next m) by lia. apply BW, E. auto.
Qed.
Lemma pair m T a b s t : holds m T -> subtree T a = Some s -> subtree T b = Some t -> a <> [] -> b <> [] -> apart a b -> exists x y ca cb (R P Q : Z -> Prop),
  at_ m a = Ret x /\ at_ m b = Ret y /\ readA m x = Ret ca /\ readA m y = Ret cb /\ x <> y /\ R (fst x) /\ R (fst y) /\ rep (heap m) ca s P /\ rep (heap m) cb t Q /\
  (forall q, R q -> P q -> False) /\ (forall q, R q -> Q q -> False) /\ (forall q, P q -> Q q -> False) /\ (forall q, heap m q <> None <-> R q \/ P q \/ Q q) /\ (forall q, R q \/ P q \/ Q q -> q < next m) /\
  forall m2 c2 d2 s2 t2 (P2 Q2 : Z -> Prop), (forall q, R q -> heap m2 q = wr (wr (heap m) x c2) y d2 q) -> rep (heap m2) c2 s2 P2 -> rep (heap m2) d2 t2 Q2 ->
    (forall q, R q -> P2 q -> False) -> (forall q, R q -> Q2 q -> False) -> (forall q, P2 q -> Q2 q -> False) ->
    (forall q, heap m2 q <> None -> R q \/ P2 q \/ Q2 q) -> (forall q, P2 q \/ Q2 q -> q < next m2) -> next m <= next m2 -> holds m2 (replace (replace T b t2) a s2).
Proof.
  intros (W & RW & DW & BW) S S' Na Nb A. destruct (spot_of_rep (heap m) a origin frameCell T W s RW S) as (x & ca & O & P & Sa & E & D).
  destruct (at_spot _ _ _ _ _ _ _ _ Sa Na) as [Aa Ra]. destruct (spot_owner _ _ _ _ _ _ _ _ _ _ Sa Na) as [Ox _].
  destruct (spot_apart _ _ _ _ _ _ _ _ _ _ Sa b t A S') as (y & cb & O' & Q & Sb & Nxy & QO & Qx & Hput).
  destruct (at_spot _ _ _ _ _ _ _ _ Sb Nb) as [Ab Rb].
  set (hv := wr (heap m) x emptyCell). set (mv := Mem hv (next m)).
  assert (Pv : put (heap m) hv O x emptyCell) by (apply put_wr; auto).
  assert (Sv : spot hv origin frameCell (replace T a empty_) a x emptyCell empty_ O (fun _ => False)).
  { apply (refill _ _ _ _ _ _ _ _ _ _ Sa hv emptyCell empty_ (fun _ => False) Na Pv); [apply rep_E; reflexivity|auto]. }
  destruct (Hput hv emptyCell empty_ (fun _ => False) Pv) as [R Svb]; [apply rep_E; reflexivity|auto|].
  pose proof (spot_total _ _ _ _ _ _ _ _ _ _ _ _ _ _ _ _ Sv Svb) as Tot. cbv beta in Tot.
  destruct (spot_inner _ _ _ _ _ _ _ _ _ _ Svb) as [_ DRQ]. destruct (spot_owner _ _ _ _ _ _ _ _ _ _ Svb Nb) as [Ry _].
  destruct (spot_inner _ _ _ _ _ _ _ _ _ _ Sa) as [RPa DOP]. destruct (spot_inner _ _ _ _ _ _ _ _ _ _ Sb) as [RQb _].
  assert (Rx : R (fst x)) by (specialize (Tot (fst x)); tauto).
  assert (RO : forall q, R q -> O q) by (intros q H; specialize (Tot q); tauto).
  exists x, y, ca, cb, R, P, Q. splits; auto.
  - intros q H1 H2. eauto.
  - intros q H1 H2. eauto.
  - intros q. specialize (Tot q). rewrite DW, E. tauto.
  - intros q H. apply BW, E. specialize (Tot q). tauto.
  - intros m2 c2 d2 s2 t2 P2 Q2 Hh R1 R2 D1 D2 D3 L1 L2 L3.
    destruct (spot_apart _ _ _ _ _ _ _ _ _ _ Svb a empty_ (apart_sym _ _ A)) as (x' & c' & O3 & P3 & Sva & _ & _ & _ & Hput2).
    { apply (spot_subtree _ _ _ _ _ _ _ _ _ _ Sv). }
    assert (x' = x) as ->. { pose proof (proj1 (at_spot mv _ _ _ _ _ _ _ Sv Na)) as X1. pose proof (proj1 (at_spot mv _ _ _ _ _ _ _ Sva Na)) as X2. congruence. }
    destruct (spot_inner _ _ _ _ _ _ _ _ _ _ Sva) as [Rc' _]. apply rep_empty in Rc' as [Ec' NP3].
    set (h' := wr (heap m2) x c').
    assert (c' = emptyCell) as Ec2. { pose proof (proj2 (at_spot mv _ _ _ _ _ _ _ Sv Na)) as X1. pose proof (proj2 (at_spot mv _ _ _ _ _ _ _ Sva Na)) as X2. congruence. }
    assert (Ph : put hv h' R y d2).
    { apply put_wr; [exact Ry|]. intros q Hq. unfold h', hv. rewrite (wr_cong _ _ x c' q (Hh q Hq)). rewrite Ec2. rewrite <- wr_comm by congruence. apply wr_cong. rewrite wr_wr. reflexivity. }
    assert (Rd2 : rep h' d2 t2 Q2) by (eapply rep_frame; [exact R2|]; intros q Hq; apply wr_off; intros ->; eauto).
    destruct (Hput2 h' d2 t2 Q2 Ph Rd2 D2) as [O4 S4].
    pose proof (refill _ _ _ _ _ _ _ _ _ _ Svb h' d2 t2 Q2 Nb Ph Rd2 D2) as S4b.
    pose proof (spot_total _ _ _ _ _ _ _ _ _ _ _ _ _ _ _ _ S4 S4b) as Tot4.
    assert (O4' : forall q, O4 q <-> R q \/ Q2 q) by (intros q; specialize (Tot4 q); specialize (NP3 q); tauto).
    assert (P4 : put h' (heap m2) O4 x c2).
    { apply put_wr; [apply O4'; auto|]. intros q Hq. unfold h'. rewrite wr_wr. destruct (Z.eqb_spec q (fst x)) as [->|N]; [|rewrite wr_off by exact N; reflexivity].
      rewrite (wr_cong _ _ x c2 (fst x) (Hh _ Rx)). rewrite Hh by exact Rx. rewrite (wr_comm (wr (heap m) x c2) y x) by congruence. apply wr_cong. rewrite wr_wr. reflexivity. }
    pose proof (refill _ _ _ _ _ _ _ _ _ _ S4 (heap m2) c2 s2 P2 Na P4 R1) as S5. specialize (S5 ltac:(intros q H1 H2; apply O4' in H1 as [H1|H1]; eauto)).
    assert (ET : replace (replace (replace T a empty_) b t2) a s2 = replace (replace T b t2) a s2) by (rewrite (replace_comm a b) by exact A; apply replace_replace).
    rewrite ET in S5. apply spot_back in S5. exists (fun q => O4 q \/ P2 q). splits; [exact S5| |].
    + intros q. split; [intros H; apply L1 in H; specialize (O4' q); tauto|]. apply (proj1 (live_both (heap m2)) _ _ _ S5).
    + intros q [H|H]; [apply O4' in H as [H|H]|]; [|apply L2; auto..]. enough (q < next m) by lia. apply BW, E. left. auto.
Qed.
