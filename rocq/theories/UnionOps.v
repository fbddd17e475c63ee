(** Proofs about the memory behind Values: the operations. *)
From Verif Require Import Prelude CastModel UnionModel UnionSpec UnionProofs.
Open Scope Z_scope.

Lemma clear_moved h c t P : rep h c t P -> forall n m x, (1 <= n)%nat -> readA m x = Ret (movedFrom c) -> exists m' c0, clearA n m x = Ret m' /\ ctag c0 = tEmpty /\ wrote m m' x c0.
Proof.
  intros R n m x Hn Rd. unfold clearA. rewrite Rd. cbn [obind].
  destruct (Z.eqb_spec (ctag (movedFrom c)) tEmpty) as [E|E].
  - exists m, (movedFrom c). splits; auto. split; [reflexivity|]. intros q. symmetry. apply wr_read, Rd.
  - destruct n as [|n]; [lia|]. destruct (writeA_ok m x _ emptyCell Rd) as (m2 & W & Wr). exists m2, emptyCell. splits; auto.
    assert (deleteCell (S n) m (movedFrom c) = Ret m) as ->; [|exact W].
    inversion R; subst; cbn [movedFrom ctag cslot deleteCell] in *; [contradiction E; reflexivity|rewrite H, orb_true_r; reflexivity|]. destruct (tags tag H) as [-> ->]. rewrite H. reflexivity.
Qed.
Definition holdsIn (c : cell) (t : tree) (h : Z -> option block) (P : Z -> Prop) : Prop := forall h', (forall q, P q -> h' q = h q) -> rep h' c t P.
Lemma rep_holdsIn h c t P : rep h c t P -> holdsIn c t h P.
Proof. intros R h' F. eapply rep_frame; eauto. Qed.
Lemma empty_holdsIn h c t P c0 : rep h c t P -> ctag c = tEmpty -> ctag c0 = tEmpty -> holdsIn c0 t h P.
Proof. intros R E E0 h' _. pose proof (rep_is_empty _ _ _ _ R E) as ->. destruct (rep_empty _ _ _ R) as [_ N]. destruct c0. cbn in E0. subst. constructor. exact N. Qed.
Lemma take_spec h c t P : rep h c t P -> forall n m x, (1 <= n)%nat -> readA m x = Ret c -> exists m' c0 c1, takeCell n m x = Ret (m', c1) /\ wrote m m' x c0 /\ ctag c0 = tEmpty /\ holdsIn c1 t h P /\ (ctag c1 = ctag c).
Proof.
  intros R n m x Hn Rd. unfold takeCell. rewrite Rd. cbn [obind]. destruct (Z.eqb_spec (ctag c) tEmpty) as [E|E].
  - exists m, c, emptyCell. splits; auto; [split; [reflexivity|]; intros q; symmetry; apply wr_read, Rd|]. eapply empty_holdsIn; eauto.
  - destruct (writeA_ok m x c (movedFrom c) Rd) as (m1 & -> & Nx & W). cbn [obind].
    destruct (clear_moved h c t P R n m1 x Hn) as (m2 & c0 & -> & E0 & Nx2 & W2); [eapply wr_hit; [exact Rd|apply W]|]. cbn [obind].
    exists m2, c0, c. splits; auto; [|apply rep_holdsIn, R]. split; [congruence|]. intros q. rewrite W2, (wr_cong _ _ _ _ _ (W q)). apply wr_wr.
Qed.
Lemma sameAddr_no x y : x <> y -> sameAddr x y = false.
Proof. unfold sameAddr. intros N. destruct (Z.eqb_spec (fst x) (fst y)), (Nat.eqb_spec (snd x) (snd y)); try reflexivity. contradiction N. destruct x, y; cbn in *; congruence. Qed.
Lemma sameAddr_yes x : sameAddr x x = true.
Proof. unfold sameAddr. rewrite Z.eqb_refl, Nat.eqb_refl. reflexivity. Qed.
(** operator=(Value&&) *)
Lemma move_spec h ca s P : rep h ca s P -> exists N, forall n m x y cb t g (Q : Z -> Prop), (N <= n)%nat -> readA m x = Ret ca -> readA m y = Ret cb -> x <> y -> (forall q, P q -> heap m q = h q) -> ~ P (fst x) -> ~ P (fst y) -> rep g cb t Q ->
  exists m' c2 d2, assignMove n m x y = Ret m' /\ next m' = next m /\ ctag d2 = tEmpty /\ holdsIn c2 t g Q /\ (forall q, P q -> heap m' q = None) /\ (forall q, ~ P q -> heap m' q = wr (wr (heap m) x c2) y d2 q).
Proof.
  intros R. destruct (clear_spec h ca s P R) as [N C]. exists (S N). intros n m x y cb t g Q Hn Rx Ry Nxy F Nx Ny Rb. unfold assignMove. rewrite sameAddr_no by exact Nxy.
  destruct (C n m x ltac:(lia) Rx F Nx) as (m1 & c0 & -> & X1 & E0 & D1 & W1). cbn [obind].
  assert (Ry1 : readA m1 y = Ret cb) by (rewrite <- Ry; eapply (wr_miss m m1 x y); [exact Nxy|apply W1, Ny]). rewrite Ry1. cbn [obind].
  assert (Rx1 : readA m1 x = Ret c0) by (eapply wr_hit; [exact Rx|apply W1, Nx]).
  destruct (Z.eqb_spec (ctag cb) tEmpty) as [E|E].
  - exists m1, c0, cb. splits; auto; [eapply empty_holdsIn; eauto|]. intros q Hq. rewrite W1 by exact Hq.
    symmetry. pose proof (wr_read m1 y cb Ry1 q) as G. rewrite (wr_cong (wr (heap m) x c0) (heap m1) y cb q); [rewrite G; apply W1, Hq|symmetry; apply W1, Hq].
  - destruct (writeA_ok m1 x c0 cb Rx1) as (m2 & -> & X2 & W2). cbn [obind].
    assert (Ry2 : readA m2 y = Ret cb) by (rewrite <- Ry1; eapply wr_miss; [exact Nxy|apply W2]).
    destruct (writeA_ok m2 y cb (movedFrom cb) Ry2) as (m3 & -> & X3 & W3). cbn [obind].
    destruct (clear_moved g cb t Q Rb n m3 y ltac:(lia)) as (m4 & d0 & -> & Ed & X4 & W4); [eapply wr_hit; [exact Ry2|apply W3]|].
    exists m4, cb, d0. splits; auto; [congruence|apply rep_holdsIn, Rb| |].
    + intros q Hq. rewrite W4, (wr_off _ y) by (intros ->; contradiction). rewrite W3, (wr_off _ y) by (intros ->; contradiction). rewrite W2, wr_off by (intros ->; contradiction). auto.
    + intros q Hq. rewrite W4. rewrite (wr_cong _ _ _ _ _ (W3 q)), wr_wr. apply wr_cong. rewrite W2. rewrite (wr_cong _ _ _ _ _ (W1 q Hq)). apply wr_wr.
Qed.
(** operator=(Value&&) from a temporary *)
Lemma put_spec h ca s P : rep h ca s P -> exists N, forall n m x c t g (Q : Z -> Prop), (N <= n)%nat -> readA m x = Ret ca -> (forall q, P q -> heap m q = h q) -> ~ P (fst x) -> rep g c t Q ->
  exists m' c2, putCell n m x c = Ret m' /\ next m' = next m /\ holdsIn c2 t g Q /\ (forall q, P q -> heap m' q = None) /\ (forall q, ~ P q -> heap m' q = wr (heap m) x c2 q).
Proof.
  intros R. destruct (clear_spec h ca s P R) as [N C]. exists N. intros n m x c t g Q Hn Rx F Nx Rc. unfold putCell.
  destruct (C n m x Hn Rx F Nx) as (m1 & c0 & -> & X1 & E0 & D1 & W1). cbn [obind].
  destruct (Z.eqb_spec (ctag c) tEmpty) as [E|E].
  - exists m1, c0. splits; auto. eapply empty_holdsIn; eauto.
  - assert (Rx1 : readA m1 x = Ret c0) by (eapply wr_hit; [exact Rx|apply W1, Nx]).
    destruct (writeA_ok m1 x c0 c Rx1) as (m2 & -> & X2 & W2). exists m2, c. splits; auto; [congruence|apply rep_holdsIn, Rc| |].
    + intros q Hq. rewrite W2, wr_off by (intros ->; contradiction). auto.
    + intros q Hq. rewrite W2. rewrite (wr_cong _ _ _ _ _ (W1 q Hq)). apply wr_wr.
Qed.
(** operator=(const Value&), and the set functions from another Value *)
Lemma copy_spec h ca s P cb t Q : rep h ca s P -> rep h cb t Q -> exists N, forall n m x y, (N <= n)%nat -> readA m x = Ret ca -> readA m y = Ret cb -> x <> y -> (forall q, P q \/ Q q -> heap m q = h q) -> ~ P (fst x) -> ~ P (fst y) -> ~ Q (fst x) ->
  (forall q, P q -> Q q -> False) -> (forall q, P q \/ Q q \/ q = fst x -> q < next m) -> above m ->
  forall f, f = assignCopy n m x y \/ ctag cb <> tEmpty /\ f = setFrom n m x y (ctag cb) ->
  exists m' c2, f = Ret m' /\ next m <= next m' /\ rep (heap m') c2 t (fun q => next m <= q < next m') /\ above m' /\
    (forall q, P q -> heap m' q = None) /\ (forall q, ~ P q -> q < next m -> heap m' q = wr (heap m) x c2 q).
Proof.
  intros R Rb. destruct (clear_spec h ca s P R) as [N1 C]. destruct (proj1 (copy_both h) _ _ _ Rb) as [N2 K]. exists (Nat.max N1 N2). intros n m x y Hn Rx Ry Nxy F Px Py Qx D B Ab f Hf.
  destruct (C n m x ltac:(lia) Rx ltac:(auto) Px) as (m1 & c0 & Ec & X1 & E0 & D1 & W1).
  assert (Ry1 : readA m1 y = Ret cb) by (rewrite <- Ry; eapply (wr_miss m m1 x y); [exact Nxy|apply W1, Py]).
  assert (Rx1 : readA m1 x = Ret c0) by (eapply wr_hit; [exact Rx|apply W1, Px]).
  assert (Lx : fst x < next m) by auto.
  assert (Ab1 : above m1). { intros q Hq. rewrite X1 in Hq. rewrite W1, wr_off; [apply Ab; lia|intros ->; lia|intros H; assert (q < next m) by auto; lia]. }
  assert (Hf' : ctag cb = tEmpty /\ f = Ret m1 \/ scalarTag (ctag cb) = true /\ (exists z, cslot cb = SScal z /\ f = writeA m1 x (Cell (ctag cb) (SScal z))) \/
    ctag cb <> tEmpty /\ f = (let* m2 := writeA m1 x (Cell (ctag cb) SRaw) in let* r := copyCell n m2 cb in writeA (fst r) x (snd r))).
  { unfold assignCopy, setFrom in Hf. rewrite sameAddr_no in Hf by exact Nxy. rewrite Ec, Ry in Hf. cbn [obind] in Hf. rewrite Ry1, Z.eqb_refl in Hf. cbn [obind negb] in Hf.
    destruct (Z.eqb_spec (ctag cb) tEmpty) as [E|E]; [tauto|]. right. destruct Hf as [->|[_ ->]]; [right; auto|].
    inversion Rb; subst; cbn [ctag cslot] in *; [contradiction E; reflexivity| |].
    - rewrite H. left. split; [reflexivity|]. eexists. split; [reflexivity|]. reflexivity.
    - destruct (tags tag H) as [_ ->]. rewrite H. right. auto. }
  clear Hf. destruct Hf' as [[E ->]|[[E (z & Ez & ->)]|[E ->]]].
  - exists m1, c0. splits; auto; [lia|]. pose proof (rep_is_empty _ _ _ _ Rb E) as ->. eapply rep_ext; [apply rep_E, E0|]. intros q. cbv beta. lia.
  - destruct (writeA_ok m1 x c0 (Cell (ctag cb) (SScal z)) Rx1) as (m2 & -> & X2 & W2). exists m2, (Cell (ctag cb) (SScal z)). splits; auto.
    + lia.
    + inversion Rb; subst; cbn [ctag cslot] in *; try discriminate. injection Ez as ->. constructor; [assumption|]. intros q. lia.
    + intros q Hq. rewrite W2, wr_off; [apply Ab1; lia|intros ->; lia].
    + intros q Hq. rewrite W2, wr_off by (intros ->; contradiction). auto.
    + intros q Hq _. rewrite W2, (wr_cong _ _ _ _ _ (W1 q Hq)). apply wr_wr.
  - destruct (writeA_ok m1 x c0 (Cell (ctag cb) SRaw) Rx1) as (m2 & Ew & X2 & W2). rewrite Ew. cbn [obind].
    assert (Rx2 : readA m2 x = Ret (Cell (ctag cb) SRaw)) by (eapply wr_hit; [exact Rx1|apply W2]).
    assert (Ab2 : above m2). { intros q Hq. rewrite W2, wr_off; [apply Ab1; lia|intros ->; lia]. }
    destruct (K n m2 ltac:(lia) Ab2) as (m3 & c3 & Ek & L & Ab3 & Fr & R3 & Lv).
    { intros q Hq. assert (q <> fst x) by (intros ->; contradiction). split; [|rewrite X2, X1; auto].
      rewrite W2, wr_off, W1, wr_off by eauto. apply F. auto. }
    rewrite Ek. cbn [obind fst snd]. rewrite X2, X1 in *.
    assert (Rx3 : readA m3 x = Ret (Cell (ctag cb) SRaw)) by (rewrite <- Rx2; apply readA_eq, Fr, Lx).
    destruct (writeA_ok m3 x _ c3 Rx3) as (m4 & Ew4 & X4 & W4). rewrite Ew4. exists m4, c3. splits; auto.
    + lia.
    + rewrite X4. eapply rep_frame; [exact R3|]. intros q Hq. rewrite W4. apply wr_off. lia.
    + intros q Hq. rewrite W4, wr_off; [apply Ab3; lia|intros ->; lia].
    + intros q Hq. assert (q <> fst x) by (intros ->; contradiction). rewrite W4, wr_off, Fr, W2, wr_off by auto. auto.
    + intros q Hq Lq. rewrite W4, (wr_cong _ _ _ _ _ (Fr q Lq)), (wr_cong _ _ _ _ _ (W2 q)), wr_wr, (wr_cong _ _ _ _ _ (W1 q Hq)). apply wr_wr.
Qed.
(** moveXxx() and the constructor *)
Lemma takeAs_spec h cb t Q : rep h cb t Q -> tagOf t <> tEmpty -> exists N, forall n m y, (N <= n)%nat -> readA m y = Ret cb -> (forall q, Q q -> heap m q = h q) -> ~ Q (fst y) -> (forall q, Q q -> q < next m) -> fst y < next m -> above m ->
  exists m' c1 d2 (Q' : Z -> Prop), takeAs n m y (tagOf t) = Ret (m', c1) /\ next m <= next m' /\ ctag d2 = tEmpty /\ rep (heap m') c1 t Q' /\ (forall q, Q' q -> Q q \/ next m <= q < next m') /\ above m' /\
    (forall q, q < next m -> ~ Q q -> heap m' q = wr (heap m) y d2 q) /\ (forall q, heap m' q <> None -> Q' q \/ heap m q <> None) /\ (forall q, Q q -> heap m' q <> None -> Q' q).
Proof.
  intros R Ne. inversion R as [s P N|tag z P St N|tag p d cs ts P Q0 Ht Hp E Np Rs]; subst; cbn [tagOf] in *; [contradiction Ne; reflexivity| |].
  - destruct (clear_spec h _ _ _ R) as [N1 C]. exists N1. intros n m y Hn Ry F Qy B Ly Ab. unfold takeAs. rewrite Ry. cbn [obind ctag]. rewrite Z.eqb_refl. cbn [negb]. destruct (stags tag St) as [_ ->].
    destruct (C n m y Hn Ry F Qy) as (m1 & c0 & -> & X1 & E0 & D1 & W1). cbn [obind]. exists m1, (Cell tag (SScal z)), c0, Q. splits; auto.
    + lia.
    + constructor; auto.
    + intros q Hq. rewrite W1, wr_off; [apply Ab; lia|intros ->; lia|apply N].
    + intros q H. right. rewrite W1 in H by apply N. apply wr_live in H. exact H.
  - set (h0 := fun q : Z => if q =? p then Some (Block tag [] []) else None).
    assert (R0 : rep h0 (Cell tag (SPtr (Some p))) (Node tag [] []) (fun q => q = p)).
    { apply (RP h0 tag p [] [] [] _ (fun _ => False)); auto; [unfold h0; rewrite Z.eqb_refl; reflexivity|tauto|constructor; auto]. }
    destruct (clear_spec h0 _ _ _ R0) as [N1 C]. exists N1. intros n m y Hn Ry F Qy B Ly Ab. unfold takeAs. rewrite Ry. cbn [obind ctag cslot]. rewrite Z.eqb_refl. cbn [negb]. rewrite Ht.
    assert (Qp : Q p) by (apply E; auto). rewrite (F p Qp), Hp. cbn [bkind]. rewrite Z.eqb_refl.
    assert (Nyp : fst y <> p) by (intros G; apply Qy; rewrite G; exact Qp).
    set (m0 := setBlock m p (Some (Block tag [] []))).
    assert (H0 : forall q, q <> p -> heap m0 q = heap m q) by (intros q Hq; cbn; destruct (Z.eqb_spec q p); [contradiction|reflexivity]).
    destruct (C n m0 y Hn) as (m1 & c0 & -> & X1 & E0 & D1 & W1); [rewrite <- Ry; apply readA_eq, H0, Nyp|intros q ->; cbn; unfold h0; rewrite Z.eqb_refl; reflexivity|exact Nyp|].
    cbn [obind alloc]. change (next m0) with (next m) in X1.
    assert (Ab1 : forall q, next m <= q -> heap m1 q = None).
    { intros q Hq. assert (p < next m) by auto. rewrite W1 by lia. rewrite wr_off by lia. rewrite H0 by lia. apply Ab. lia. }
    eexists _, _, c0, (fun q => q = next m \/ Q0 q). split; [reflexivity|]. cbn [next heap]. rewrite X1.
    assert (BQ0 : forall q, Q0 q -> q <> p /\ q < next m /\ q <> fst y). { intros q Hq. splits; [intros ->; contradiction|apply B, E; auto|intros ->; apply Qy, E; auto]. }
    splits; auto.
    + lia.
    + eapply (RP _ tag (next m) d cs ts _ Q0); auto; [rewrite Z.eqb_refl; reflexivity|tauto|intros H; apply BQ0 in H; lia|].
      eapply reps_frame; [exact Rs|]. intros q Hq. cbv beta. destruct (BQ0 q Hq) as (Q1 & Q2 & Q3). destruct (Z.eqb_spec q (next m)); [lia|].
      rewrite W1 by exact Q1. rewrite wr_off by exact Q3. rewrite H0 by exact Q1. apply F, E. auto.
    + intros q [->|Hq]; [right; lia|left; apply E; auto].
    + intros q Hq. cbn [heap next] in *. destruct (Z.eqb_spec q (next m)); [lia|]. apply Ab1. lia.
    + intros q Lq Hq. destruct (Z.eqb_spec q (next m)); [lia|]. assert (q <> p) by (intros ->; contradiction). rewrite W1 by assumption. apply wr_cong, H0. assumption.
    + intros q H. destruct (Z.eqb_spec q (next m)); [left; auto|]. destruct (Z.eqb_spec q p) as [->|Nq]; [rewrite D1 in H by reflexivity; contradiction|].
      rewrite W1 in H by exact Nq. apply wr_live in H. rewrite H0 in H by exact Nq. auto.
    + intros q Hq H. apply E in Hq as [->|Hq]; [|auto]. destruct (Z.eqb_spec p (next m)) as [->|]; [auto|]. rewrite D1 in H by reflexivity. contradiction.
Qed.

(** * One operation *)
Definition keeps (m : mem) (o : op) (T' : tree) : Prop := exists N, forall n, (N <= n)%nat -> exists m', exec n m o = Ret m' /\ holds m' T'.
Lemma op_clear m T a s : holds m T -> subtree T a = Some s -> a <> [] -> keeps m (OClear a) (replace T a empty_).
Proof.
  intros Hm S Na. destruct (single m T a s Hm S Na) as (x & c & R & P & A & Rd & Rx & Rp & D & L & B & Close). destruct (clear_spec _ _ _ _ Rp) as [N C]. exists N. intros n Hn.
  destruct (C n m x Hn Rd ltac:(auto)) as (m' & c0 & E & X & E0 & D1 & W); [intros H; eauto|]. exists m'. cbn [exec]. rewrite A. cbn [obind]. split; [exact E|].
  apply (Close m' c0 empty_ (fun _ => False)); auto; [|apply rep_E, E0| |lia|lia].
  - intros q Hq. apply W. intros H. eauto.
  - intros q H. left. destruct (heap m q) eqn:Eq.
    + assert (Y : heap m q <> None) by congruence. apply L in Y as [Y|Y]; [exact Y|]. rewrite D1 in H by exact Y. contradiction.
    + assert (Np : ~ P q) by (intros Y; assert (heap m q <> None) by (apply L; auto); congruence). rewrite W in H by exact Np. apply wr_live in H. contradiction.
Qed.
Lemma op_make m T a s t : holds m T -> subtree T a = Some s -> a <> [] -> isValue t -> keeps m (OMake a t) (replace T a t).
Proof.
  intros Hm S Na V. destruct (single m T a s Hm S Na) as (x & c & R & P & A & Rd & Rx & Rp & D & L & B & Close). pose proof (holds_above _ _ Hm) as Ab.
  destruct (build_spec t V m Ab) as (m1 & c1 & Eb & L1 & Ab1 & Fr & Rt & Lv). destruct (put_spec _ _ _ _ Rp) as [N C]. exists N. intros n Hn.
  destruct (C n m1 x c1 t (heap m1) (fun q => next m <= q < next m1) Hn) as (m' & c2 & E & X & H2 & D1 & W).
  - rewrite <- Rd. apply readA_eq, Fr, B. auto.
  - intros q Hq. apply Fr, B. auto.
  - intros H. eauto.
  - exact Rt.
  - exists m'. cbn [exec]. rewrite A. cbn [obind]. rewrite Eb. split; [exact E|].
    assert (NP : forall q, next m <= q -> ~ P q) by (intros q Hq H; assert (q < next m) by auto; lia).
    assert (Lx : fst x < next m) by auto.
    apply (Close m' c2 t (fun q => next m <= q < next m1)).
    + intros q Hq. rewrite W by (intros H; eauto). apply wr_cong, Fr, B. auto.
    + apply H2. intros q Hq. rewrite W by (apply NP; lia). apply wr_off. lia.
    + intros q Hq H. assert (q < next m) by auto. lia.
    + intros q H. destruct (Z.lt_ge_cases q (next m)) as [Lq|Lq].
      * left. destruct (heap m q) eqn:Eq.
        -- assert (Y : heap m q <> None) by congruence. apply L in Y as [Y|Y]; [exact Y|]. rewrite D1 in H by exact Y. contradiction.
        -- assert (Np : ~ P q) by (intros Y; assert (heap m q <> None) by (apply L; auto); congruence). rewrite W in H by exact Np. apply wr_live in H. rewrite Fr in H by exact Lq. contradiction.
      * right. rewrite W in H by (apply NP; lia). rewrite wr_off in H by lia. destruct (Z.lt_ge_cases q (next m1)); [lia|]. rewrite Ab1 in H by lia. contradiction.
    + intros q Hq. lia.
    + lia.
Qed.
Lemma op_copy m T a b s t o : holds m T -> subtree T a = Some s -> subtree T b = Some t -> a <> [] -> b <> [] -> apart a b -> o = OCopy a b \/ tagOf t <> tEmpty /\ o = OSet a b (tagOf t) -> keeps m o (replace T a t).
Proof.
  intros Hm Sa Sb Na Nb A Ho. destruct (pair m T a b s t Hm Sa Sb Na Nb A) as (x & y & ca & cb & R & P & Q & Aa & Ab_ & Ra & Rb & Nxy & Rx & Ry & Rp & Rq & D1 & D2 & D3 & L & B & Close).
  pose proof (holds_above _ _ Hm) as Ab. destruct (copy_spec _ _ _ _ _ _ _ Rp Rq) as [N C]. exists N. intros n Hn.
  assert (Et : ctag cb = tagOf t) by (eapply rep_tag; eauto).
  destruct (C n m x y Hn Ra Rb Nxy ltac:(auto)) with (f := exec n m o) as (m' & c2 & E & L1 & R2 & Ab' & DP & W); try (intros H; eauto; fail); auto.
  - intros q [H|[H|H]]; [auto|auto|subst; auto].
  - destruct Ho as [->|[Nt ->]]; cbn [exec]; rewrite Aa, Ab_; cbn [obind]; [left; reflexivity|]. right. rewrite Et. auto.
  - exists m'. split; [exact E|]. rewrite <- (replace_same b T t Sb).
    assert (Lx : fst x < next m) by auto.
    assert (Lwr : forall q, wr (heap m) x c2 q = wr (wr (heap m) x c2) y cb q).
    { intros q. rewrite wr_comm by exact Nxy. apply wr_cong. symmetry. apply wr_read, Rb. }
    apply (Close m' c2 cb t t (fun q => next m <= q < next m') Q); auto.
    + intros q Hq. rewrite W by (auto; intros H; eauto). apply Lwr.
    + eapply rep_frame; [exact Rq|]. intros q Hq. rewrite W by (auto; intros H; eauto). apply wr_off. intros ->. eauto.
    + intros q Hq H. assert (q < next m) by auto. lia.
    + intros q H Hq. assert (q < next m) by auto. lia.
    + intros q H. destruct (Z.lt_ge_cases q (next m)) as [Lq|Lq].
      * destruct (heap m q) eqn:Eq.
        -- assert (Y : heap m q <> None) by congruence. apply L in Y as [Y|[Y|Y]]; auto. rewrite DP in H by exact Y. contradiction.
        -- assert (Np : ~ P q) by (intros Y; assert (heap m q <> None) by (apply L; auto); congruence). rewrite W in H by auto. apply wr_live in H. contradiction.
      * right. left. split; [exact Lq|]. destruct (Z.lt_ge_cases q (next m')); [assumption|]. rewrite Ab' in H by lia. contradiction.
    + intros q [H|H]; [lia|]. assert (q < next m) by auto. lia.
Qed.
Lemma op_move m T a b s t : holds m T -> subtree T a = Some s -> subtree T b = Some t -> a <> [] -> b <> [] -> apart a b -> keeps m (OMove a b) (replace (replace T b empty_) a t).
Proof.
  intros Hm Sa Sb Na Nb A. destruct (pair m T a b s t Hm Sa Sb Na Nb A) as (x & y & ca & cb & R & P & Q & Aa & Ab_ & Ra & Rb & Nxy & Rx & Ry & Rp & Rq & D1 & D2 & D3 & L & B & Close).
  destruct (move_spec _ _ _ _ Rp) as [N C]. exists N. intros n Hn.
  destruct (C n m x y cb t (heap m) Q Hn Ra Rb Nxy) as (m' & c2 & d2 & E & X & Ed & H2 & DP & W); auto; try (intros H; eauto; fail).
  exists m'. cbn [exec]. rewrite Aa, Ab_. cbn [obind]. split; [exact E|].
  apply (Close m' c2 d2 t empty_ Q (fun _ => False)); auto.
  - intros q Hq. apply W. intros H. eauto.
  - apply H2. intros q Hq. rewrite W by (intros H; eauto). rewrite !wr_off; [reflexivity|intros ->; eauto..].
  - apply rep_E, Ed.
  - intros q H. destruct (heap m q) eqn:Eq.
    + assert (Y : heap m q <> None) by congruence. apply L in Y as [Y|[Y|Y]]; auto.
    + assert (Np : ~ P q) by (intros Y; assert (heap m q <> None) by (apply L; auto); congruence). rewrite W in H by exact Np. apply wr_live, wr_live in H. contradiction.
  - intros q [H|[]]. rewrite X. auto.
  - lia.
Qed.
Lemma op_swap m T a b s t : holds m T -> subtree T a = Some s -> subtree T b = Some t -> a <> [] -> b <> [] -> apart a b -> keeps m (OSwap a b) (replace (replace T b s) a t).
Proof.
  intros Hm Sa Sb Na Nb A. destruct (pair m T a b s t Hm Sa Sb Na Nb A) as (x & y & ca & cb & R & P & Q & Aa & Ab_ & Ra & Rb & Nxy & Rx & Ry & Rp & Rq & D1 & D2 & D3 & L & B & Close).
  exists 2%nat. intros n Hn. cbn [exec]. rewrite Aa, Ab_. cbn [obind]. unfold swapA.
  destruct (take_spec _ _ _ _ Rp n m x ltac:(lia) Ra) as (m1 & c0 & c1 & -> & [X1 W1] & E0 & H1 & T1). cbn [obind fst snd].
  assert (Rx1 : readA m1 x = Ret c0) by (eapply wr_hit; [exact Ra|apply W1]).
  assert (Ry1 : readA m1 y = Ret cb) by (rewrite <- Rb; eapply (wr_miss m m1 x y); [exact Nxy|apply W1]).
  (* clear() of an EMPTY Value does nothing, whatever the fuel *)
  assert (Mv : exists m2 c2 d2, assignMove n m1 x y = Ret m2 /\ next m2 = next m1 /\ ctag d2 = tEmpty /\ holdsIn c2 t (heap m) Q /\ forall q, heap m2 q = wr (wr (heap m1) x c2) y d2 q).
  { unfold assignMove. rewrite sameAddr_no by exact Nxy. unfold clearA at 1. rewrite Rx1. cbn [obind]. rewrite E0, Z.eqb_refl. cbn [obind]. rewrite Ry1. cbn [obind].
    destruct (Z.eqb_spec (ctag cb) tEmpty) as [Ecb|Ecb].
    - exists m1, c0, cb. splits; auto; [eapply empty_holdsIn; eauto|]. intros q. rewrite (wr_cong _ _ y cb q (wr_read m1 x c0 Rx1 q)). symmetry. apply wr_read, Ry1.
    - destruct (writeA_ok m1 x c0 cb Rx1) as (m2 & -> & X2 & W2). cbn [obind].
      assert (Ry2 : readA m2 y = Ret cb) by (rewrite <- Ry1; eapply wr_miss; [exact Nxy|apply W2]).
      destruct (writeA_ok m2 y cb (movedFrom cb) Ry2) as (m3 & -> & X3 & W3). cbn [obind].
      destruct (clear_moved _ _ _ _ Rq n m3 y ltac:(lia)) as (m4 & d0 & -> & Ed & X4 & W4); [eapply wr_hit; [exact Ry2|apply W3]|].
      exists m4, cb, d0. splits; auto; [congruence|apply rep_holdsIn, Rq|]. intros q. rewrite W4, (wr_cong _ _ _ _ _ (W3 q)), wr_wr. apply wr_cong, W2. }
  destruct Mv as (m2 & c2 & d2 & -> & X2 & Ed & H2 & W2). cbn [obind].
  assert (Ry2 : readA m2 y = Ret d2).
  { assert (Y : exists v, readA (Mem (wr (heap m1) x c2) 0) y = Ret v) by (exists cb; rewrite <- Ry1; eapply (wr_miss m1 _ x y); [exact Nxy|reflexivity]). destruct Y as [v Y]. eapply wr_hit; [exact Y|]. apply W2. }
  assert (Pt : exists m3 d3, putCell n m2 y c1 = Ret m3 /\ next m3 = next m2 /\ holdsIn d3 s (heap m) P /\ forall q, heap m3 q = wr (heap m2) y d3 q).
  { unfold putCell, clearA. rewrite Ry2. cbn [obind]. rewrite Ed, Z.eqb_refl. cbn [obind]. destruct (Z.eqb_spec (ctag c1) tEmpty) as [Ec|Ec].
    - exists m2, d2. splits; auto; [eapply empty_holdsIn; [exact Rp|congruence|exact Ed]|]. intros q. symmetry. apply wr_read, Ry2.
    - destruct (writeA_ok m2 y d2 c1 Ry2) as (m3 & -> & X3 & W3). exists m3, c1. splits; auto. }
  destruct Pt as (m3 & d3 & -> & X3 & H3 & W3). exists m3. split; [reflexivity|].
  assert (W : forall q, heap m3 q = wr (wr (heap m) x c2) y d3 q).
  { intros q. rewrite W3, (wr_cong _ _ _ _ _ (W2 q)), wr_wr. apply wr_cong. rewrite (wr_cong _ _ _ _ _ (W1 q)). apply wr_wr. }
  assert (F : forall q, P q \/ Q q -> heap m3 q = heap m q) by (intros q H; rewrite W, !wr_off; [reflexivity|intros ->; destruct H; eauto..]).
  apply (Close m3 c2 d3 t s Q P); auto.
  - intros q H1' H2'. eauto.
  - intros q H. rewrite W in H. apply wr_live, wr_live, L in H. tauto.
  - intros q H. rewrite X3, X2, X1. apply B. tauto.
  - lia.
Qed.
Lemma op_take m T a b s t : holds m T -> subtree T a = Some s -> subtree T b = Some t -> a <> [] -> b <> [] -> apart a b -> tagOf t <> tEmpty -> keeps m (OTake a b (tagOf t)) (replace (replace T b empty_) a t).
Proof.
  intros Hm Sa Sb Na Nb A Nt. destruct (pair m T a b s t Hm Sa Sb Na Nb A) as (x & y & ca & cb & R & P & Q & Aa & Ab_ & Ra & Rb & Nxy & Rx & Ry & Rp & Rq & D1 & D2 & D3 & L & B & Close).
  pose proof (holds_above _ _ Hm) as Ab. destruct (takeAs_spec _ _ _ _ Rq Nt) as [N1 C1]. destruct (put_spec _ _ _ _ Rp) as [N2 C2]. exists (Nat.max N1 N2). intros n Hn. cbn [exec]. rewrite Aa, Ab_. cbn [obind].
  destruct (C1 n m y ltac:(lia) Rb) as (m1 & c1 & d2 & Q' & -> & L1 & Ed & R1 & HQ & Ab1 & W1 & LA & LB); auto; [intros H; eauto|]. cbn [obind fst snd].
  assert (Py : ~ P (fst y)) by (intros H; eauto).
  assert (FP : forall q, P q -> heap m1 q = heap m q). { intros q H. rewrite W1 by (auto; intros H'; eauto). apply wr_off. intros ->. contradiction. }
  assert (Lx : fst x < next m) by auto. assert (Ly : fst y < next m) by auto.
  assert (NP' : forall q, next m <= q -> ~ P q) by (intros q Hq H; assert (q < next m) by auto; lia).
  destruct (C2 n m1 x c1 t (heap m1) Q' ltac:(lia)) as (m2 & c2 & -> & X2 & H2 & DP & W2); auto; [|intros H; eauto|].
  { rewrite <- Ra. eapply (wr_miss m m1 y x); [congruence|]. apply W1; [exact Lx|]. intros H. eauto. }
  exists m2. split; [reflexivity|].
  assert (Qx : forall q, Q' q -> ~ P q /\ q <> fst x /\ (R q -> False)).
  { intros q H. destruct (HQ q H) as [H'|H']; splits.
    - intros H''. eauto.
    - intros ->. eauto.
    - intros H''. eauto.
    - apply NP'. lia.
    - lia.
    - intros H''. assert (q < next m) by auto. lia. }
  apply (Close m2 c2 d2 t empty_ Q' (fun _ => False)); auto.
  - intros q Hq. rewrite wr_comm by exact Nxy. rewrite W2 by (intros H; eauto). apply wr_cong. apply W1; [auto|intros H; eauto].
  - apply H2. intros q Hq. destruct (Qx q Hq) as (Q1 & Q2 & Q3). rewrite W2 by exact Q1. apply wr_off, Q2.
  - apply rep_E, Ed.
  - intros q H1 H3. apply (Qx q H3). exact H1.
  - intros q H.
    assert (Np : ~ P q \/ P q). { destruct (Z.lt_ge_cases q (next m)); [|left; apply NP'; lia]. destruct (heap m q) eqn:Eq.
      - assert (Y : heap m q <> None) by congruence. apply L in Y as [Y|[Y|Y]]; [left|right|left]; eauto.
      - left. intros Y. assert (heap m q <> None) by (apply L; auto). congruence. }
    destruct Np as [Np|Np]; [|rewrite DP in H by exact Np; contradiction]. rewrite W2 in H by exact Np. apply wr_live in H.
    destruct (LA q H) as [H'|H']; [auto|]. apply L in H' as [H'|[H'|H']]; [auto|contradiction|]. right. left. apply LB; assumption.
  - intros q [H|[]]. rewrite X2. destruct (HQ q H) as [H'|H']; [|lia]. assert (q < next m) by auto. lia.
  - lia.
Qed.
Lemma op_swap_self m T a s : holds m T -> subtree T a = Some s -> a <> [] -> keeps m (OSwap a a) T.
Proof.
  intros Hm S Na. destruct (single m T a s Hm S Na) as (x & c & R & P & A & Rd & Rx & Rp & D & L & B & Close). exists 1%nat. intros n Hn. cbn [exec]. rewrite A. cbn [obind]. unfold swapA.
  destruct (take_spec _ _ _ _ Rp n m x Hn Rd) as (m1 & c0 & c1 & -> & [X1 W1] & E0 & H1 & T1). cbn [obind fst snd]. unfold assignMove. rewrite sameAddr_yes. cbn [obind].
  assert (Rx1 : readA m1 x = Ret c0) by (eapply wr_hit; [exact Rd|apply W1]).
  unfold putCell, clearA. rewrite Rx1. cbn [obind]. rewrite E0, Z.eqb_refl. cbn [obind]. rewrite <- (replace_same a T s S). destruct (Z.eqb_spec (ctag c1) tEmpty) as [Ec|Ec].
  - exists m1. split; [reflexivity|]. apply (Close m1 c0 s P); auto; [|intros q H; rewrite W1 in H; apply wr_live, L in H; exact H|rewrite X1; auto|lia].
    apply (empty_holdsIn (heap m) c); [exact Rp|congruence|exact E0|]. intros q Hq. rewrite W1. apply wr_off. intros ->. eauto.
  - destruct (writeA_ok m1 x c0 c1 Rx1) as (m2 & -> & X2 & W2). exists m2. split; [reflexivity|].
    assert (W : forall q, heap m2 q = wr (heap m) x c1 q) by (intros q; rewrite W2, (wr_cong _ _ _ _ _ (W1 q)); apply wr_wr).
    apply (Close m2 c1 s P); auto; [|intros q H; rewrite W in H; apply wr_live, L in H; exact H|rewrite X2, X1; auto|lia].
    apply H1. intros q Hq. rewrite W. apply wr_off. intros ->. eauto.
Qed.
Lemma op_self m T a s o : holds m T -> subtree T a = Some s -> a <> [] -> o = OCopy a a \/ o = OMove a a -> keeps m o T.
Proof.
  intros Hm S Na Ho. destruct (single m T a s Hm S Na) as (x & c & R & P & A & _). exists O. intros n _. exists m. split; [|exact Hm].
  destruct Ho as [->| ->]; cbn [exec]; rewrite A; cbn [obind]; [unfold assignCopy|unfold assignMove]; rewrite sameAddr_yes; reflexivity.
Qed.

(** * More steps change nothing *)
Definition refines {A} (e e' : outcome A) : Prop := forall r, e = Ret r -> e' = Ret r.
Lemma refines_refl {A} (e : outcome A) : refines e e. Proof. intros r H. exact H. Qed.
Lemma refines_bind {A B} (e e' : outcome A) (k k' : A -> outcome B) : refines e e' -> (forall v, refines (k v) (k' v)) -> refines (obind e k) (obind e' k').
Proof. intros H K r. destruct e as [v| | |]; cbn; try discriminate. rewrite (H v eq_refl). cbn. apply K. Qed.
Lemma refines_ub {A} (e : outcome A) : refines UB e. Proof. intros r [=]. Qed.
Lemma refines_fatal {A} (e : outcome A) : refines Fatal e. Proof. intros r [=]. Qed.
Lemma copyCells_refines f g : (forall m c, refines (f m c) (g m c)) -> forall cs m, refines (copyCells f m cs) (copyCells g m cs).
Proof. intros H cs. induction cs as [|c cs IH]; intros m; cbn [copyCells]; [apply refines_refl|]. apply refines_bind; [apply H|]. intros v. apply refines_bind; [apply IH|]. intros w. apply refines_refl. Qed.
Lemma deleteCells_refines f g : (forall m c, refines (f m c) (g m c)) -> forall cs m, refines (deleteCells f m cs) (deleteCells g m cs).
Proof. intros H cs. induction cs as [|c cs IH]; intros m; cbn [deleteCells]; [apply refines_refl|]. apply refines_bind; [apply H|]. auto. Qed.
Lemma copy_step n : forall n', (n <= n')%nat -> forall m c, refines (copyCell n m c) (copyCell n' m c).
Proof.
  induction n as [|n IH]; intros [|n'] L m c; try lia; [apply refines_refl|intros r [=]|]. cbn [copyCell].
  destruct (ctag c =? tEmpty); [apply refines_refl|]. destruct (scalarTag (ctag c)); [apply refines_refl|]. destruct (heapTag (ctag c)); [|apply refines_refl].
  destruct (cslot c) as [| |[p|]]; try apply refines_refl. destruct (heap m p) as [b|]; [|apply refines_refl]. destruct (bkind b =? ctag c); [|apply refines_refl].
  apply refines_bind; [apply copyCells_refines, IH; lia|]. intros v. apply refines_refl.
Qed.
Lemma delete_step n : forall n', (n <= n')%nat -> forall m c, refines (deleteCell n m c) (deleteCell n' m c).
Proof.
  induction n as [|n IH]; intros [|n'] L m c; try lia; [apply refines_refl|intros r [=]|]. cbn [deleteCell].
  destruct ((ctag c =? tEmpty) || scalarTag (ctag c)); [apply refines_refl|]. destruct (heapTag (ctag c)); [|apply refines_refl].
  destruct (cslot c) as [| |[p|]]; try apply refines_refl. destruct (heap m p) as [b|]; [|apply refines_refl]. destruct (bkind b =? ctag c); [|apply refines_refl].
  apply deleteCells_refines, IH. lia.
Qed.
Ltac refine_step := repeat first [apply refines_refl | apply refines_bind; [|intro] | apply copy_step; assumption | apply delete_step; assumption | match goal with |- refines (if ?b then _ else _) _ => destruct b | |- refines (match ?x with _ => _ end) _ => destruct x end].
Lemma clear_step n n' : (n <= n')%nat -> forall m x, refines (clearA n m x) (clearA n' m x).
Proof. intros L m x. unfold clearA. refine_step. Qed.
Ltac refine_more := repeat first [apply refines_refl | apply clear_step; assumption | apply copy_step; assumption | apply refines_bind; [|intro] | match goal with |- refines (if ?b then _ else _) _ => destruct b | |- refines (match ?x with _ => _ end) _ => destruct x end].
Lemma exec_step n n' : (n <= n')%nat -> forall m o, refines (exec n m o) (exec n' m o).
Proof.
  intros L m o. destruct o; cbn [exec]; unfold assignCopy, assignMove, swapA, takeCell, putCell, takeAs, setFrom, assignMove; refine_more.
Qed.
(** * A Value inside a Value *)
Lemma resolve_app m path2 : forall path1 p i, resolve m p i (path1 ++ path2) = (let* x := resolve m p i path1 in resolve m (fst x) (snd x) path2).
Proof.
  induction path1 as [|j path1 IH]; intros p i; cbn [app resolve]; [reflexivity|]. destruct (readA m (p, i)) as [c| | |]; cbn [obind]; try reflexivity.
  destruct (heapTag (ctag c)); [|reflexivity]. destruct (cslot c) as [| |[q|]]; try reflexivity. apply IH.
Qed.
Lemma at_app m a c : a <> [] -> at_ m (a ++ c) = (let* x := at_ m a in resolve m (fst x) (snd x) c).
Proof. destruct a as [|i a]; [contradiction|]. intros _. apply resolve_app. Qed.
Lemma inner m T a c s t : holds m T -> subtree T a = Some s -> subtree s c = Some t -> a <> [] -> c <> [] -> exists x y ca cb (R P O Q : Z -> Prop),
  at_ m a = Ret x /\ at_ m (a ++ c) = Ret y /\ readA m x = Ret ca /\ readA m y = Ret cb /\ R (fst x) /\ O (fst y) /\ rep (heap m) ca s P /\ rep (heap m) cb t Q /\ spot (heap m) x ca s c y cb t O Q /\
  (forall q, P q <-> O q \/ Q q) /\ (forall q, O q -> Q q -> False) /\ (forall q, R q -> P q -> False) /\ (forall q, heap m q <> None <-> R q \/ P q) /\ (forall q, R q \/ P q -> q < next m) /\
  forall m2 c2 t2 (Q : Z -> Prop), (forall q, R q -> heap m2 q = wr (heap m) x c2 q) -> rep (heap m2) c2 t2 Q -> (forall q, R q -> Q q -> False) ->
    (forall q, heap m2 q <> None -> R q \/ Q q) -> (forall q, Q q -> q < next m2) -> next m <= next m2 -> holds m2 (replace T a t2).
Proof.
  intros Hm Sa Sc Na Nc. destruct (single m T a s Hm Sa Na) as (x & ca & R & P & A & Rd & Rx & Rp & D & L & B & Close).
  destruct (spot_of_rep (heap m) c x ca s P t Rp Sc) as (y & cb & O & Q & Sp & E & D'). destruct (spot_resolve m _ _ _ _ _ _ _ _ _ Sp Rd) as [Ar Ry]. destruct (spot_owner _ _ _ _ _ _ _ _ _ _ Sp Nc) as [Oy _].
  exists x, y, ca, cb, R, P, O, Q. splits; auto; [rewrite at_app, A by exact Na; exact Ar|apply (spot_inner _ _ _ _ _ _ _ _ _ _ Sp)].
Qed.
Lemma takeAs_step n n' : (n <= n')%nat -> forall m x t, refines (takeAs n m x t) (takeAs n' m x t).
Proof. intros L m x t. unfold takeAs. refine_more. Qed.
Lemma op_take_in m T a c s t : holds m T -> subtree T a = Some s -> subtree s c = Some t -> a <> [] -> c <> [] -> tagOf t <> tEmpty -> keeps m (OTake a (a ++ c) (tagOf t)) (replace T a t).
Proof.
  intros Hm Sa Sc Na Nc Nt. destruct (inner m T a c s t Hm Sa Sc Na Nc) as (x & y & ca & cb & R & P & O & Q & Aa & Ab_ & Ra & Rb & Rx & Oy & Rp & Rq & Sp & E & D1 & D2 & L & B & Close).
  pose proof (holds_above _ _ Hm) as Ab. destruct (takeAs_spec _ _ _ _ Rq Nt) as [N1 C1].
  assert (PQ : forall q, Q q -> P q) by (intros q H; apply E; auto). assert (PO : forall q, O q -> P q) by (intros q H; apply E; auto).
  assert (Nxy : y <> x) by (intros ->; eauto).
  assert (Lx : fst x < next m) by auto. assert (Ly : fst y < next m) by auto.
  destruct (C1 N1 m y (le_n _) Rb) as (m1 & c1 & d2 & Q' & ET & L1 & Ed & R1 & HQ & Ab1 & W1 & LA & LB); auto; [intros H; eauto|].
  assert (Ra1 : readA m1 x = Ret ca). { rewrite <- Ra. eapply (wr_miss m m1 y x); [exact Nxy|]. apply W1; [exact Lx|]. intros H. eauto. }
  assert (Rs : rep (heap m1) ca (replace s c empty_) (fun q => O q \/ False)).
  { apply (spot_back _ x _ _ c y d2 empty_ O (fun _ => False)). apply (refill _ _ _ _ _ _ _ _ _ _ Sp); [exact Nc| |apply rep_E, Ed|auto]. apply put_wr; [exact Oy|]. intros q Hq. apply W1; [auto|intros H; eauto]. }
  destruct (put_spec _ _ _ _ Rs) as [N2 C2].
  assert (NP' : forall q, next m <= q -> ~ (O q \/ False)) by (intros q Hq [H|[]]; assert (q < next m) by auto; lia).
  exists (Nat.max N1 N2). intros n Hn. destruct (C2 n m1 x c1 t (heap m1) Q' ltac:(lia) Ra1 ltac:(auto)) as (m2 & c2 & E2 & X2 & H2 & DP & W2); [intros [H|[]]; eauto|exact R1|].
  exists m2. cbn [exec]. rewrite Aa. cbn [obind]. rewrite Ab_. cbn [obind]. rewrite (takeAs_step N1 n ltac:(lia) m y _ _ ET). cbn [obind fst snd]. split; [exact E2|].
  assert (Qx : forall q, Q' q -> ~ (O q \/ False) /\ q <> fst x /\ (R q -> False)).
  { intros q H. destruct (HQ q H) as [H'|H']; splits.
    - intros [H''|[]]. eauto.
    - intros ->. eauto.
    - intros H''. eauto.
    - apply NP'. lia.
    - lia.
    - intros H''. assert (q < next m) by auto. lia. }
  apply (Close m2 c2 t Q'); auto.
  - intros q Hq. assert (q < next m) by auto. rewrite W2 by (intros [H'|[]]; eauto). apply wr_cong. rewrite W1 by (auto; intros H'; eauto). apply wr_off. intros ->. eauto.
  - apply H2. intros q Hq. destruct (Qx q Hq) as (Q1 & Q2 & Q3). rewrite W2 by exact Q1. apply wr_off, Q2.
  - intros q H1 H3. apply (Qx q H3). exact H1.
  - intros q H.
    assert (Np : ~ (O q \/ False) \/ O q). { destruct (Z.lt_ge_cases q (next m)); [|left; apply NP'; lia]. destruct (heap m q) eqn:Eq.
      - assert (Y : heap m q <> None) by congruence. apply L in Y as [Y|Y]; [left; intros [Z0|[]]; eauto|]. apply E in Y as [Y|Y]; [right; exact Y|left; intros [Z0|[]]; eauto].
      - left. intros [Y|[]]. assert (heap m q <> None) by (apply L; auto). congruence. }
    destruct Np as [Np|Np]; [|rewrite DP in H by auto; contradiction]. rewrite W2 in H by exact Np. apply wr_live in H.
    destruct (LA q H) as [H'|H']; [auto|]. apply L in H' as [H'|H']; [auto|]. apply E in H' as [H'|H']; [contradiction Np; auto|]. right. apply LB; assumption.
  - intros q H. rewrite X2. destruct (HQ q H) as [H'|H']; [|lia]. assert (q < next m) by auto. lia.
  - lia.
Qed.
Theorem does_keeps m T o T' : holds m T -> does T o T' -> keeps m o T'.
Proof.
  intros Hm D. inversion D; subst; eauto using op_make, op_clear, op_move, op_swap, op_take, op_take_in, op_swap_self, op_self.
  - eapply op_copy; eauto.
  - eapply op_copy; eauto.
Qed.
Lemma keeps_one m o T' : keeps m o T' -> exists N m', (forall n, (N <= n)%nat -> exec n m o = Ret m') /\ holds m' T'.
Proof. intros [N K]. destruct (K N (le_n N)) as (m' & E & H). exists N, m'. split; [|exact H]. intros n L. apply (exec_step N n L m o m' E). Qed.
Theorem doesAll_keeps T os T' : doesAll T os T' -> forall m, holds m T -> exists N m', (forall n, (N <= n)%nat -> execAll n m os = Ret m') /\ holds m' T'.
Proof.
  induction 1 as [T|T o T1 os T2 D _ IH]; intros m Hm.
  - exists O, m. split; [reflexivity|exact Hm].
  - destruct (keeps_one m o T1 (does_keeps m T o T1 Hm D)) as (N1 & m1 & E1 & H1). destruct (IH m1 H1) as (N2 & m2 & E2 & H2). exists (Nat.max N1 N2), m2. split; [|exact H2].
    intros n L. cbn [execAll]. rewrite E1 by lia. cbn [obind]. apply E2. lia.
Qed.
Lemma fresh_holds k : holds (fresh k) (vars (repeat empty_ k)).
Proof.
  exists (fun q => q = 0). splits.
  - apply (RP _ tList 0 [] (repeat emptyCell k) (repeat empty_ k) _ (fun _ => False)); auto; [tauto|]. generalize (heap (fresh k)) as h. intros h. induction k as [|k IH]; cbn [repeat]; [constructor; auto|].
    apply (RC h _ _ _ _ _ (fun _ => False) (fun _ => False)); auto; [tauto|constructor; auto].
  - intros q. cbn. destruct (Z.eqb_spec q 0); split; congruence.
  - intros q ->. cbn. lia.
Qed.
(** what is seen *)
Lemma holds_look m T a t : holds m T -> subtree T a = Some t -> a <> [] -> exists N, forall n, (N <= n)%nat -> lookAt n m a = Ret t.
Proof.
  intros Hm S Na. destruct (single m T a t Hm S Na) as (x & c & R & P & A & Rd & _ & Rp & _). destruct (proj1 (look_both (heap m)) _ _ _ Rp) as [N H]. exists N. intros n Hn.
  unfold lookAt. rewrite A. cbn [obind]. rewrite Rd. cbn [obind]. apply H; auto.
Qed.
(** how much memory *)
Fixpoint blocks (t : tree) : nat := match t with Node g _ ts => ((if heapTag g then 1 else 0) + fold_right (fun t n => blocks t + n)%nat O ts)%nat end.
Lemma count_both h : (forall c t P, rep h c t P -> exists l, NoDup l /\ (forall q, In q l <-> P q) /\ List.length l = blocks t) /\
  (forall cs ts P, reps h cs ts P -> exists l, NoDup l /\ (forall q, In q l <-> P q) /\ List.length l = fold_right (fun t n => blocks t + n)%nat O ts).
Proof.
  apply (rep_reps_ind h (fun c t P _ => exists l, NoDup l /\ (forall q, In q l <-> P q) /\ List.length l = blocks t) (fun cs ts P _ => exists l, NoDup l /\ (forall q, In q l <-> P q) /\ List.length l = fold_right (fun t n => blocks t + n)%nat O ts)).
  - intros s P N. exists []. splits; [constructor|intros q; specialize (N q); cbn; tauto|reflexivity].
  - intros tag z P St N. exists []. splits; [constructor|intros q; specialize (N q); cbn; tauto|]. cbn [blocks]. destruct (stags tag St) as [_ ->]. reflexivity.
  - intros tag p d cs ts P Q Ht Hp E Np _ (l & ND & Hl & Ll). exists (p :: l). splits.
    + constructor; [rewrite Hl; exact Np|exact ND].
    + intros q. rewrite E. cbn [In]. rewrite Hl. intuition congruence.
    + cbn [blocks List.length]. rewrite Ht, Ll. reflexivity.
  - intros P N. exists []. splits; [constructor|intros q; specialize (N q); cbn; tauto|reflexivity].
  - intros c cs t ts P P1 P2 E D _ (l1 & ND1 & H1 & L1) _ (l2 & ND2 & H2 & L2). exists (l1 ++ l2). splits.
    + clear L1 L2. assert (Dj : forall q, In q l1 -> In q l2 -> False) by (intros q A B; apply H1 in A; apply H2 in B; eauto). clear -ND1 ND2 Dj. induction l1 as [|a l1 IH]; [exact ND2|]. inversion ND1; subst. cbn [app]. constructor.
      * rewrite in_app_iff. intros [X|X]; [contradiction|]. apply (Dj a); cbn; auto.
      * apply IH; [assumption|]. intros q A. apply Dj. cbn. auto.
    + intros q. rewrite in_app_iff, H1, H2, E. reflexivity.
    + rewrite app_length, L1, L2. reflexivity.
Qed.

(** * What goes wrong *)
(** the part assigned to the whole: the part is gone before it is read *)
Lemma part_to_whole m T a c s t o : holds m T -> subtree T a = Some s -> subtree s c = Some t -> a <> [] -> c <> [] ->
  o = OCopy a (a ++ c) \/ o = OMove a (a ++ c) \/ tagOf t <> tEmpty /\ o = OSet a (a ++ c) (tagOf t) -> exists N, forall n, (N <= n)%nat -> exec n m o = UB.
Proof.
  intros Hm Sa Sc Na Nc Ho. destruct (inner m T a c s t Hm Sa Sc Na Nc) as (x & y & ca & cb & R & P & O & Q & Aa & Ab_ & Ra & Rb & Rx & Oy & Rp & Rq & Sp & E & D1 & D2 & L & B & _).
  destruct (clear_spec _ _ _ _ Rp) as [N C]. exists (S N). intros n Hn. destruct (C n m x ltac:(lia) Ra ltac:(auto)) as (m1 & c0 & Ec & X & E0 & DP & W); [intros H; eauto|].
  assert (Nxy : x <> y) by (intros ->; eapply D2; [exact Rx|apply E; auto]).
  assert (Ry1 : readA m1 y = UB) by (unfold readA; rewrite DP; [reflexivity|apply E; auto]).
  destruct Ho as [->|[->|[Nt ->]]]; cbn [exec]; rewrite Aa; cbn [obind]; rewrite Ab_; cbn [obind].
  - unfold assignCopy. rewrite sameAddr_no by exact Nxy. rewrite Ec. cbn [obind]. rewrite Ry1. reflexivity.
  - unfold assignMove. rewrite sameAddr_no by exact Nxy. rewrite Ec. cbn [obind]. rewrite Ry1. reflexivity.
  - unfold setFrom. rewrite Rb. cbn [obind]. rewrite (rep_tag _ _ _ _ Rq), Z.eqb_refl. cbn [negb]. inversion Rq as [s0 P0 N0|tag z P0 St N0|tag p d cs ts P0 Q0 Ht Hp EQ Np Rs]; subst; cbn [tagOf] in *; [contradiction Nt; reflexivity| |].
    + rewrite St, Ec. cbn [obind]. rewrite Ry1. reflexivity.
    + destruct (tags tag Ht) as [T1 T2]. rewrite T2, Ht, Ec. cbn [obind]. assert (Rx1 : readA m1 x = Ret c0) by (eapply wr_hit; [exact Ra|apply W; intros H; eauto]).
      destruct (writeA_ok m1 x c0 (Cell tag SRaw) Rx1) as (m2 & -> & X2 & W2). cbn [obind]. destruct n as [|n]; [lia|]. cbn [copyCell ctag cslot]. rewrite T1, T2, Ht, W2.
      assert (Pp : P p) by (apply E; right; apply EQ; auto). rewrite wr_off by (intros ->; eauto). rewrite DP by exact Pp. reflexivity.
Qed.
(** setXxx(getXxx()) of the same Value *)
Lemma set_self m T a s : holds m T -> subtree T a = Some s -> a <> [] -> heapTag (tagOf s) = true -> exists N, forall n, (N <= n)%nat -> exec n m (OSet a a (tagOf s)) = UB.
Proof.
  intros Hm Sa Na Ht. destruct (single m T a s Hm Sa Na) as (x & ca & R & P & A & Rd & Rx & Rp & D & L & B & _). destruct (clear_spec _ _ _ _ Rp) as [N C]. exists (S N). intros n Hn.
  destruct (C n m x ltac:(lia) Rd ltac:(auto)) as (m1 & c0 & Ec & X & E0 & DP & W); [intros H; eauto|].
  cbn [exec]. rewrite A. cbn [obind]. unfold setFrom. rewrite Rd. cbn [obind]. rewrite (rep_tag _ _ _ _ Rp), Z.eqb_refl. cbn [negb].
  inversion Rp as [s0 P0 N0|tag z P0 St N0|tag p d cs ts P0 Q0 _ Hp EQ Np Rs]; subst; cbn [tagOf] in *; [discriminate|destruct (stags tag St); congruence|].
  destruct (tags tag Ht) as [T1 T2]. rewrite T2, Ht, Ec. cbn [obind]. assert (Rx1 : readA m1 x = Ret c0) by (eapply wr_hit; [exact Rd|apply W; intros H; eauto]).
  destruct (writeA_ok m1 x c0 (Cell tag SRaw) Rx1) as (m2 & -> & X2 & W2). cbn [obind]. destruct n as [|n]; [lia|]. cbn [copyCell ctag cslot]. rewrite T1, T2, Ht, W2.
  assert (Pp : P p) by (apply EQ; auto). rewrite wr_off by (intros ->; eauto). rewrite DP by exact Pp. reflexivity.
Qed.
(** copying something in which one Value has a type but nothing in its union *)
Lemma copyCells_app f : forall cs1 m cs2, copyCells f m (cs1 ++ cs2) = (let* r := copyCells f m cs1 in let* r' := copyCells f (fst r) cs2 in Ret (fst r', snd r ++ snd r')).
Proof.
  induction cs1 as [|c cs1 IH]; intros m cs2; cbn [app copyCells obind fst snd].
  - destruct (copyCells f m cs2) as [[m' cs]| | |]; reflexivity.
  - destruct (f m c) as [r| | |]; cbn [obind]; try reflexivity. rewrite IH. destruct (copyCells f (fst r) cs1) as [r1| | |]; cbn [obind fst snd]; try reflexivity.
    destruct (copyCells f (fst r1) cs2) as [r2| | |]; reflexivity.
Qed.
Lemma copy_raw h a c t path x c' t' O P : spot h a c t path x c' t' O P -> path <> [] -> forall g, heapTag g = true -> exists N, forall n m, (N <= n)%nat -> above m -> (forall q, O q -> heap m q = wr h x (Cell g SRaw) q /\ q < next m) -> copyCell n m c = UB.
Proof.
  intros Sp0. induction Sp0 as [a c t O P R N|a tag p d cs1 ci cs2 ts1 ti ts2 i path x c t O Oi P P1 P2 Ht Hp L1 L2 R1 R2 Sp IH E N1 N2 N3 N4 D1 D2 D3 D4 D5]; intros Np g Hg; [contradiction|].
  destruct (proj2 (copy_both h) _ _ _ R1) as [M1 K1].
  assert (Hx : path = [] /\ x = (p, i) \/ path <> [] /\ Oi (fst x)).
  { destruct path as [|k path]; [inversion Sp; subst; left; auto|right; split; [discriminate|apply (spot_owner _ _ _ _ _ _ _ _ _ _ Sp); discriminate]]. }
  assert (Bad : exists M2 ck, (forall n m, (M2 <= n)%nat -> above m -> (forall q, O q -> heap m q = wr h x (Cell g SRaw) q /\ q < next m) -> copyCell n m ck = UB) /\ wr h x (Cell g SRaw) p = Some (Block tag d (cs1 ++ ck :: cs2))).
  { destruct Hx as [[-> ->]|[Npath Ox]].
    - exists 1%nat, (Cell g SRaw). split.
      + intros [|n] m Hn _ _; [lia|]. destruct (tags g Hg) as [T1 T2]. cbn [copyCell ctag cslot]. rewrite T1, T2, Hg. reflexivity.
      + unfold wr. cbn [fst snd]. rewrite Z.eqb_refl, Hp. cbn [bkind bdata bkids]. rewrite <- L1, setKid_mid. reflexivity.
    - destruct (IH Npath g Hg) as [M2 K2]. exists M2, ci. split.
      + intros n m Hn Ab F. apply K2; auto. intros q Hq. apply F, E. auto.
      + rewrite wr_off; [exact Hp|]. intros ->. contradiction. }
  destruct Bad as (M2 & ck & K2 & Hw).
  exists (S (Nat.max M1 M2)). intros [|n] m Hn Ab F; [lia|]. destruct (F p) as [Fp Lp]; [apply E; auto|]. destruct (tags tag Ht) as [T1 T2]. cbn [copyCell ctag cslot]. rewrite T1, T2, Ht, Fp, Hw. cbn [bkind bkids]. rewrite Z.eqb_refl.
  rewrite copyCells_app. destruct (K1 n m) as (m1 & cs' & -> & Ln & Ab1 & Fr & _ & _); [lia|exact Ab| |].
  { intros q Hq. destruct (F q) as [Fq Lq]; [apply E; auto|]. split; [|exact Lq]. rewrite Fq. apply wr_off. destruct Hx as [[-> ->]|[_ Ox]]; [intros ->; contradiction|intros ->; eauto]. }
  cbn [obind fst snd copyCells]. rewrite K2; [reflexivity|lia|exact Ab1|]. intros q Hq. destruct (F q Hq) as [Fq Lq]. split; [rewrite Fr by exact Lq; exact Fq|lia].
Qed.
(** the whole assigned to a part of it *)
Lemma whole_to_part m T a c s t : holds m T -> subtree T a = Some s -> subtree s c = Some t -> a <> [] -> c <> [] -> exists N, forall n, (N <= n)%nat -> exec n m (OCopy (a ++ c) a) = UB.
Proof.
  intros Hm Sa Sc Na Nc. destruct (inner m T a c s t Hm Sa Sc Na Nc) as (x & y & ca & cb & R & P & O & Q & Aa & Ab_ & Ra & Rb & Rx & Oy & Rp & Rq & Sp & E & D1 & D2 & L & B & _).
  pose proof (holds_above _ _ Hm) as Ab.
  assert (Hca : heapTag (ctag ca) = true) by (destruct c as [|i c]; [contradiction|]; inversion Sp; subst; assumption).
  destruct (clear_spec _ _ _ _ Rq) as [N1 C]. destruct (copy_raw _ _ _ _ _ _ _ _ _ _ Sp Nc (ctag ca) Hca) as [N2 K]. exists (Nat.max N1 N2). intros n Hn.
  destruct (C n m y ltac:(lia) Rb ltac:(auto)) as (m1 & c0 & Ec & X & E0 & DP & W); [intros H; eauto|].
  assert (Nxy : y <> x) by (intros ->; eapply D2; [exact Rx|apply E; auto]).
  assert (Lx : fst y < next m) by (apply B; right; apply E; auto).
  cbn [exec]. rewrite Ab_, Aa. cbn [obind]. unfold assignCopy. rewrite sameAddr_no by exact Nxy. rewrite Ec. cbn [obind].
  assert (Qx : ~ Q (fst x)) by (intros H; eapply D2; [exact Rx|apply E; auto]).
  assert (Ra1 : readA m1 x = Ret ca) by (rewrite <- Ra; eapply (wr_miss m m1 y x); [exact Nxy|apply W, Qx]). rewrite Ra1. cbn [obind].
  destruct (tags _ Hca) as [-> _]. assert (Ry1 : readA m1 y = Ret c0) by (eapply wr_hit; [exact Rb|apply W; intros H; eauto]).
  destruct (writeA_ok m1 y c0 (Cell (ctag ca) SRaw) Ry1) as (m2 & -> & X2 & W2). cbn [obind]. rewrite (K n m2); [reflexivity|lia| |].
  - intros q Hq. rewrite X2, X in Hq. rewrite W2, wr_off by lia. rewrite W, wr_off; [apply Ab; lia|lia|intros H; assert (q < next m) by (apply B; right; apply E; auto); lia].
  - intros q Hq. split; [|rewrite X2, X; apply B; right; apply E; auto]. rewrite W2. assert (NQ : ~ Q q) by (intros H; eauto). rewrite (wr_cong _ _ _ _ _ (W q NQ)). apply wr_wr.
Qed.
(** new throws *)
Lemma throw_leaves m T a b s t : holds m T -> subtree T a = Some s -> subtree T b = Some t -> a <> [] -> b <> [] -> apart a b -> heapTag (tagOf t) = true ->
  exists x y N m', at_ m a = Ret x /\ at_ m b = Ret y /\ copyThrows N m x y = Ret m' /\ forall n, clearA (S n) m' x = UB.
Proof.
  intros Hm Sa Sb Na Nb A Ht. destruct (pair m T a b s t Hm Sa Sb Na Nb A) as (x & y & ca & cb & R & P & Q & Aa & Ab_ & Ra & Rb & Nxy & Rx & Ry & Rp & Rq & D1 & D2 & D3 & L & B & _).
  destruct (clear_spec _ _ _ _ Rp) as [N C]. destruct (C N m x (le_n _) Ra ltac:(auto)) as (m1 & c0 & Ec & X & E0 & DP & W); [intros H; eauto|].
  assert (Ry1 : readA m1 y = Ret cb) by (rewrite <- Rb; eapply (wr_miss m m1 x y); [exact Nxy|apply W; intros H; eauto]).
  assert (Rx1 : readA m1 x = Ret c0) by (eapply wr_hit; [exact Ra|apply W; intros H; eauto]).
  destruct (writeA_ok m1 x c0 (Cell (ctag cb) SRaw) Rx1) as (m2 & Ew & X2 & W2). exists x, y, N, m2. splits; auto; [unfold copyThrows; rewrite Ec; cbn [obind]; rewrite Ry1; exact Ew|].
  intros n. unfold clearA. rewrite (wr_hit m1 m2 x c0 _ Rx1 (W2 _)). cbn [obind ctag deleteCell cslot]. rewrite (rep_tag _ _ _ _ Rq). destruct (tags _ Ht) as [-> ->]. rewrite Ht. reflexivity.
Qed.
