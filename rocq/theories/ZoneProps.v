(** * C135, C136: character sets and the time zone *)
From Coq Require Import String List Lia ZArith Bool.
From Verif Require Import Prelude ValueBase ValueModel ValueProofs AssocModel ZoneModel.
Import ListNotations.
Local Open Scope Z_scope.
Local Open Scope list_scope.

(** ** C135 *)
(** The five answers agree for every name: a character set is supported when it has a default collation, its default collation matches it and is supported,
    a collation is supported when it has a character set, and the set of a collation is the one it matches. *)
Theorem C135_agree : forall cs co,
  (isSupportCharset cs = true <-> exists d, getDefaultCollation cs = Some d) /\
  (forall d, getDefaultCollation cs = Some d -> charsetAndCollateMatch cs d = true /\ isSupportCollate d = true) /\
  (isSupportCollate co = true <-> exists n, getCharsetbyCollation co = Some n) /\
  (getCharsetbyCollation co = Some cs <-> charsetAndCollateMatch cs co = true) /\
  (charsetAndCollateMatch cs co = true -> isSupportCharset cs = true /\ isSupportCollate co = true).
Proof.
  intros cs co. unfold isSupportCharset, isSupportCollate, getDefaultCollation, charsetAndCollateMatch, getCharsetbyCollation, supportCharsets, supportCollations, charsetDescs.
  cbn [existsb aget charsetGo cdColls cdDefault option_map].
  assert (R : forall a b, strEqb a b = true /\ a = b \/ strEqb a b = false /\ a <> b).
  { intros a b. destruct (strEqb a b) eqn:E; [left|right]; (split; [reflexivity|]); [apply strEqb_eq, E|]. intros ->. rewrite (proj2 (strEqb_eq b b) eq_refl) in E. discriminate. }
  assert (SY : forall a b, strEqb a b = strEqb b a) by (intros a b; pose proof (R a b); pose proof (R b a); destruct (strEqb a b), (strEqb b a); intuition congruence).
  rewrite (SY (B "utf8_bin") co). rewrite !orb_false_r.
  destruct (R cs (B "utf8")) as [[-> ->] | [-> N1]], (R co (B "utf8_bin")) as [[-> ->] | [-> N2]]; cbn [existsb cdColls cdDefault option_map orb].
  all: splits; first [split | intros].
  all: try (intros; eexists; reflexivity).
  all: intros; try discriminate; try reflexivity; try split; try reflexivity.
  all: repeat match goal with H : exists _, _ |- _ => destruct H as [? H] | H : Some _ = Some _ |- _ => injection H as H end; subst; try discriminate; try reflexivity; try congruence.
  all: match goal with H : _ || false = true |- _ => rewrite orb_false_r in H; apply strEqb_eq in H; congruence end.
Qed.
Example C135_ex : isSupportCharset (B "utf8") = true /\ getDefaultCollation (B "utf8") = Some (B "utf8_bin") /\ getCharsetbyCollation (B "utf8_bin") = Some (B "utf8") /\
  isSupportCharset (B "UTF8") = false /\ charsetAndCollateMatch (B "utf8") (B "gbk_bin") = false.
Proof. splits; reflexivity. Qed.

(** ** C136 *)
(** the name of the zone in force: the flag, and TZ where the flag is empty *)
Definition zoneName (W : zoneWorld) (s : zoneState) : str := match zsFlag s with [] => match zwTZ W with Some t => t | None => [] end | f => f end.
(** the zone a region stands for: the row read first, before this call or by it *)
Definition regionIs (W : zoneWorld) (s : zoneState) (n : str) (z : zone) : Prop :=
  aget strEqb n (zsDb s) = Some z \/ aget strEqb n (zsDb s) = None /\ aget strEqb n (fst (zwFile W)) = Some z.
Lemma addRows_spec n rows : forall db, aget strEqb n (addRows rows db) = match aget strEqb n db with Some z => Some z | None => aget strEqb n rows end.
Proof.
  induction rows as [|[m z] r IH]; intros db; cbn [addRows aget]; [destruct (aget strEqb n db); reflexivity|]. rewrite IH.
  assert (SY : strEqb m n = strEqb n m).
  { destruct (strEqb m n) eqn:E, (strEqb n m) eqn:F; try reflexivity; [apply strEqb_eq in E|apply strEqb_eq in F]; subst; rewrite (proj2 (strEqb_eq _ _) eq_refl) in *; congruence. }
  destruct (aget strEqb m db) as [z'|] eqn:E; rewrite ?(aget_aset strEqb strEqb_eq), ?SY; destruct (strEqb n m) eqn:Q; try reflexivity; apply strEqb_eq in Q; subst; rewrite E; reflexivity.
Qed.
(** A success is reported exactly when the name stands for a zone, and this zone is in force then; offset and name can be asked. *)
Theorem C136_success : forall W s, let '(ok, s') := initZone W s in
  (ok = true <-> exists z, (exists region, zoneName W s = 58 :: region /\ snd (zwFile W) = true /\ regionIs W s region z) \/
                           (exists c t, zoneName W s = c :: t /\ c <> 58 /\ zwPosix W (c :: t) = Some z)) /\
  (ok = true -> exists z, zsZone s' = Some z /\ utcOffsetSecs s' = Ret (zOffset z) /\ stdZoneName s' = Ret (zName z) /\
     ((exists region, zoneName W s = 58 :: region /\ regionIs W s region z) \/ zwPosix W (zoneName W s) = Some z)).
Proof.
  intros W s. unfold initZone. fold (zoneName W s). destruct (zoneName W s) as [|c t] eqn:N.
  - split; [|discriminate]. split; [discriminate|]. intros (z & [(r & X & _) | (c & t & X & _)]); discriminate.
  - destruct (Z.eq_dec c 58) as [-> | NC]; [change (58 =? 58) with true in *; cbv iota in * |].
    + cbn [zoneInit zsDb zsZone zsFlag]. unfold zoneInit. cbn [zsDb zsZone zsFlag]. destruct (snd (zwFile W)) eqn:OK.
      * cbn [loadFromDb zsDb zsZone zsFlag]. unfold loadFromDb. cbn [zsDb zsZone zsFlag]. rewrite addRows_spec.
        set (q := match aget strEqb t (zsDb s) with Some z => Some z | None => aget strEqb t (fst (zwFile W)) end).
        assert (Q : forall z, q = Some z <-> regionIs W s t z).
        { intros z. unfold q, regionIs. destruct (aget strEqb t (zsDb s)); split; intuition congruence. }
        split.
        -- split.
           ++ destruct q as [z|] eqn:E; [|discriminate]. intros _. exists z. left. exists t. splits; [reflexivity..|apply Q; reflexivity].
           ++ intros (z & [(r & X & _ & Y) | (c & u & X & Y & _)]); [|injection X as <- <-; contradiction]. injection X as <-. apply Q in Y. rewrite Y. reflexivity.
        -- destruct q as [z|] eqn:E; [|discriminate]. intros _. exists z. unfold utcOffsetSecs, stdZoneName. cbn [zsZone]. splits; [reflexivity..|]. left. exists t. split; [reflexivity|apply Q; reflexivity].
      * split; [|discriminate]. split; [discriminate|]. intros (z & [(r & _ & X & _) | (c & u & X & Y & _)]); [discriminate|]. injection X as <- <-. contradiction.
    + assert (E : c =? 58 = false) by lia.
      rewrite E. unfold parsePosix. destruct (zwPosix W (c :: t)) as [z|] eqn:P.
      * split.
        -- split; [|reflexivity]. intros _. exists z. right. exists c, t. splits; [reflexivity|exact NC|reflexivity || exact P].
        -- intros _. exists z. unfold utcOffsetSecs, stdZoneName. cbn [zsZone]. splits; [reflexivity..|]. right. first [exact P|reflexivity].
      * split; [|discriminate]. split; [discriminate|]. intros (z & [(r & X & _) | (c' & u & X & _ & Y)]); [injection X as -> _; contradiction|]. injection X as <- <-. congruence.
Qed.
(** A failure leaves the zone as it was unless the name is a region: then the zone in force is lost when the region is not known. *)
Theorem C136_failure : forall W s s', initZone W s = (false, s') ->
  zsZone s' = zsZone s \/ (exists region, zoneName W s = 58 :: region /\ snd (zwFile W) = true /\ zsZone s' = None).
Proof.
  intros W s s' H. unfold initZone in H. fold (zoneName W s) in H. destruct (zoneName W s) as [|c t] eqn:N; [injection H as <-; left; reflexivity|].
  destruct (Z.eq_dec c 58) as [-> | NC]; [change (58 =? 58) with true in *; cbv iota in * |].
  - unfold zoneInit in H. cbn [zsDb zsZone zsFlag] in H. destruct (snd (zwFile W)) eqn:OK; [|injection H as <-; left; reflexivity].
    unfold loadFromDb in H. cbn [zsDb zsZone zsFlag] in H. destruct (aget strEqb t (addRows _ _)); [discriminate|]. injection H as <-. right. exists t. splits; reflexivity.
  - assert (E : c =? 58 = false) by lia.
    rewrite E in H. unfold parsePosix in H. destruct (zwPosix W (c :: t)); [discriminate|]. injection H as <-. left. reflexivity.
Qed.
(** Initializing again changes nothing: same outcome, same zone. *)
Theorem C136_again : forall W s s', initZone W s = (true, s') -> initZone W s' = (true, s') \/ (exists r, zoneName W s = 58 :: r) /\ exists s2, initZone W s' = (true, s2) /\ zsZone s2 = zsZone s'.
Proof.
  intros W s s' H. assert (F : zsFlag s' = zoneName W s).
  { unfold initZone in H. fold (zoneName W s) in H. destruct (zoneName W s) as [|c t] eqn:N; [discriminate|].
    destruct (Z.eq_dec c 58) as [-> | NC]; [change (58 =? 58) with true in *; cbv iota in * |].
    - unfold zoneInit in H. cbn [zsDb zsZone zsFlag] in H. destruct (snd (zwFile W)); [|discriminate]. unfold loadFromDb in H. cbn [zsDb zsZone zsFlag] in H.
      destruct (aget strEqb t (addRows _ _)); [|discriminate]. injection H as <-. reflexivity.
    - assert (E : c =? 58 = false) by lia.
      rewrite E in H. unfold parsePosix in H. destruct (zwPosix W (c :: t)); [|discriminate]. injection H as <-. reflexivity. }
  assert (NE : zoneName W s <> []) by (intros E; unfold initZone in H; fold (zoneName W s) in H; rewrite E in H; discriminate).
  assert (N' : zoneName W s' = zoneName W s) by (unfold zoneName at 1; rewrite F; destruct (zoneName W s); [contradiction|reflexivity]).
  unfold initZone in *. fold (zoneName W s) in H. fold (zoneName W s'). rewrite N'. destruct (zoneName W s) as [|c t] eqn:N; [contradiction|].
  destruct (Z.eq_dec c 58) as [-> | NC]; [change (58 =? 58) with true in *; cbv iota in * |].
  - right. split; [eexists; reflexivity|]. unfold zoneInit in *. cbn [zsDb zsZone zsFlag] in *. destruct (snd (zwFile W)); [|discriminate]. unfold loadFromDb in *. cbn [zsDb zsZone zsFlag] in *.
    rewrite !addRows_spec in *. set (q := match aget strEqb t (zsDb s) with Some z => Some z | None => aget strEqb t (fst (zwFile W)) end) in *.
    destruct q as [z|] eqn:Q; [|discriminate]. injection H as <-. cbn [zsDb zsZone zsFlag]. rewrite addRows_spec. fold q. rewrite Q. eexists. split; reflexivity.
  - left. assert (E : c =? 58 = false) by lia.
    rewrite E in *. unfold parsePosix in *. destruct (zwPosix W (c :: t)) as [z|]; [|discriminate]. injection H as <-. reflexivity.
Qed.
(** It is not so that a failed initialization leaves the zone in force: afterwards the offset cannot be asked. *)
Definition zw0 : zoneWorld := mkZW (fun t => if strEqb t (B "UTC+08:00:00") then Some (mkZone (B "UTC") 28800) else None) ([(B "Asia/Shanghai", mkZone (B "CST") 28800)], true) (Some (B ":Asia/Nowhere")).
Theorem C136_kept_refuted : exists s s1 s2, initZone zw0 s = (true, s1) /\ utcOffsetSecs s1 = Ret 28800 /\
  initZone zw0 (mkZS (zsDb s1) (zsZone s1) []) = (false, s2) /\ utcOffsetSecs s2 = UB.
Proof. exists (mkZS [] None (B "UTC+08:00:00")). eexists. eexists. splits; vm_compute; reflexivity. Qed.
Example C136_ex : exists s', initZone zw0 (mkZS [] None (B ":Asia/Shanghai")) = (true, s') /\ utcOffsetSecs s' = Ret 28800 /\ stdZoneName s' = Ret (B "CST") /\
  fst (initZone zw0 (mkZS [] None (B "CST"))) = false /\ fst (initZone (mkZW (fun _ => None) ([], false) None) (mkZS [] None [])) = false.
Proof. eexists. splits; vm_compute; reflexivity. Qed.

Print Assumptions C135_agree. Print Assumptions C136_success. Print Assumptions C136_failure. Print Assumptions C136_again. Print Assumptions C136_kept_refuted.
