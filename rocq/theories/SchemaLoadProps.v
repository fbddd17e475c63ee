(** Properties C60, C70 and C71: the schemas and names loaded from the meta service. *)
From Coq Require Import String List.
From Verif Require Import Prelude Trans ValueBase ValueProofs LeaderModel AssocModel SchemaModel SchemaProps.
Import ListNotations.
Open Scope Z_scope.

(** * Specification *)
(** [v] is the largest version received for [id]. *)
Definition maxVersion (items : list item) (id v : Z) : Prop :=
  (exists it, In it items /\ itmId it = id /\ itmVer it = v) /\ forall it, In it items -> itmId it = id -> itmVer it <= v.
(** [it] is the first item received for its id. *)
Definition firstItem (items : list item) (id : Z) (it : item) : Prop :=
  exists a b, items = a ++ it :: b /\ itmId it = id /\ forall x, In x a -> itmId x <> id.
(** The items of one id come in a row. *)
Definition inRuns (items : list item) : Prop := forall i j k a b c, (i < k < j)%nat ->
  nth_error items i = Some a -> nth_error items j = Some b -> nth_error items k = Some c -> itmId a = itmId b -> itmId c = itmId a.
(** ... and from new to old, as the comment at MetaClient.cpp:360 says. *)
Definition newToOld (items : list item) : Prop := inRuns items /\
  forall i j a b, (i < j)%nat -> nth_error items i = Some a -> nth_error items j = Some b -> itmId a = itmId b -> itmVer b < itmVer a.
Definition usable (items : list item) : Prop :=
  Forall (fun it => itmId it <> -1 /\ 0 <= itmVer it < vecMax /\ proper (itmCols it)) items.

(** * Maps *)
Lemma aget_aadd {K V} (eqb : K -> K -> bool) (ok : forall a b, eqb a b = true <-> a = b) k (v : V) l k' :
  aget eqb k' (aadd eqb k v l) = match aget eqb k l with Some _ => aget eqb k' l | None => if eqb k' k then Some v else aget eqb k' l end.
Proof.
  unfold aadd. destruct (aget eqb k l) eqn:E; [reflexivity|].
  assert (A : forall l, aget eqb k' (l ++ [(k, v)]) = match aget eqb k' l with Some w => Some w | None => if eqb k' k then Some v else None end).
  { clear. induction l as [|[k0 v0] l IH]; cbn; [reflexivity|]. destruct (eqb k' k0); [reflexivity|exact IH]. }
  rewrite A. destruct (eqb k' k) eqn:F.
  - apply ok in F. subst k'. rewrite E. reflexivity.
  - destruct (aget eqb k' l); reflexivity.
Qed.
Lemma skeyEqb_ok a b : skeyEqb a b = true <-> a = b.
Proof.
  destruct a as [a1 a2], b as [b1 b2]. unfold skeyEqb. cbn. rewrite andb_true_iff, strEqb_eq, Z.eqb_eq.
  split; [intros [-> ->]; reflexivity|intros H; injection H; auto].
Qed.
Lemma newest_get s nm it k : aget pkeyEqb k (nmNewest (addNewest s nm it)) =
  if pkeyEqb k (s, itmId it) then Some (match aget pkeyEqb (s, itmId it) (nmNewest nm) with Some v => Z.max v (itmVer it) | None => itmVer it end)
  else aget pkeyEqb k (nmNewest nm).
Proof.
  unfold addNewest. cbn [nmNewest]. destruct (aget pkeyEqb (s, itmId it) (nmNewest nm)) as [v|] eqn:E.
  - destruct (Z.ltb_spec v (itmVer it)).
    + rewrite (aget_aset pkeyEqb pkeyEqb_ok). destruct (pkeyEqb k (s, itmId it)); [|reflexivity]. f_equal. lia.
    + destruct (pkeyEqb k (s, itmId it)) eqn:F; [|reflexivity]. apply pkeyEqb_ok in F. subst. rewrite E. f_equal. lia.
  - rewrite (aget_aadd pkeyEqb pkeyEqb_ok), E. reflexivity.
Qed.

(** * Storing the schemas *)
Fixpoint storeAll (last : Z) (items : list item) (m : schemas) : outcome schemas :=
  match items with [] => Ret m | it :: rest => let* m1 := storeSchema last m it in storeAll (itmId it) rest m1 end.
Definition tagMaps (s : Z) (items : list item) (nm : nameMaps) : nameMaps := fold_left (fun nm it => addNewest s (addNames s nm it) it) items nm.
Fixpoint edgeMaps (s : Z) (seen : list Z) (items : list item) (nm : nameMaps) (all : list str) : nameMaps * list str :=
  match items with
  | [] => (nm, all)
  | it :: rest =>
      if existsb (Z.eqb (itmId it)) seen then edgeMaps s seen rest (addNames s nm it) all
      else edgeMaps s (itmId it :: seen) rest (addNewest s (addNames s nm it) it) (all ++ [itmName it])
  end.
Lemma loadTags_split s items : forall last m nm, loadTags s last items m nm = let* m' := storeAll last items m in Ret (m', tagMaps s items nm).
Proof.
  induction items as [|it items IH]; intros last m nm; [reflexivity|]. cbn [loadTags storeAll]. destruct (storeSchema last m it); try reflexivity. cbn [obind].
  rewrite IH. reflexivity.
Qed.
Lemma loadEdges_split s items : forall last seen m nm all, loadEdges s last seen items m nm all =
  let* m' := storeAll last items m in Ret (m', fst (edgeMaps s seen items nm all), snd (edgeMaps s seen items nm all)).
Proof.
  induction items as [|it items IH]; intros last seen m nm all; [reflexivity|]. cbn [loadEdges storeAll edgeMaps]. destruct (storeSchema last m it); try reflexivity. cbn [obind].
  destruct (existsb (Z.eqb (itmId it)) seen); rewrite IH; reflexivity.
Qed.

Lemma loadSpaces_tags l : forall sc sc', NoDup (map fst l) -> loadSpaces sc l = Ret sc' -> 
  (forall s, In s (map fst l) -> aget Z.eqb s (scTags sc) = None /\ aget Z.eqb s (scEdges sc) = None) ->
  (forall s ts es, In (s, (ts, es)) l -> (exists m, storeAll (-1) ts [] = Ret m /\ aget Z.eqb s (scTags sc') = Some m) /\
                                         (exists m, storeAll (-1) es [] = Ret m /\ aget Z.eqb s (scEdges sc') = Some m)) /\
  (forall s, ~ In s (map fst l) -> aget Z.eqb s (scTags sc') = aget Z.eqb s (scTags sc) /\ aget Z.eqb s (scEdges sc') = aget Z.eqb s (scEdges sc)).
Proof.
  induction l as [|[s [ts es]] l IH]; intros sc sc' N H Hf; cbn [loadSpaces] in H.
  - apply Ret_inj in H. subst. split; [intros ? ? ? []|auto].
  - cbn [map fst] in N. inversion N as [|? ? N1 N2]; subst. unfold loadSchemas in H. rewrite loadTags_split, loadEdges_split in H.
    destruct (storeAll (-1) ts []) as [mt| | |] eqn:Et; try discriminate. cbn [obind] in H. destruct (storeAll (-1) es []) as [me| | |] eqn:Ee; try discriminate. cbn [obind fst snd] in H.
    destruct (Hf s (or_introl eq_refl)) as [F1 F2].
    assert (Ht : forall s', aget Z.eqb s' (aadd Z.eqb s mt (scTags sc)) = if s' =? s then Some mt else aget Z.eqb s' (scTags sc)).
    { intros s'. rewrite (aget_aadd Z.eqb Z.eqb_eq), F1. reflexivity. }
    assert (He : forall s', aget Z.eqb s' (aadd Z.eqb s me (scEdges sc)) = if s' =? s then Some me else aget Z.eqb s' (scEdges sc)).
    { intros s'. rewrite (aget_aadd Z.eqb Z.eqb_eq), F2. reflexivity. }
    apply IH in H; auto; cbn [scTags scEdges] in *.
    + destruct H as [H1 H2]. split.
      * intros s' ts' es' [E | Hin]; [|apply H1; assumption]. injection E as <- <- <-. destruct (H2 s N1) as [G1 G2]. rewrite G1, G2, Ht, He, Z.eqb_refl. split; eexists; split; eauto.
      * intros s' Hs'. cbn in Hs'. destruct (H2 s') as [G1 G2]; [tauto|]. rewrite G1, G2, Ht, He. destruct (Z.eqb_spec s' s); [subst; tauto|auto].
    + intros s' Hs'. rewrite Ht, He. destruct (Z.eqb_spec s' s) as [-> |]; [contradiction|]. apply Hf. right. exact Hs'.
Qed.

(** What concerns the maps: a space's entries depend only on its own items. *)
Definition nmSpace (nm nm' : nameMaps) (s : Z) : Prop :=
  (forall id, aget pkeyEqb (s, id) (nmNewest nm') = aget pkeyEqb (s, id) (nmNewest nm)) /\
  (forall id, aget pkeyEqb (s, id) (nmNames nm') = aget pkeyEqb (s, id) (nmNames nm)) /\
  (forall n, aget skeyEqb (s, n) (nmIds nm') = aget skeyEqb (s, n) (nmIds nm)).
Lemma nmSpace_trans a b c s : nmSpace a b s -> nmSpace b c s -> nmSpace a c s.
Proof. intros (A1 & A2 & A3) (B1 & B2 & B3). unfold nmSpace. splits; intros; [rewrite B1; apply A1|rewrite B2; apply A2|rewrite B3; apply A3]. Qed.
Lemma nmSpace_refl a s : nmSpace a a s. Proof. unfold nmSpace. splits; reflexivity. Qed.
Lemma pk_ne s' s id id' : s' <> s -> pkeyEqb (s', id') (s, id) = false.
Proof. intros H. unfold pkeyEqb. cbn. destruct (Z.eqb_spec s' s); [contradiction|reflexivity]. Qed.
Lemma addNames_other s s' nm it : s' <> s -> nmSpace nm (addNames s nm it) s'.
Proof.
  intros H. unfold nmSpace. splits; intros; cbn; auto.
  - rewrite (aget_aadd pkeyEqb pkeyEqb_ok), pk_ne by assumption. destruct (aget pkeyEqb (s, itmId it) (nmNames nm)); reflexivity.
  - rewrite (aget_aadd skeyEqb skeyEqb_ok). replace (skeyEqb (s', n) (s, itmName it)) with false by (unfold skeyEqb; cbn; destruct (Z.eqb_spec s' s); [contradiction|reflexivity]). destruct (aget skeyEqb (s, itmName it) (nmIds nm)); reflexivity.
Qed.
Lemma addNewest_other s s' nm it : s' <> s -> nmSpace nm (addNewest s nm it) s'.
Proof. intros H. unfold nmSpace. splits; intros; auto. rewrite newest_get, pk_ne by assumption. reflexivity. Qed.
Lemma tagMaps_other s s' items : s' <> s -> forall nm, nmSpace nm (tagMaps s items nm) s'.
Proof.
  intros H. induction items as [|it items IH]; intros nm; [apply nmSpace_refl|]. cbn. eapply nmSpace_trans; [|apply IH].
  eapply nmSpace_trans; [apply addNames_other; eassumption|apply addNewest_other; assumption].
Qed.
Lemma edgeMaps_other s s' items : s' <> s -> forall seen nm all, nmSpace nm (fst (edgeMaps s seen items nm all)) s'.
Proof.
  intros H. induction items as [|it items IH]; intros seen nm all; [apply nmSpace_refl|]. cbn. destruct (existsb _ seen).
  - eapply nmSpace_trans; [apply addNames_other; eassumption|apply IH].
  - eapply nmSpace_trans; [|apply IH]. eapply nmSpace_trans; [apply addNames_other; eassumption|apply addNewest_other; assumption].
Qed.
Lemma loadSpaces_maps l : forall sc sc', NoDup (map fst l) -> loadSpaces sc l = Ret sc' ->
  (forall s ts es, In (s, (ts, es)) l ->
     exists nt ne, nmSpace (scTagMaps sc) nt s /\ nmSpace (scEdgeMaps sc) ne s /\ nmSpace (tagMaps s ts nt) (scTagMaps sc') s /\
       nmSpace (fst (edgeMaps s [] es ne [])) (scEdgeMaps sc') s /\ aget Z.eqb s (scAllEdges sc') = Some (snd (edgeMaps s [] es ne []))) /\
  (forall s, ~ In s (map fst l) -> nmSpace (scTagMaps sc) (scTagMaps sc') s /\ nmSpace (scEdgeMaps sc) (scEdgeMaps sc') s /\
       aget Z.eqb s (scAllEdges sc') = aget Z.eqb s (scAllEdges sc)).
Proof.
  induction l as [|[s [ts es]] l IH]; intros sc sc' N H; cbn [loadSpaces] in H.
  - apply Ret_inj in H. subst. split; [intros ? ? ? []|]. intros. splits; auto using nmSpace_refl.
  - cbn [map fst] in N. inversion N as [|? ? N1 N2]; subst. unfold loadSchemas in H. rewrite loadTags_split, loadEdges_split in H.
    destruct (storeAll (-1) ts []) as [mt| | |] eqn:Et; try discriminate. cbn [obind] in H. destruct (storeAll (-1) es []) as [me| | |] eqn:Ee; try discriminate. cbn [obind fst snd] in H.
    apply IH in H; auto. cbn [scTagMaps scEdgeMaps scAllEdges] in H. destruct H as [H1 H2]. split.
    + intros s' ts' es' [E | Hin].
      * injection E as <- <- <-. destruct (H2 s N1) as (G1 & G2 & G3). exists (scTagMaps sc), (scEdgeMaps sc). splits; auto using nmSpace_refl.
        rewrite G3. rewrite (aget_aset Z.eqb Z.eqb_eq), Z.eqb_refl. reflexivity.
      * assert (s' <> s). { intros ->. apply N1. apply (in_map fst) in Hin. exact Hin. }
        destruct (H1 s' ts' es' Hin) as (nt & ne & A & C & D & F & G). exists nt, ne. splits; auto.
        all: try (eapply nmSpace_trans; [|eassumption]; first [apply tagMaps_other; assumption|apply edgeMaps_other; assumption]).
    + intros s' Hs'. cbn in Hs'. destruct (H2 s') as (G1 & G2 & G3); [tauto|]. assert (s' <> s) by (intros ->; tauto). splits.
      all: try (eapply nmSpace_trans; [|eassumption]; first [apply tagMaps_other; assumption|apply edgeMaps_other; assumption]).
      rewrite G3, (aget_aset Z.eqb Z.eqb_eq). destruct (Z.eqb_spec s' s); [contradiction|reflexivity].
Qed.

(** * C60: the newest version *)
Lemma tagMaps_newest s id items : forall nm o, aget pkeyEqb (s, id) (nmNewest nm) = o ->
  match aget pkeyEqb (s, id) (nmNewest (tagMaps s items nm)) with
  | Some v => (o = Some v \/ exists it, In it items /\ itmId it = id /\ itmVer it = v) /\ (forall w, o = Some w -> w <= v) /\
              forall it, In it items -> itmId it = id -> itmVer it <= v
  | None => o = None /\ forall it, In it items -> itmId it <> id
  end.
Proof.
  induction items as [|it items IH]; intros nm o E; cbn [tagMaps fold_left].
  - unfold tagMaps. cbn [fold_left]. rewrite E. destruct o as [v|].
    + splits; auto; [intros w H; injection H as ->; lia|intros ? []].
    + split; [reflexivity|intros ? []].
  - specialize (IH (addNewest s (addNames s nm it) it) _ eq_refl). rewrite newest_get in IH. cbn [addNames nmNewest] in IH. fold (tagMaps s items (addNewest s (addNames s nm it) it)).
    assert (Hpk : pkeyEqb (s, id) (s, itmId it) = (id =? itmId it)) by (unfold pkeyEqb; cbn; rewrite Z.eqb_refl; reflexivity). rewrite Hpk in IH.
    set (o' := if id =? itmId it then _ else _) in IH.
    destruct (aget pkeyEqb (s, id) (nmNewest (tagMaps s items (addNewest s (addNames s nm it) it)))) as [v|].
    + destruct IH as (H1 & H2 & H3). subst o'. destruct (Z.eqb_spec id (itmId it)) as [-> | Hne].
      * rewrite E in *. specialize (H2 _ eq_refl). splits.
        -- destruct H1 as [H1 | (x & Hx & Hi & Hv)]; [|right; exists x; cbn; auto]. injection H1 as H1. destruct o as [w|]; [|right; exists it; cbn; auto].
           destruct (Z.max_spec w (itmVer it)) as [[? Q] | [? Q]]; rewrite Q in H1; [right; exists it; cbn; auto|left; congruence].
        -- intros w ->. lia.
        -- intros x [<- | Hx] Hi; [destruct o; lia|apply H3; assumption].
      * rewrite E in *. splits; auto.
        -- destruct H1 as [H1 | (x & Hx & Hi & Hv)]; [left; assumption|right; exists x; cbn; auto].
        -- intros x [<- | Hx] Hi; [congruence|apply H3; assumption].
    + destruct IH as (H1 & H2). subst o'. destruct (Z.eqb_spec id (itmId it)) as [-> | Hne]; [discriminate H1|]. rewrite E in H1. split; [assumption|].
      intros x [<- | Hx]; [congruence|apply H2; assumption].
Qed.

(** For tags the newest version reported is the largest received, whatever the order of the items. *)
Theorem C60_tag_latest_is_max : forall l sc, NoDup (map fst l) -> loadAll l = Ret sc ->
  forall s ts es, In (s, (ts, es)) l -> forall id,
    (forall v, latestVersion (scTagMaps sc) s id = Some v <-> maxVersion ts id v) /\
    (latestVersion (scTagMaps sc) s id = None <-> forall it, In it ts -> itmId it <> id).
Proof.
  intros l sc N H s ts es Hin id. destruct (loadSpaces_maps l emptySchemaCache sc N H) as [H1 _]. destruct (H1 s ts es Hin) as (nt & ne & A & _ & D & _).
  unfold latestVersion. destruct D as (D1 & _ & _). rewrite D1. pose proof (tagMaps_newest s id ts nt None) as T.
  assert (E : aget pkeyEqb (s, id) (nmNewest nt) = None) by (destruct A as (A1 & _); rewrite A1; reflexivity). specialize (T E).
  destruct (aget pkeyEqb (s, id) (nmNewest (tagMaps s ts nt))) as [v|].
  - destruct T as ([T1 | T1] & _ & T3); [discriminate|]. split.
    + intros v'. split; [intros X; injection X as <-; split; assumption|]. intros [(it & Hi & Hid & Hv) Hm]. f_equal. destruct T1 as (it' & Hi' & Hid' & Hv').
      pose proof (T3 it Hi Hid). pose proof (Hm it' Hi' Hid'). lia.
    + split; [discriminate|]. intros Hn. destruct T1 as (it' & Hi' & Hid' & Hv'). exfalso. exact (Hn it' Hi' Hid').
  - destruct T as (_ & T). split.
    + intros v. split; [discriminate|]. intros [(it & Hi & Hid & Hv) _]. exfalso. exact (T it Hi Hid).
    + split; auto.
Qed.

Lemma edgeMaps_newest s id items : forall seen nm all,
  (existsb (Z.eqb id) seen = true -> aget pkeyEqb (s, id) (nmNewest (fst (edgeMaps s seen items nm all))) = aget pkeyEqb (s, id) (nmNewest nm)) /\
  (existsb (Z.eqb id) seen = false -> aget pkeyEqb (s, id) (nmNewest nm) = None ->
   match aget pkeyEqb (s, id) (nmNewest (fst (edgeMaps s seen items nm all))) with
   | Some v => exists it, firstItem items id it /\ itmVer it = v
   | None => forall it, In it items -> itmId it <> id
   end).
Proof.
  induction items as [|it items IH]; intros seen nm all; cbn [edgeMaps].
  - split; [reflexivity|]. cbn. intros _ ->. intros ? [].
  - assert (Hpk : pkeyEqb (s, id) (s, itmId it) = (id =? itmId it)) by (unfold pkeyEqb; cbn; rewrite Z.eqb_refl; reflexivity).
    assert (Hlater : forall x, itmId it <> id -> firstItem items id x -> firstItem (it :: items) id x).
    { intros x Hne (a & b & -> & Hx & Ha). exists (it :: a), b. splits; auto. intros y [<- | Hy]; auto. }
    destruct (existsb (Z.eqb (itmId it)) seen) eqn:Es.
    + destruct (IH seen (addNames s nm it) all) as [I1 I2]. split.
      * intros Hs. rewrite I1 by assumption. reflexivity.
      * intros Hs Hn. assert (Hne : itmId it <> id) by (intros <-; congruence). specialize (I2 Hs Hn).
        destruct (aget _ _ (nmNewest (fst _))) as [v|].
        -- destruct I2 as (x & Hx & Hv). exists x. auto.
        -- intros x [<- | Hx]; auto.
    + destruct (IH (itmId it :: seen) (addNewest s (addNames s nm it) it) (all ++ [itmName it])) as [I1 I2].
      rewrite newest_get, Hpk in I1. rewrite newest_get, Hpk in I2. cbn [existsb addNames nmNewest] in I1, I2. split.
      * intros Hs. rewrite Hs, orb_true_r in I1. rewrite I1 by reflexivity. destruct (Z.eqb_spec id (itmId it)) as [-> |]; [congruence|reflexivity].
      * intros Hs Hn. destruct (Z.eqb_spec id (itmId it)) as [-> | Hne].
        -- rewrite I1 by reflexivity. rewrite Hn. exists it. split; [|reflexivity]. exists [], items. splits; auto.
        -- rewrite Hs in I2. specialize (I2 eq_refl Hn). destruct (aget _ _ (nmNewest (fst _))) as [v|].
           ++ destruct I2 as (x & Hx & Hv). exists x. auto.
           ++ intros x [<- | Hx]; auto.
Qed.
Lemma firstItem_unique items id x y : firstItem items id x -> firstItem items id y -> x = y.
Proof.
  intros (a & b & -> & Hx & Ha) (a' & b' & E & Hy & Ha'). revert a' E Ha'. induction a as [|z a IH]; intros [|z' a'] E Ha'; cbn in E.
  - injection E as -> _. reflexivity.
  - injection E as -> _. exfalso. apply (Ha' z'); [left; reflexivity|assumption].
  - injection E as <- _. exfalso. apply (Ha z); [left; reflexivity|assumption].
  - injection E as _ E. eapply IH; eauto; intros w Hw; [apply Ha|apply Ha']; right; assumption.
Qed.
Lemma firstItem_In items id it : firstItem items id it -> In it items.
Proof. intros (a & b & -> & _). apply in_elt. Qed.
Lemma firstItem_ex items id : forall it, In it items -> itmId it = id -> exists f, firstItem items id f.
Proof.
  induction items as [|x items IH]; intros it; [intros []|]. destruct (Z.eq_dec (itmId x) id) as [E | E].
  - intros _ _. exists x, [], items. splits; auto.
  - intros [<- | Hin] Hid; [congruence|]. destruct (IH it Hin Hid) as (f & a & b & -> & Hf & Ha). exists f, (x :: a), b. splits; auto. intros y [<- | Hy]; auto.
Qed.

(** For edges it is the version of the first item received, ... *)
Theorem C60_edge_latest_is_first : forall l sc, NoDup (map fst l) -> loadAll l = Ret sc ->
  forall s ts es, In (s, (ts, es)) l -> forall id,
    (forall v, latestVersion (scEdgeMaps sc) s id = Some v <-> exists it, firstItem es id it /\ itmVer it = v) /\
    (latestVersion (scEdgeMaps sc) s id = None <-> forall it, In it es -> itmId it <> id).
Proof.
  intros l sc N H s ts es Hin id. destruct (loadSpaces_maps l emptySchemaCache sc N H) as [H1 _]. destruct (H1 s ts es Hin) as (nt & ne & _ & A & _ & D & _).
  unfold latestVersion. destruct D as (D1 & _ & _). rewrite D1. destruct (edgeMaps_newest s id es [] ne []) as [_ T].
  assert (E : aget pkeyEqb (s, id) (nmNewest ne) = None) by (destruct A as (A1 & _); rewrite A1; reflexivity). specialize (T eq_refl E).
  destruct (aget pkeyEqb (s, id) (nmNewest (fst (edgeMaps s [] es ne [])))) as [v|].
  - destruct T as (f & Hf & Hv). split.
    + intros v'. split; [intros X; injection X as <-; eauto|]. intros (f' & Hf' & Hv'). rewrite (firstItem_unique es id f f' Hf Hf') in Hv. congruence.
    + split; [discriminate|]. intros Hn. exfalso. apply (Hn f); [eapply firstItem_In; eassumption|]. destruct Hf as (? & ? & ? & ? & ?). assumption.
  - split.
    + intros v'. split; [discriminate|]. intros (f & Hf & _). exfalso. apply (T f); [eapply firstItem_In; eassumption|]. destruct Hf as (? & ? & ? & ? & ?). assumption.
    + split; auto.
Qed.

Lemma vset_length i x v : (i < List.length v)%nat -> List.length (vset i x v) = List.length v.
Proof. intros H. unfold vset. rewrite app_length, firstn_length. cbn [List.length]. rewrite skipn_length. lia. Qed.
Lemma vset_nth i x v n : (i < List.length v)%nat -> nth n (vset i x v) None = if (n =? i)%nat then x else nth n v None.
Proof.
  unfold vset. revert i n. induction v as [|y v IH]; intros i n H; cbn in H; [lia|]. destruct i as [|i].
  - cbn. destruct n; reflexivity.
  - cbn [firstn skipn app]. destruct n as [|n]; [reflexivity|]. cbn [nth]. rewrite IH by lia. reflexivity.
Qed.
Lemma vresize_length n v : List.length (vresize n v) = n.
Proof. unfold vresize. rewrite app_length, firstn_length, repeat_length. lia. Qed.
Lemma vresize_nil n : vresize n [] = repeat None n.
Proof. unfold vresize. rewrite firstn_nil. cbn. f_equal. lia. Qed.

Definition vecOf (m : schemas) (id : Z) : schemaVec := match aget Z.eqb id m with Some v => v | None => [] end.
Lemma storeSchema_inv last m it m' : storeSchema last m it = Ret m' ->
  exists p v, built (itmVer it) (itmCols it) p /\ 0 <= itmVer it < Z.of_nat (List.length v) /\
    m' = aset Z.eqb (itmId it) (vset (Z.to_nat (itmVer it)) (Some p) v) m /\
    ((itmId it = last /\ v = vecOf m (itmId it)) \/ (itmId it <> last /\ v = vresize (Z.to_nat (itmVer it + 1)) (vecOf m (itmId it)))).
Proof.
  unfold storeSchema, built. destruct (addColumns (newProvider (itmVer it)) (itmCols it)) as [p| | |]; try discriminate. cbn [obind]. fold (vecOf m (itmId it)).
  destruct (Z.eqb_spec (itmId it) last) as [El | El]; cbn [obind].
  - destruct (Z.leb_spec 0 (itmVer it)); [|discriminate]. destruct (Z.ltb_spec (itmVer it) (Z.of_nat (List.length (vecOf m (itmId it))))); [|discriminate]. cbn [andb].
    intros H1. apply Ret_inj in H1. subst m'. exists p, (vecOf m (itmId it)). splits; auto.
  - destruct (itmVer it =? int64_max) eqn:Ev; [discriminate|]. destruct (Z.leb_spec (u64 (itmVer it + 1)) vecMax) as [Hb|]; [|discriminate]. cbn [obind].
    destruct (Z.leb_spec 0 (itmVer it)); [|discriminate]. rewrite vresize_length. cbn [andb].
    destruct (Z.ltb_spec (itmVer it) (Z.of_nat (Z.to_nat (u64 (itmVer it + 1))))) as [Hv|]; [|discriminate].
    intros H1. apply Ret_inj in H1. subst m'.
    assert (Eu : u64 (itmVer it + 1) = itmVer it + 1).
    { unfold u64, vecMax in *. rewrite Z2Nat.id in Hv by (apply Z.mod_pos_bound; lia). apply Z.mod_small.
      pose proof (Z.mod_pos_bound (itmVer it + 1) 18446744073709551616 ltac:(lia)). split; [lia|].
      destruct (Z.ltb_spec (itmVer it + 1) 18446744073709551616); [assumption|exfalso; lia]. }
    rewrite Eu in *. exists p, (vresize (Z.to_nat (itmVer it + 1)) (vecOf m (itmId it))). rewrite vresize_length. splits; auto; lia.
Qed.
Lemma inRuns_tail x l : inRuns (x :: l) -> inRuns l.
Proof. intros H i j k a b c Hk Ha Hb Hc. apply (H (S i) (S j) (S k) a b c); auto; lia. Qed.
Lemma run_bound x b : forall last m m' L, last = itmId x -> storeAll last b m = Ret m' -> inRuns (x :: b) -> Z.of_nat (List.length (vecOf m (itmId x))) = L ->
  forall y, In y b -> itmId y = itmId x -> itmVer y < L.
Proof.
  revert x. induction b as [|z b IH]; intros x last m m' L El H R HL y Hy Hid; [destruct Hy|]. subst last. cbn [storeAll] in H.
  destruct (storeSchema (itmId x) m z) as [m1| | |] eqn:E; try discriminate. cbn [obind] in H.
  apply storeSchema_inv in E. destruct E as (p & v & Hb & Hr & -> & Hv).
  destruct (Z.eq_dec (itmId z) (itmId x)) as [Ez | Ez].
  - destruct Hv as [[_ ->] | [Hv _]]; [|contradiction]. rewrite Ez in *. destruct Hy as [<- | Hy]; [lia|].
    refine (IH z (itmId x) _ m' L _ H _ _ y Hy _); try congruence.
    + eapply inRuns_tail; eassumption.
    + unfold vecOf at 1. rewrite Ez, (aget_aset Z.eqb Z.eqb_eq), Z.eqb_refl. rewrite vset_length; [assumption|]. lia.
  - exfalso. destruct Hy as [<- | Hy]; [contradiction|]. apply In_nth_error in Hy. destruct Hy as [n Hn].
    apply Ez. apply (R 0%nat (S (S n)) 1%nat x y z); auto. lia.
Qed.
Lemma last_default {A} (l : list A) : forall y d d', List.last (y :: l) d = List.last (y :: l) d'.
Proof. induction l as [|a l IH]; intros y d d'; [reflexivity|]. exact (IH a d d'). Qed.
Lemma storeAll_app a : forall last b m m', storeAll last (a ++ b) m = Ret m' ->
  exists m1, storeAll last a m = Ret m1 /\ storeAll (List.last (map itmId a) last) b m1 = Ret m'.
Proof.
  induction a as [|x a IH]; intros last b m m' H; cbn [app storeAll] in *; [eauto|].
  destruct (storeSchema last m x) as [m1| | |]; try discriminate. cbn [obind] in *. destruct (IH _ _ _ _ H) as (m2 & H1 & H2). exists m2. split; [assumption|].
  destruct a as [|y a]; [exact H2|]. replace (List.last (map itmId (x :: y :: a)) last) with (List.last (map itmId (y :: a)) (itmId x)); [exact H2|].
  cbn [map]. change (List.last (itmId x :: itmId y :: map itmId a) last) with (List.last (itmId y :: map itmId a) last). apply last_default.
Qed.
Lemma last_In {A} (l : list A) d : l <> [] -> In (List.last l d) l.
Proof. induction l as [|x [|y l] IH]; intros H; [congruence|left; reflexivity|]. right. apply IH. discriminate. Qed.
Lemma storeAll_none a : forall last m m' id, storeAll last a m = Ret m' -> (forall x, In x a -> itmId x <> id) -> aget Z.eqb id m' = aget Z.eqb id m.
Proof.
  induction a as [|x a IH]; intros last m m' id H Hn; cbn [storeAll] in H; [apply Ret_inj in H; subst; reflexivity|].
  destruct (storeSchema last m x) as [m1| | |] eqn:E; try discriminate. cbn [obind] in H. rewrite (IH _ _ _ id H) by (intros; apply Hn; right; assumption).
  apply storeSchema_inv in E. destruct E as (p & v & _ & _ & -> & _). rewrite (aget_aset Z.eqb Z.eqb_eq). destruct (Z.eqb_spec id (itmId x)) as [-> |]; [|reflexivity].
  exfalso. apply (Hn x); [left|]; reflexivity.
Qed.
Lemma store_first_max items m : storeAll (-1) items [] = Ret m -> inRuns items -> forall id f, firstItem items id f -> forall x, In x items -> itmId x = id -> itmVer x <= itmVer f.
Proof.
  intros H R id f (a & b & -> & Hf & Ha) x Hx Hid. apply storeAll_app in H. destruct H as (m1 & H1 & H2).
  apply in_app_or in Hx. destruct Hx as [Hx | [<- | Hx]]; [exfalso; exact (Ha x Hx Hid)|lia|].
  cbn [storeAll] in H2. destruct (storeSchema _ m1 f) as [m2| | |] eqn:E; try discriminate. cbn [obind] in H2.
  pose proof (storeAll_none _ _ _ _ id H1 Ha) as Hnone. cbn in Hnone.
  apply storeSchema_inv in E. destruct E as (p & v & _ & Hr & -> & Hv). unfold vecOf in Hv. rewrite Hf, Hnone in Hv.
  destruct Hv as [[_ ->] | [_ ->]]; [cbn in Hr; lia|]. rewrite vresize_length in Hr.
  assert (itmVer x < itmVer f + 1); [|lia].
  apply (run_bound f b (itmId f) (aset Z.eqb (itmId f) (vset (Z.to_nat (itmVer f)) (Some p) (vresize (Z.to_nat (itmVer f + 1)) [])) m1) m (itmVer f + 1)); auto; [| |congruence].
  - clear - R. induction a as [|y a IH]; [exact R|]. apply IH. eapply inRuns_tail; exact R.
  - unfold vecOf. rewrite (aget_aset Z.eqb Z.eqb_eq), Z.eqb_refl, vset_length, vresize_length by (rewrite vresize_length; lia). lia.
Qed.

(** ... which is the largest one when the items of each edge come in a row. (Out of order inside a run, loading
    writes outside the vector and does not return.) *)
Theorem C60_edge_latest_is_max : forall l sc, NoDup (map fst l) -> loadAll l = Ret sc ->
  forall s ts es, In (s, (ts, es)) l -> inRuns es -> forall id v, latestVersion (scEdgeMaps sc) s id = Some v <-> maxVersion es id v.
Proof.
  intros l sc N H s ts es Hin R id v. destruct (C60_edge_latest_is_first l sc N H s ts es Hin id) as [F _]. rewrite F.
  destruct (loadSpaces_tags l emptySchemaCache sc N H) as [T _]; [intros; split; reflexivity|].
  destruct (T s ts es Hin) as (_ & m & Hm & _). split.
  - intros (it & Hf & Hv). split.
    + exists it. splits; auto; [eapply firstItem_In; eassumption|destruct Hf as (? & ? & ? & ? & ?); assumption].
    + intros x Hx Hid. rewrite <- Hv. eapply store_first_max; eassumption.
  - intros [(it & Hi & Hid & Hv) Hm2]. destruct (firstItem_ex es id it Hi Hid) as (f & Hf). exists f. split; [assumption|].
    pose proof (store_first_max es m Hm R id f Hf it Hi Hid). assert (itmId f = id) by (destruct Hf as (? & ? & ? & ? & ?); assumption).
    pose proof (Hm2 f (firstItem_In _ _ _ Hf) ltac:(assumption)). lia.
Qed.

(** False as stated for edges: with the items of another edge in between, a later and newer version is not
    noticed, although its schema is stored and returned. *)
Definition exE (id ver : Z) : item := mkItem id (if id =? 1 then B "e1" else B "e2") ver [mkCol (B "a") PInt64 None None].
Theorem C60_edge_latest_refuted : exists es sc, loadAll [(7, ([], es))] = Ret sc /\ maxVersion es 1 1 /\
  latestVersion (scEdgeMaps sc) 7 1 = Some 0 /\ schemaFromCache (scEdges sc) 7 1 1 <> None.
Proof.
  exists [exE 1 0; exE 2 0; exE 1 1]. eexists. split; [vm_compute; reflexivity|]. split.
  - split; [exists (exE 1 1); cbn; auto|]. intros it [<- | [<- | [<- | []]]]; cbn; lia.
  - split; [vm_compute; reflexivity|]. vm_compute. discriminate.
Qed.
(** The same items as tags are handled. *)
Example C60_ex : exists sc, loadAll [(7, ([exE 1 0; exE 2 0; exE 1 1], [exE 1 2; exE 1 1; exE 2 0])); (8, ([], [exE 1 5]))] = Ret sc /\
  latestVersion (scTagMaps sc) 7 1 = Some 1 /\ latestVersion (scEdgeMaps sc) 7 1 = Some 2 /\ latestVersion (scEdgeMaps sc) 8 1 = Some 5.
Proof. eexists. split; [vm_compute; reflexivity|]. splits; vm_compute; reflexivity. Qed.

(** * C70: the schema of a version *)
Lemma addColumns_ok ver cs : proper cs -> exists p, built ver cs p.
Proof. intros [Hw Ht]. pose proof (total_length cs Hw). eexists. unfold built. rewrite addColumns_layout; cbn; auto; lia. Qed.
Lemma built_fun ver cs p q : built ver cs p -> built ver cs q -> p = q.
Proof. unfold built. intros H1 H2. rewrite H1 in H2. apply Ret_inj in H2. assumption. Qed.
Definition holds (done : list item) (id : Z) (v : schemaVec) : Prop :=
  forall n p, nth n v None = Some p <-> exists x, In x done /\ itmId x = id /\ itmVer x = Z.of_nat n /\ built (itmVer x) (itmCols x) p.
Definition good (done : list item) (m : schemas) : Prop := forall id,
  match aget Z.eqb id m with
  | None => forall x, In x done -> itmId x <> id
  | Some v => exists f, firstItem done id f /\ Z.of_nat (List.length v) = itmVer f + 1 /\ holds done id v
  end.
Lemma storeSchema_ok last m it p v : built (itmVer it) (itmCols it) p -> 0 <= itmVer it < vecMax ->
  v = (if itmId it =? last then vecOf m (itmId it) else vresize (Z.to_nat (itmVer it + 1)) (vecOf m (itmId it))) ->
  itmVer it < Z.of_nat (List.length v) ->
  storeSchema last m it = Ret (aset Z.eqb (itmId it) (vset (Z.to_nat (itmVer it)) (Some p) v) m).
Proof.
  intros Hb Hr Hv Hl. unfold storeSchema. unfold built in Hb. rewrite Hb. cbn [obind]. fold (vecOf m (itmId it)).
  assert (Hg : (0 <=? itmVer it) && (itmVer it <? Z.of_nat (List.length v)) = true) by (apply andb_true_iff; split; [apply Z.leb_le; lia|apply Z.ltb_lt; lia]).
  unfold vecMax in *. destruct (Z.eqb_spec (itmId it) last); cbn [obind].
  - subst v. rewrite Hg. reflexivity.
  - destruct (Z.eqb_spec (itmVer it) int64_max); [unfold int64_max in *; lia|].
    assert (Eu : u64 (itmVer it + 1) = itmVer it + 1) by (unfold u64; apply Z.mod_small; lia). rewrite Eu.
    destruct (Z.leb_spec (itmVer it + 1) 576460752303423487); [|lia]. cbn [obind]. rewrite <- Hv, Hg. reflexivity.
Qed.
Lemma firstItem_app done x id f : firstItem done id f -> firstItem (done ++ [x]) id f.
Proof. intros (a & b & -> & Hf & Ha). exists a, (b ++ [x]). splits; auto. rewrite <- app_assoc. reflexivity. Qed.
Lemma nth_error_mid {A} (a b : list A) x : nth_error (a ++ x :: b) (List.length a) = Some x.
Proof. rewrite nth_error_app2 by lia. rewrite Nat.sub_diag. reflexivity. Qed.
Lemma storeAll_good rest : forall done m, newToOld (done ++ rest) -> usable (done ++ rest) -> good done m ->
  exists m', storeAll (List.last (map itmId done) (-1)) rest m = Ret m' /\ good (done ++ rest) m'.
Proof.
  induction rest as [|it rest IH]; intros done m O U G; cbn [storeAll].
  - exists m. rewrite app_nil_r. auto.
  - assert (Uit : itmId it <> -1 /\ 0 <= itmVer it < vecMax /\ proper (itmCols it)).
    { unfold usable in U. rewrite Forall_forall in U. apply U. apply in_elt. }
    destruct Uit as (U1 & U2 & U3). destruct (addColumns_ok (itmVer it) (itmCols it) U3) as [p Hp].
    assert (Hlast : forall x, In x done -> itmId x = itmId it -> List.last (map itmId done) (-1) = itmId it /\ itmVer it < itmVer x).
    { intros x Hx Hid. apply In_nth_error in Hx. destruct Hx as [i Hi]. assert (Hi' : (i < List.length done)%nat) by (apply nth_error_Some; congruence).
      assert (Hia : nth_error (done ++ it :: rest) i = Some x) by (rewrite nth_error_app1; assumption).
      pose proof (nth_error_mid done rest it) as Hit. destruct O as [R O]. split; [|exact (O i (List.length done) x it Hi' Hia Hit Hid)].
      destruct (exists_last (l := done)) as (d & y & Ey); [intros ->; destruct i; discriminate|].
      rewrite Ey, map_app. cbn [map]. rewrite last_last. destruct (Nat.eq_dec i (List.length d)) as [Q | Q].
      - rewrite Ey in Hi. rewrite nth_error_app2 in Hi by lia. replace (i - List.length d)%nat with 0%nat in Hi by lia. injection Hi as ->. assumption.
      - transitivity (itmId x); [|assumption]. apply (R i (List.length done) (List.length d) x it y); auto.
        + rewrite Ey, app_length in *. cbn in *. lia.
        + rewrite Ey, <- app_assoc. apply nth_error_mid. }
    set (v := if itmId it =? List.last (map itmId done) (-1) then vecOf m (itmId it) else vresize (Z.to_nat (itmVer it + 1)) (vecOf m (itmId it))).
    assert (Gi := G (itmId it)).
    assert (Hv : itmVer it < Z.of_nat (List.length v) /\ (exists f, firstItem (done ++ [it]) (itmId it) f /\ Z.of_nat (List.length v) = itmVer f + 1) /\ holds done (itmId it) v /\
                 forall x, In x done -> itmId x = itmId it -> itmVer x <> itmVer it).
    { unfold v, vecOf. destruct (aget Z.eqb (itmId it) m) as [w|].
      - destruct Gi as (f & Hf & Hl & Hh). assert (Hfi : itmId f = itmId it) by (destruct Hf as (? & ? & ? & ? & ?); assumption).
        destruct (Hlast f (firstItem_In _ _ _ Hf) Hfi) as [E1 E2]. rewrite E1, Z.eqb_refl. splits; auto; [lia| |].
        + exists f. split; [apply firstItem_app; assumption|assumption].
        + intros x Hx Hid. destruct (Hlast x Hx Hid). lia.
      - destruct (Z.eqb_spec (itmId it) (List.last (map itmId done) (-1))) as [E | E].
        + exfalso. destruct done as [|d done]; [cbn in E; congruence|]. assert (In (itmId it) (map itmId (d :: done))).
          { rewrite E. apply last_In. discriminate. }
          apply in_map_iff in H. destruct H as (x & Hx1 & Hx2). exact (Gi x Hx2 Hx1).
        + rewrite vresize_length, vresize_nil. splits; auto; [lia| | |].
          * exists it. split; [|lia]. exists done, []. splits; auto.
          * intros n q. split; [|intros (x & Hx & Hid & _); exfalso; exact (Gi x Hx Hid)].
            intros Hn. exfalso. assert (Hin : In (Some q) (repeat (@None provider) (Z.to_nat (itmVer it + 1)))).
            { rewrite <- Hn. apply nth_In. apply Nat.nle_gt. intros Hle. rewrite (nth_overflow _ None Hle) in Hn. discriminate Hn. }
            apply repeat_spec in Hin. discriminate Hin.
          * intros x Hx Hid. exfalso. exact (Gi x Hx Hid). }
    destruct Hv as (V1 & V2 & V3 & V4).
    rewrite (storeSchema_ok _ m it p v Hp U2 eq_refl V1). cbn [obind].
    specialize (IH (done ++ [it]) (aset Z.eqb (itmId it) (vset (Z.to_nat (itmVer it)) (Some p) v) m)). rewrite <- app_assoc in IH. cbn [app] in IH.
    rewrite map_app in IH. cbn [map] in IH. rewrite last_last in IH. apply IH; auto.
    intros id. rewrite (aget_aset Z.eqb Z.eqb_eq). destruct (Z.eqb_spec id (itmId it)) as [-> | Hne].
    + destruct V2 as (f & F1 & F2). exists f. split; [assumption|]. rewrite vset_length by lia. split; [assumption|].
      intros n q. rewrite vset_nth by lia. destruct (Nat.eqb_spec n (Z.to_nat (itmVer it))) as [-> | Hn].
      * split.
        -- intros X. injection X as <-. exists it. splits; auto; [apply in_elt|lia].
        -- intros (x & Hx & Hid & Hver & Hb). f_equal. apply in_app_or in Hx. destruct Hx as [Hx | [<- | []]]; [|eapply built_fun; eassumption].
           exfalso. apply (V4 x Hx Hid). lia.
      * rewrite (V3 n q). split; intros (x & Hx & Hid & Hver & Hb); exists x; splits; auto; [apply in_or_app; auto|].
        apply in_app_or in Hx. destruct Hx as [Hx | [<- | []]]; [assumption|lia].
    + specialize (G id). destruct (aget Z.eqb id m) as [w|].
      * destruct G as (f & F1 & F2 & F3). exists f. splits; auto; [apply firstItem_app; assumption|]. intros n q. rewrite (F3 n q).
        split; intros (x & Hx & Hr); exists x; (split; [|assumption]); [apply in_or_app; auto|]. apply in_app_or in Hx. destruct Hx as [Hx | [<- | []]]; [assumption|]. destruct Hr as [Hr _]. congruence.
      * intros x Hx. apply in_app_or in Hx. destruct Hx as [Hx | [<- | []]]; [apply G; assumption|congruence].
Qed.
Lemma storeAll_items items : newToOld items -> usable items -> exists m, storeAll (-1) items [] = Ret m /\ good items m.
Proof. intros O U. apply (storeAll_good items [] []); auto. intros id. cbn. intros x []. Qed.

(** When the meta service answers in the documented order, loading succeeds (no write outside a vector). *)
Theorem C70_loads : forall l, NoDup (map fst l) ->
  Forall (fun e => newToOld (fst (snd e)) /\ usable (fst (snd e)) /\ newToOld (snd (snd e)) /\ usable (snd (snd e))) l -> exists sc, loadAll l = Ret sc.
Proof.
  intros l _ H. unfold loadAll. generalize emptySchemaCache. induction H as [|[s [ts es]] l (H1 & H2 & H3 & H4) _ IH]; intros sc; [exists sc; reflexivity|].
  cbn [loadSpaces]. unfold loadSchemas. rewrite loadTags_split, loadEdges_split. cbn [fst snd] in *.
  destruct (storeAll_items ts H1 H2) as (mt & -> & _). destruct (storeAll_items es H3 H4) as (me & -> & _). cbn [obind]. apply IH.
Qed.

Lemma nth_vec_last (v : schemaVec) : last v None = nth (List.length v - 1) v None.
Proof. induction v as [|x [|y v] IH]; try reflexivity. change (last (x :: y :: v) None) with (last (y :: v) None). rewrite IH. cbn [List.length]. rewrite !Nat.sub_succ, !Nat.sub_0_r. reflexivity. Qed.
Lemma good_lookup c s items m id : aget Z.eqb s c = Some m -> good items m -> newToOld items -> usable items ->
  (forall ver p, 0 <= ver -> schemaFromCache c s id ver = Some p <-> exists x, In x items /\ itmId x = id /\ itmVer x = ver /\ built ver (itmCols x) p) /\
  (forall ver p, ver < 0 -> schemaFromCache c s id ver = Some p <-> exists x, In x items /\ itmId x = id /\ maxVersion items id (itmVer x) /\ built (itmVer x) (itmCols x) p).
Proof.
  intros Hc G O U. unfold schemaFromCache. rewrite Hc. specialize (G id). destruct (aget Z.eqb id m) as [v|].
  - destruct G as (f & Hf & Hl & Hh). assert (Hfi : itmId f = id) by (destruct Hf as (? & ? & ? & ? & ?); assumption). pose proof (firstItem_In _ _ _ Hf) as Hfin.
    assert (Uf : 0 <= itmVer f). { unfold usable in U. rewrite Forall_forall in U. destruct (U f Hfin) as (_ & ? & _). lia. }
    assert (Hmax : forall x, In x items -> itmId x = id -> itmVer x <= itmVer f).
    { intros x Hx Hid. destruct (storeAll_items items O U) as (m' & Hm' & _). eapply store_first_max; try eassumption. apply O. }
    destruct (Nat.eqb_spec (List.length v) 0) as [E0 | E0]; [lia|]. split; intros ver p Hver.
    + destruct (Z.ltb_spec ver (Z.of_nat (List.length v))) as [Hlt | Hge].
      * destruct (Z.ltb_spec ver 0); [lia|]. rewrite (Hh (Z.to_nat ver) p). rewrite Z2Nat.id by assumption.
        split; intros (x & H1 & H2 & H3 & H4); exists x; splits; auto; congruence.
      * split; [discriminate|]. intros (x & H1 & H2 & H3 & H4). pose proof (Hmax x H1 H2). lia.
    + destruct (Z.ltb_spec ver (Z.of_nat (List.length v))); [|lia]. destruct (Z.ltb_spec ver 0); [|lia]. rewrite nth_vec_last, (Hh _ p).
      replace (Z.of_nat (List.length v - 1)) with (itmVer f) by lia.
      split; intros (x & H1 & H2 & H3 & H4); exists x; splits; auto.
      * split; [exists x; auto|]. intros y Hy Hyid. rewrite H3. apply Hmax; assumption.
      * destruct H3 as [_ H3]. pose proof (H3 f Hfin Hfi). pose proof (Hmax x H1 H2). lia.
  - split; intros ver p _; split; try discriminate; intros (x & H1 & H2 & _); exfalso; exact (G x H1 H2).
Qed.

(** Asking the cache for a version gives the schema received with that version and nothing else; asking for a
    negative version gives the schema of the largest version. *)
Definition looksUp (items : list item) (look : Z -> Z -> option provider) : Prop := forall id,
  (forall ver p, 0 <= ver -> look id ver = Some p <-> exists x, In x items /\ itmId x = id /\ itmVer x = ver /\ built ver (itmCols x) p) /\
  (forall ver p, ver < 0 -> look id ver = Some p <-> exists x, In x items /\ itmId x = id /\ maxVersion items id (itmVer x) /\ built (itmVer x) (itmCols x) p).
Theorem C70_tag_schemas : forall l sc, NoDup (map fst l) -> loadAll l = Ret sc -> forall s ts es, In (s, (ts, es)) l -> newToOld ts -> usable ts ->
  looksUp ts (schemaFromCache (scTags sc) s) /\ looksUp ts (managerSchema (scTags sc) (scTagMaps sc) s).
Proof.
  intros l sc N H s ts es Hin O U. destruct (loadSpaces_tags l emptySchemaCache sc N H) as [T _]; [intros; split; reflexivity|].
  destruct (T s ts es Hin) as ((m & Hm & Hg) & _). destruct (storeAll_items ts O U) as (m' & Hm' & G). rewrite Hm in Hm'. apply Ret_inj in Hm'. subst m'.
  assert (A : looksUp ts (schemaFromCache (scTags sc) s)) by (intros id; exact (good_lookup _ s ts m id Hg G O U)).
  split; [exact A|]. intros id. destruct (A id) as [A1 A2]. unfold managerSchema. split; intros ver p Hver.
  - destruct (Z.ltb_spec ver 0); [lia|]. apply A1. assumption.
  - destruct (Z.ltb_spec ver 0); [|lia]. destruct (C60_tag_latest_is_max l sc N H s ts es Hin id) as [L1 L2].
    destruct (latestVersion (scTagMaps sc) s id) as [v|] eqn:E.
    + pose proof (proj1 (L1 v) eq_refl) as Hmv. assert (0 <= v). { destruct Hmv as [(x & Hx & _ & <-) _]. unfold usable in U. rewrite Forall_forall in U. destruct (U x Hx) as (_ & ? & _). lia. }
      rewrite A1 by assumption. split; intros (x & X1 & X2 & H3 & H4); exists x; splits; auto.
      * rewrite H3. assumption. 
      * rewrite H3. assumption.
      * pose proof (proj2 (L1 (itmVer x)) H3) as Q. congruence.
      * pose proof (proj2 (L1 (itmVer x)) H3) as Q. injection Q as ->. assumption.
    + split; [discriminate|]. intros (x & X1 & X2 & _). exfalso. exact (proj1 L2 eq_refl x X1 X2).
Qed.
Theorem C70_edge_schemas : forall l sc, NoDup (map fst l) -> loadAll l = Ret sc -> forall s ts es, In (s, (ts, es)) l -> newToOld es -> usable es ->
  looksUp es (schemaFromCache (scEdges sc) s) /\ looksUp es (managerSchema (scEdges sc) (scEdgeMaps sc) s).
Proof.
  intros l sc N H s ts es Hin O U. destruct (loadSpaces_tags l emptySchemaCache sc N H) as [T _]; [intros; split; reflexivity|].
  destruct (T s ts es Hin) as (_ & (m & Hm & Hg)). destruct (storeAll_items es O U) as (m' & Hm' & G). rewrite Hm in Hm'. apply Ret_inj in Hm'. subst m'.
  assert (A : looksUp es (schemaFromCache (scEdges sc) s)) by (intros id; exact (good_lookup _ s es m id Hg G O U)).
  split; [exact A|]. intros id. destruct (A id) as [A1 A2]. unfold managerSchema. split; intros ver p Hver.
  - destruct (Z.ltb_spec ver 0); [lia|]. apply A1. assumption.
  - destruct (Z.ltb_spec ver 0); [|lia]. pose proof (C60_edge_latest_is_max l sc N H s ts es Hin (proj1 O) id) as L1. destruct (C60_edge_latest_is_first l sc N H s ts es Hin id) as [_ L2].
    destruct (latestVersion (scEdgeMaps sc) s id) as [v|] eqn:E.
    + pose proof (proj1 (L1 v) eq_refl) as Hmv. assert (0 <= v). { destruct Hmv as [(x & Hx & _ & <-) _]. unfold usable in U. rewrite Forall_forall in U. destruct (U x Hx) as (_ & ? & _). lia. }
      rewrite A1 by assumption. split; intros (x & X1 & X2 & H3 & H4); exists x; splits; auto.
      * rewrite H3. assumption. 
      * rewrite H3. assumption.
      * pose proof (proj2 (L1 (itmVer x)) H3) as Q. congruence.
      * pose proof (proj2 (L1 (itmVer x)) H3) as Q. injection Q as ->. assumption.
    + split; [discriminate|]. intros (x & X1 & X2 & _). exfalso. exact (proj1 L2 eq_refl x X1 X2).
Qed.
Definition exItems : list item :=
  [mkItem 5 (B "t") 3 [mkCol (B "a") PInt64 None None; mkCol (B "b") PString None (Some true)]; mkItem 5 (B "t") 1 [mkCol (B "a") PInt64 None None];
   mkItem 6 (B "u") 0 []].
Lemma nth_error3 {A} (a b c : A) i x : nth_error [a; b; c] i = Some x -> (i = 0%nat /\ x = a) \/ (i = 1%nat /\ x = b) \/ (i = 2%nat /\ x = c).
Proof. destruct i as [|[|[|[|i]]]]; cbn; intros H; try discriminate; injection H as <-; auto. Qed.
Example C70_ex_order : newToOld exItems /\ usable exItems.
Proof.
  split; [split|].
  - intros i j k a b c Hk Ha Hb Hc. apply nth_error3 in Ha, Hb, Hc.
    destruct Ha as [[-> ->] | [[-> ->] | [-> ->]]], Hb as [[-> ->] | [[-> ->] | [-> ->]]], Hc as [[-> ->] | [[-> ->] | [-> ->]]]; cbn; auto; lia.
  - intros i j a b Hk Ha Hb. apply nth_error3 in Ha, Hb.
    destruct Ha as [[-> ->] | [[-> ->] | [-> ->]]], Hb as [[-> ->] | [[-> ->] | [-> ->]]]; cbn; intros; lia.
  - repeat constructor; cbn; try discriminate; try (unfold vecMax; lia); repeat constructor; discriminate.
Qed.
Example C70_ex : exists sc, loadAll [(9, (exItems, []))] = Ret sc /\
  option_map (fun p => List.length (pvFields p)) (schemaFromCache (scTags sc) 9 5 (-1)) = Some 2%nat /\
  option_map (fun p => List.length (pvFields p)) (schemaFromCache (scTags sc) 9 5 1) = Some 1%nat /\
  schemaFromCache (scTags sc) 9 5 0 = None /\ schemaFromCache (scTags sc) 9 5 4 = None.
Proof. eexists. split; [vm_compute; reflexivity|]. splits; vm_compute; reflexivity. Qed.
(** The order matters: with an older version first, the newer schema is written behind the end of the vector. *)
Theorem C70_old_to_new_refuted : exists ts, usable ts /\ inRuns ts /\ loadAll [(9, (ts, []))] = UB.
Proof.
  exists [exE 1 0; exE 1 1]. splits; [| |vm_compute; reflexivity].
  - repeat constructor; cbn; try discriminate; try (unfold vecMax; lia); repeat constructor; discriminate.
  - intros i j k a b c Hk Ha Hb Hc _. assert (j < List.length [exE 1 0; exE 1 1])%nat by (apply nth_error_Some; rewrite Hb; discriminate). cbn in *. lia.
Qed.

(** * C71: names and ids *)
Definition oneToOne (items : list item) : Prop := forall a b, In a items -> In b items -> (itmName a = itmName b <-> itmId a = itmId b).
Lemma names_fold s items : forall nm, 
  (forall n, aget skeyEqb (s, n) (nmIds (fold_left (addNames s) items nm)) =
     match aget skeyEqb (s, n) (nmIds nm) with Some v => Some v | None => option_map itmId (find (fun it => strEqb n (itmName it)) items) end) /\
  (forall id, aget pkeyEqb (s, id) (nmNames (fold_left (addNames s) items nm)) =
     match aget pkeyEqb (s, id) (nmNames nm) with Some v => Some v | None => option_map itmName (find (fun it => id =? itmId it) items) end).
Proof.
  induction items as [|it items IH]; intros nm; cbn [fold_left find option_map].
  - split; intros; match goal with |- ?a = _ => destruct a; reflexivity end.
  - destruct (IH (addNames s nm it)) as [I1 I2]. split; [intros n|intros id].
    + rewrite I1. cbn [addNames nmIds]. rewrite (aget_aadd skeyEqb skeyEqb_ok). assert (K : skeyEqb (s, n) (s, itmName it) = strEqb n (itmName it)) by (unfold skeyEqb; cbn; rewrite Z.eqb_refl; reflexivity).
      rewrite K. destruct (strEqb n (itmName it)) eqn:E; [|destruct (aget skeyEqb (s, itmName it) (nmIds nm)); destruct (aget skeyEqb (s, n) (nmIds nm)); reflexivity].
      apply strEqb_eq in E. subst n. destruct (aget skeyEqb (s, itmName it) (nmIds nm)) eqn:E2; reflexivity.
    + rewrite I2. cbn [addNames nmNames]. rewrite (aget_aadd pkeyEqb pkeyEqb_ok). assert (K : pkeyEqb (s, id) (s, itmId it) = (id =? itmId it)) by (unfold pkeyEqb; cbn; rewrite Z.eqb_refl; reflexivity).
      rewrite K. clear K. destruct (id =? itmId it) eqn:E; [|destruct (aget pkeyEqb (s, itmId it) (nmNames nm)); destruct (aget pkeyEqb (s, id) (nmNames nm)); reflexivity].
      apply Z.eqb_eq in E. subst id.
      destruct (aget pkeyEqb (s, itmId it) (nmNames nm)) eqn:E2; reflexivity.
Qed.
Definition sameNames (a b : nameMaps) : Prop := nmIds a = nmIds b /\ nmNames a = nmNames b.
Lemma addNames_same s it a b : sameNames a b -> sameNames (addNames s a it) (addNames s b it).
Proof. intros [H1 H2]. unfold sameNames. cbn. rewrite H1, H2. auto. Qed.
Lemma tagMaps_names s items : forall a b, sameNames a b -> sameNames (tagMaps s items a) (fold_left (addNames s) items b).
Proof. induction items as [|it items IH]; intros a b H; [exact H|]. cbn. apply IH. exact (addNames_same s it a b H). Qed.
Lemma edgeMaps_names s items : forall seen a b all, sameNames a b -> sameNames (fst (edgeMaps s seen items a all)) (fold_left (addNames s) items b).
Proof.
  induction items as [|it items IH]; intros seen a b all H; [exact H|]. cbn. destruct (existsb _ seen); apply IH; exact (addNames_same s it a b H).
Qed.
Definition inverseMaps (items : list item) (byName : str -> option Z) (byId : Z -> option str) : Prop :=
  (forall n id, byName n = Some id <-> exists it, In it items /\ itmName it = n /\ itmId it = id) /\
  (forall n id, byId id = Some n <-> exists it, In it items /\ itmName it = n /\ itmId it = id).
Lemma names_inverse s items nm nm' : oneToOne items -> nmSpace noNames nm s -> sameNames nm' (fold_left (addNames s) items nm) ->
  inverseMaps items (idByName nm' s) (nameById nm' s).
Proof.
  intros O (_ & A2 & A3) [S1 S2]. destruct (names_fold s items nm) as [I1 I2]. unfold idByName, nameById. rewrite S1, S2. split; intros n id.
  - rewrite I1, A3. cbn. destruct (find _ items) as [x|] eqn:E; cbn.
    + apply find_some in E. destruct E as [Hx E]. apply strEqb_eq in E. split.
      * intros H. injection H as <-. exists x. auto.
      * intros (it & Hi & Hn & Hid). f_equal. rewrite <- Hid. apply (O x it Hx Hi). congruence.
    + split; [discriminate|]. intros (it & Hi & Hn & Hid). pose proof (find_none _ _ E it Hi) as F. cbn in F. rewrite Hn, strEqb_refl in F. discriminate.
  - rewrite I2, A2. cbn. destruct (find _ items) as [x|] eqn:E; cbn.
    + apply find_some in E. destruct E as [Hx E]. apply Z.eqb_eq in E. split.
      * intros H. injection H as <-. exists x. auto.
      * intros (it & Hi & Hn & Hid). f_equal. rewrite <- Hn. apply (O x it Hx Hi). congruence.
    + split; [discriminate|]. intros (it & Hi & Hn & Hid). pose proof (find_none _ _ E it Hi) as F. cbn in F. rewrite Hid, Z.eqb_refl in F. discriminate.
Qed.
Lemma edgeMaps_all items : forall s seen nm all done, oneToOne (done ++ items) -> NoDup all ->
  (forall it, In it (done ++ items) -> existsb (Z.eqb (itmId it)) seen = true <-> In (itmName it) all) -> (forall n, In n all <-> exists it, In it done /\ itmName it = n) ->
  NoDup (snd (edgeMaps s seen items nm all)) /\ forall n, In n (snd (edgeMaps s seen items nm all)) <-> exists it, In it (done ++ items) /\ itmName it = n.
Proof.
  induction items as [|it items IH]; intros s seen nm all done O N Hs Ha; cbn [edgeMaps].
  - cbn. rewrite app_nil_r. auto.
  - assert (Hit : In it (done ++ it :: items)) by apply in_elt. specialize (IH s).
    assert (App : done ++ it :: items = (done ++ [it]) ++ items) by (rewrite <- app_assoc; reflexivity).
    destruct (existsb (Z.eqb (itmId it)) seen) eqn:E.
    + rewrite App. apply IH; rewrite <- ?App; auto. intros n. rewrite Ha. split.
      * intros (x & Hx & Hn). exists x. split; [apply in_or_app; auto|assumption].
      * intros (x & Hx & Hn). apply in_app_or in Hx. destruct Hx as [Hx | [<- | []]]; [eauto|]. apply Hs in E; [|assumption]. apply Ha in E. rewrite <- Hn. exact E.
    + assert (Hno : ~ In (itmName it) all) by (intros Hin; apply Hs in Hin; [congruence|assumption]).
      rewrite App. apply IH; rewrite <- ?App; auto.
      * apply NoDup_app_disj; auto; [repeat constructor; intros []|]. intros x Hx [<- | []]. contradiction.
      * intros x Hx. cbn [existsb]. rewrite orb_true_iff, in_app_iff, Z.eqb_eq. rewrite (Hs x Hx). cbn. pose proof (O it x Hit Hx). 
        split; intros [H1 | H1]; auto.
        -- right. left. apply H. congruence.
        -- destruct H1 as [H1 | []]. left. symmetry. apply H. assumption.
      * intros n. rewrite in_app_iff. split.
        -- intros [Hn | [<- | []]]; [apply Ha in Hn; destruct Hn as (x & Hx & Hn); exists x; split; [apply in_or_app; auto|assumption]|]. exists it. split; [apply in_elt|reflexivity].
        -- intros (x & Hx & Hn). apply in_app_or in Hx. destruct Hx as [Hx | [<- | []]]; [left; apply Ha; eauto|right; left; assumption].
Qed.

(** Names and ids are each other's inverse and know exactly what was received, and the list of edge names has
    every name once, provided the meta service does not give two ids one name or two names one id. *)
Theorem C71_names_and_ids : forall l sc, NoDup (map fst l) -> loadAll l = Ret sc -> forall s ts es, In (s, (ts, es)) l ->
  (oneToOne ts -> inverseMaps ts (idByName (scTagMaps sc) s) (nameById (scTagMaps sc) s)) /\
  (oneToOne es -> inverseMaps es (idByName (scEdgeMaps sc) s) (nameById (scEdgeMaps sc) s) /\
     exists all, allEdges sc s = Some all /\ NoDup all /\ forall n, In n all <-> exists it, In it es /\ itmName it = n).
Proof.
  intros l sc N H s ts es Hin. destruct (loadSpaces_maps l emptySchemaCache sc N H) as [H1 _].
  destruct (H1 s ts es Hin) as (nt & ne & A1 & A2 & D1 & D2 & D3). split; intros O.
  - assert (I := names_inverse s ts nt (tagMaps s ts nt) O A1 (tagMaps_names s ts nt nt (conj eq_refl eq_refl))). destruct I as [I1 I2]. destruct D1 as (_ & E2 & E3).
    unfold inverseMaps, idByName, nameById in *. split; intros n id; [rewrite E3; apply I1|rewrite E2; apply I2].
  - split.
    + assert (I := names_inverse s es ne (fst (edgeMaps s [] es ne [])) O A2 (edgeMaps_names s es [] ne ne [] (conj eq_refl eq_refl))). destruct I as [I1 I2]. destruct D2 as (_ & E2 & E3).
      unfold inverseMaps, idByName, nameById in *. split; intros n id; [rewrite E3; apply I1|rewrite E2; apply I2].
    + exists (snd (edgeMaps s [] es ne [])). split; [exact D3|]. apply (edgeMaps_all es s [] ne [] []); auto; [constructor| |].
      * intros it _. cbn. split; [discriminate|tauto].
      * intros n. split; [intros []|intros (x & [] & _)].
Qed.
Example C71_ex_hyp : oneToOne exItems.
Proof. intros a b [<- | [<- | [<- | []]]] [<- | [<- | [<- | []]]]; vm_compute; split; intros; try reflexivity; discriminate. Qed.
Example C71_ex : exists sc, loadAll [(9, ([], exItems))] = Ret sc /\ idByName (scEdgeMaps sc) 9 (B "u") = Some 6 /\
  nameById (scEdgeMaps sc) 9 5 = Some (B "t") /\ allEdges sc 9 = Some [B "t"; B "u"] /\ idByName (scEdgeMaps sc) 8 (B "u") = None.
Proof. eexists. split; [vm_compute; reflexivity|]. splits; vm_compute; reflexivity. Qed.

Print Assumptions C60_tag_latest_is_max.
Print Assumptions C60_edge_latest_is_first.
Print Assumptions C60_edge_latest_is_max.
Print Assumptions C60_edge_latest_refuted.
Print Assumptions C70_loads.
Print Assumptions C70_tag_schemas.
Print Assumptions C70_edge_schemas.
Print Assumptions C70_old_to_new_refuted.
Print Assumptions C71_names_and_ids.
