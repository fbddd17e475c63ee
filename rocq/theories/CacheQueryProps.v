(** C132: hosts are told which parts and spaces they serve, and all latest schemas. *)
From Coq Require Import String.
From Coq Require Import List.
From Verif Require Import Prelude ValueBase LeaderModel AssocModel DiffModel DiffProps SchemaModel SchemaProps SchemaLoadProps CacheQueryModel.
Import ListNotations.
Local Open Scope Z_scope.
Local Open Scope list_scope.

(** * Specification: DiffProps' [assigned h c s p hs], the part is allocated to hs, among them h; [loaded], what loadData leaves (C89, C52) *)
Definition serves (h : host) (c : localCache) (s p : Z) : Prop := exists hs, assigned h c s p hs.
Definition cached (c : localCache) (s : Z) : Prop := In s (akeys c).

Lemma existsb_swap l p : existsb (fun q => q =? p) l = existsb (Z.eqb p) l.
Proof. induction l as [|x l IH]; [reflexivity|]. cbn. rewrite IH, Z.eqb_sym. reflexivity. Qed.
Lemma reverse_nonempty alloc h ps : aget hostEqb h (reverse alloc) = Some ps -> ps <> [].
Proof.
  unfold reverse. assert (G : forall alloc m, (forall ps, aget hostEqb h m = Some ps -> ps <> []) ->
    forall ps, aget hostEqb h (fold_left (fun m ph => fold_left (addPart (fst ph)) (snd ph) m) alloc m) = Some ps -> ps <> []).
  { induction alloc0 as [|[p hs] a IH]; intros m H qs; [apply H|]. cbn [fold_left fst snd]. apply IH. clear IH.
    revert m H. induction hs as [|x hs IH]; intros m H rs; [apply H|]. cbn [fold_left]. apply IH. intros qs'. rewrite addPart_get.
    destruct (hostEqb h x); [|apply H]. intros [= <-]. destruct (match aget hostEqb x m with Some l => l | None => [] end); discriminate. }
  apply G. discriminate.
Qed.
Lemma serves_iff c h s p si : loaded c -> aget Z.eqb s c = Some si -> (serves h c s p <-> In p (getL h (partsOnHost si))).
Proof.
  intros [N L] E. destruct (L s si (aget_In Z.eqb Z.eqb_eq _ _ _ E)) as [Na Er]. rewrite Er, reverse_In. unfold serves, assigned, allocOf. rewrite E. split.
  - intros (hs & H1 & H2). exists hs. split; [exact (aget_In Z.eqb Z.eqb_eq _ _ _ H1)|exact H2].
  - intros (hs & H1 & H2). exists hs. split; [exact (In_aget Z.eqb Z.eqb_eq _ _ _ Na H1)|exact H2].
Qed.
Lemma serves_cached c h s p : serves h c s p -> exists si, aget Z.eqb s c = Some si.
Proof. intros (hs & H & _). unfold allocOf in H. destruct (aget Z.eqb s c) as [si|]; [exists si; reflexivity|discriminate]. Qed.

(** * C132 *)
(** A host asking for a part is told: OK exactly if it is one of the part's hosts; that the space is unknown exactly if it is; that the host is unknown exactly
    if it serves no part of the space; and else that the part is not its own. *)
Theorem C132_check_part : forall c h s p, loaded c ->
  (checkPartExist c h s p = POk <-> serves h c s p) /\
  (checkPartExist c h s p = PSpaceNotFound <-> ~ cached c s) /\
  (checkPartExist c h s p = PHostNotFound <-> cached c s /\ forall q, ~ serves h c s q) /\
  (checkPartExist c h s p = PPartNotFound <-> ~ serves h c s p /\ exists q, serves h c s q).
Proof.
  intros c h s p L. unfold checkPartExist, cached. destruct (aget Z.eqb s c) as [si|] eqn:E.
  - assert (Cs : In s (akeys c)) by (apply (aget_In Z.eqb Z.eqb_eq) in E; exact (in_map fst _ _ E)).
    pose proof (fun q => serves_iff c h s q si L E) as S. unfold getL in S. destruct (proj2 L s si (aget_In Z.eqb Z.eqb_eq _ _ _ E)) as [_ Er].
    destruct (aget hostEqb h (partsOnHost si)) as [ps|] eqn:P.
    + assert (Ne : exists q, serves h c s q).
      { rewrite Er in P. pose proof (reverse_nonempty _ _ _ P) as Ne. destruct ps as [|q ps]; [contradiction|]. exists q. apply S. left. reflexivity. }
      rewrite existsb_swap. destruct (existsb (Z.eqb p) ps) eqn:X.
      * apply existsb_In in X. rewrite <- S in X. splits; split; try discriminate; try tauto. intros [_ N]. destruct Ne as [q Hq]. destruct (N q Hq).
      * assert (Np : ~ serves h c s p) by (rewrite S; intros H; apply existsb_In in H; congruence).
        splits; split; try discriminate; try tauto. intros [_ N]. destruct Ne as [q Hq]. destruct (N q Hq).
    + splits; split; try discriminate; try tauto.
      * intros H. apply S in H. destruct H.
      * intros _. split; [exact Cs|]. intros q H. apply S in H. destruct H.
      * intros [_ [q H]]. apply S in H. destruct H.
  - assert (Cs : ~ In s (akeys c)) by (apply (aget_None Z.eqb Z.eqb_eq), E).
    assert (N : forall q, ~ serves h c s q) by (intros q H; destruct (serves_cached _ _ _ _ H) as [si Hs]; congruence).
    splits; split; try discriminate; try tauto. intros H. destruct (N _ H). intros [_ [q H]]. destruct (N _ H).
Qed.
(** Asking for a space: OK exactly if the host serves a part of it. *)
Theorem C132_check_space : forall c h s, loaded c ->
  (checkSpaceExist c h s = POk <-> exists p, serves h c s p) /\
  (checkSpaceExist c h s = PSpaceNotFound <-> ~ cached c s) /\
  (checkSpaceExist c h s = PPartNotFound <-> cached c s /\ forall p, ~ serves h c s p).
Proof.
  intros c h s L. unfold checkSpaceExist, cached. destruct (aget Z.eqb s c) as [si|] eqn:E.
  - assert (Cs : In s (akeys c)) by (apply (aget_In Z.eqb Z.eqb_eq) in E; exact (in_map fst _ _ E)).
    pose proof (fun q => serves_iff c h s q si L E) as S. unfold getL in S.
    destruct (aget hostEqb h (partsOnHost si)) as [[|q ps]|].
    + splits; split; try discriminate; try tauto; [intros [p H]; apply S in H; destruct H|]. intros _. split; [exact Cs|]. intros p H. apply S in H. destruct H.
    + assert (Hq : serves h c s q) by (apply S; left; reflexivity). splits; split; try discriminate; try tauto; [intros _; exists q; exact Hq|]. intros [_ N]. destruct (N q Hq).
    + splits; split; try discriminate; try tauto; [intros [p H]; apply S in H; destruct H|]. intros _. split; [exact Cs|]. intros p H. apply S in H. destruct H.
  - assert (Cs : ~ In s (akeys c)) by (apply (aget_None Z.eqb Z.eqb_eq), E).
    assert (N : forall q, ~ serves h c s q) by (intros q H; destruct (serves_cached _ _ _ _ H) as [si Hs]; congruence).
    splits; split; try discriminate; try tauto. intros [p H]. destruct (N _ H).
Qed.
(** The answers agree with the map of parts a host fetches at start (getPartsMapFromCache). *)
Theorem C132_agrees_with_parts_map : forall c h, loaded c -> exists m, doGetPartsMap h c = Ret m /\
  (forall s p, checkPartExist c h s p = POk <-> exists hs, lookup m s p = Some (mkPH s p hs)) /\
  (forall s p, checkPartExist c h s p <> POk <-> lookup m s p = None).
Proof.
  intros c h L. destruct (partsMap_spec h c [] (proj1 L) (proj2 L)) as (m & H & _ & M); [split; [constructor|intros ? ? []]|].
  exists m. split; [exact H|].
  assert (A : forall s p, (serves h c s p /\ exists hs, lookup m s p = Some (mkPH s p hs)) \/ (~ serves h c s p /\ lookup m s p = None)).
  { intros s p. specialize (M s p). unfold serves, assigned, allocOf. destruct (aget Z.eqb s c) as [si|].
    - destruct M as [(hs & M1 & M2 & M3)|[M1 M2]]; [left; split; [exists hs; auto|exists hs; exact M3]|].
      right. split; [intros (hs & X1 & X2); exact (M1 hs X1 X2)|exact M2].
    - right. split; [intros (hs & X & _); discriminate|exact M]. }
  split; intros s p; rewrite (proj1 (C132_check_part c h s p L)); destruct (A s p) as [[S [hs Hs]]|[S Hs]]; rewrite Hs; split; intros X; try tauto; try discriminate; try congruence.
  - exists hs. reflexivity.
  - destruct X as [hs X]. discriminate.
Qed.
Definition exHost (n : Z) : host := (B "h"%string, n).
Definition exAlloc := [(1, [exHost 1; exHost 2]); (2, [exHost 2; exHost 3]); (3, [exHost 3])].
Definition exCache : localCache := [(10, mkSI (reverse exAlloc) exAlloc []); (11, mkSI (reverse []) [] [])].
Example exCache_loaded : loaded exCache.
Proof.
  split; [repeat constructor; cbn; intros H; repeat (destruct H as [H|H]; [discriminate H|]); contradiction|].
  intros s si [H|[H|[]]]; injection H as <- <-; (split; [|reflexivity]); repeat constructor; cbn; intros H; repeat (destruct H as [H|H]; [discriminate H|]); contradiction.
Qed.
Example C132_ex : checkPartExist exCache (exHost 2) 10 2 = POk /\ checkPartExist exCache (exHost 2) 10 3 = PPartNotFound /\
  checkPartExist exCache (exHost 9) 10 3 = PHostNotFound /\ checkPartExist exCache (exHost 1) 12 1 = PSpaceNotFound /\
  checkSpaceExist exCache (exHost 3) 10 = POk /\ checkSpaceExist exCache (exHost 3) 11 = PPartNotFound.
Proof. splits; reflexivity. Qed.

(** ** The latest schemas of all tags and edge types *)
Lemma storeSchema_nonempty last m it m' : storeSchema last m it = Ret m' -> (forall id v, In (id, v) m -> v <> []) -> forall id v, In (id, v) m' -> v <> [].
Proof.
  intros H N id v Hv. destruct (storeSchema_inv _ _ _ _ H) as (p & w & _ & _ & -> & _). apply aset_In_inv in Hv. destruct Hv as [E|Hv]; [|exact (N _ _ Hv)].
  injection E as -> ->. unfold vset. intros E. apply app_eq_nil in E. destruct E as [_ E]. discriminate.
Qed.
Lemma storeAll_nonempty items : forall last m m', storeAll last items m = Ret m' -> (forall id v, In (id, v) m -> v <> []) -> forall id v, In (id, v) m' -> v <> [].
Proof.
  induction items as [|it items IH]; intros last m m' H N; cbn [storeAll] in H; [injection H as <-; exact N|].
  destruct (storeSchema last m it) as [m1| | |] eqn:E; cbn [obind] in H; try discriminate. apply (IH _ _ _ H). exact (storeSchema_nonempty _ _ _ _ E N).
Qed.
Lemma latestOf_spec l : forall acc, (forall id v, In (id, v) l -> v <> []) -> exists r, latestOf l acc = Ret r /\
  forall id, aget Z.eqb id r = match aget Z.eqb id acc with Some x => Some x | None => option_map (fun v => last v None) (aget Z.eqb id l) end.
Proof.
  induction l as [|[id0 v] l IH]; intros acc N; [exists acc; split; [reflexivity|]; intros id; destruct (aget Z.eqb id acc); reflexivity|].
  cbn [latestOf]. assert (exists x, rev v = x :: rev (removelast v) /\ last v None = x) as (x & -> & Lx).
  { pose proof (app_removelast_last None (N id0 v (or_introl eq_refl))) as E. exists (last v None). split; [|reflexivity].
    rewrite E at 1. rewrite rev_app_distr. reflexivity. }
  cbn [obind]. destruct (IH (aadd Z.eqb id0 x acc) (fun id v H => N id v (or_intror H))) as (r & Hr & Ha). exists r. split; [exact Hr|].
  intros id. rewrite Ha, (aget_aadd Z.eqb Z.eqb_eq). cbn [aget]. destruct (Z.eqb_spec id id0) as [->|Ne]; [|destruct (aget Z.eqb id0 acc), (aget Z.eqb id acc); reflexivity].
  cbn [option_map]. rewrite Lx. destruct (aget Z.eqb id0 acc) eqn:Ey; rewrite ?Ey; reflexivity.
Qed.
Definition latestListed (items : list item) (l : list (Z * option provider)) : Prop := forall id p,
  (aget Z.eqb id l = Some (Some p) <-> exists x, In x items /\ itmId x = id /\ maxVersion items id (itmVer x) /\ built (itmVer x) (itmCols x) p) /\
  (aget Z.eqb id l = None <-> forall x, In x items -> itmId x <> id) /\ aget Z.eqb id l <> Some None.
Lemma latest_of_store items m c s : storeAll (-1) items [] = Ret m -> aget Z.eqb s c = Some m ->
  exists l, allLatest c s = Ret (Some l) /\ forall id, aget Z.eqb id l = option_map (fun v => last v None) (aget Z.eqb id m).
Proof.
  intros H E. unfold allLatest. rewrite E. destruct (latestOf_spec m []) as (l & -> & A); [apply (storeAll_nonempty _ _ _ _ H); intros ? ? []|].
  cbn [obind]. exists l. split; [reflexivity|]. exact A.
Qed.
Lemma latest_listed items m c s : storeAll (-1) items [] = Ret m -> aget Z.eqb s c = Some m -> newToOld items -> usable items ->
  exists l, allLatest c s = Ret (Some l) /\ latestListed items l.
Proof.
  intros H E O U. destruct (latest_of_store _ _ _ _ H E) as (l & Hl & A). exists l. split; [exact Hl|].
  destruct (storeAll_items items O U) as (m' & Hm' & G). rewrite H in Hm'. injection Hm' as <-.
  intros id p. destruct (good_lookup c s items m id E G O U) as [_ B]. specialize (fun p => B (-1) p ltac:(lia)).
  unfold schemaFromCache in B. rewrite E in B. rewrite A. specialize (G id). destruct (aget Z.eqb id m) as [v|] eqn:Ev; cbn [option_map].
  - destruct G as (f & Hf & Hlen & Hh). assert (Uf : 0 <= itmVer f).
    { unfold usable in U. rewrite Forall_forall in U. destruct (U f (firstItem_In _ _ _ Hf)) as (_ & ? & _). lia. }
    destruct (Nat.eqb_spec (List.length v) 0) as [Z0|_]; [lia|]. replace (-1 <? Z.of_nat (List.length v)) with true in B by lia. cbn [Z.ltb Z.compare] in B.
    change (-1 <? 0) with true in B. split; [|split].
    + rewrite <- B. split; [congruence|intros ->; reflexivity].
    + split; [discriminate|]. intros N. exfalso. apply (N f (firstItem_In _ _ _ Hf)). destruct Hf as (? & ? & ? & ? & ?). assumption.
    + intros X. injection X as X. rewrite nth_vec_last in X.
      assert (Some (itmVer f) = Some (itmVer f)) by reflexivity.
      assert (exists p, last v None = Some p) as (q & Q).
      { destruct (addColumns_ok (itmVer f) (itmCols f)) as [q Hq]; [unfold usable in U; rewrite Forall_forall in U; apply (U f (firstItem_In _ _ _ Hf))|].
        exists q. rewrite nth_vec_last. apply Hh. exists f. splits; [exact (firstItem_In _ _ _ Hf)|destruct Hf as (? & ? & ? & ? & ?); assumption|lia|].
        replace (Z.of_nat (List.length v - 1)) with (itmVer f) by lia. exact Hq. }
      rewrite nth_vec_last in Q. congruence.
  - split; [|split; [|discriminate]].
    + split; [discriminate|]. intros (x & H1 & H2 & _). destruct (G x H1 H2).
    + split; [intros _; exact G|reflexivity].
Qed.
(** After any load that succeeds, fetching all latest schemas never reads behind a vector, for every space that was loaded; *)
Theorem C132_latest_safe : forall l sc, NoDup (map fst l) -> loadAll l = Ret sc -> forall s ts es, In (s, (ts, es)) l ->
  (exists r, allLatest (scTags sc) s = Ret (Some r)) /\ (exists r, allLatest (scEdges sc) s = Ret (Some r)).
Proof.
  intros l sc N H s ts es Hin. destruct (loadSpaces_tags l emptySchemaCache sc N H) as [T _]; [intros; split; reflexivity|].
  destruct (T s ts es Hin) as ((m & Hm & Hg) & (m' & Hm' & Hg')).
  destruct (latest_of_store _ _ _ _ Hm Hg) as (r & Hr & _). destruct (latest_of_store _ _ _ _ Hm' Hg') as (r' & Hr' & _).
  split; [exists r; exact Hr|exists r'; exact Hr'].
Qed.
(** and, when the meta service answers in the documented order, it gives for every tag and edge type that was received the schema of its largest version, and no others. *)
Theorem C132_latest_exact : forall l sc, NoDup (map fst l) -> loadAll l = Ret sc -> forall s ts es, In (s, (ts, es)) l ->
  (newToOld ts -> usable ts -> exists r, allLatest (scTags sc) s = Ret (Some r) /\ latestListed ts r) /\
  (newToOld es -> usable es -> exists r, allLatest (scEdges sc) s = Ret (Some r) /\ latestListed es r).
Proof.
  intros l sc N H s ts es Hin. destruct (loadSpaces_tags l emptySchemaCache sc N H) as [T _]; [intros; split; reflexivity|].
  destruct (T s ts es Hin) as ((m & Hm & Hg) & (m' & Hm' & Hg')).
  split; intros O U; [exact (latest_listed _ _ _ _ Hm Hg O U)|exact (latest_listed _ _ _ _ Hm' Hg' O U)].
Qed.
Example C132_latest_ex : exists sc r, loadAll [(9, (exItems, []))] = Ret sc /\ allLatest (scTags sc) 9 = Ret (Some r) /\
  option_map (option_map (fun p => (pvVer p, List.length (pvFields p)))) (aget Z.eqb 5 r) = Some (Some (3, 2%nat)) /\
  option_map (option_map pvVer) (aget Z.eqb 6 r) = Some (Some 0).
Proof. do 2 eexists. split; [vm_compute; reflexivity|]. split; [vm_compute; reflexivity|]. split; vm_compute; reflexivity. Qed.

Print Assumptions C132_check_part.
Print Assumptions C132_check_space.
Print Assumptions C132_agrees_with_parts_map.
Print Assumptions C132_latest_safe.
Print Assumptions C132_latest_exact.
