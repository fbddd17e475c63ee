(** C130: full-text indexes are found as the meta server told. *)
From Coq Require Import String.
From Coq Require Import List Permutation.
From Verif Require Import Prelude ValueBase ValueProofs AssocModel FtCacheModel.
Import ListNotations.
Local Open Scope Z_scope.
Local Open Scope list_scope.

(** * Specification *)
(** What the meta server told last, reading the calls from the first to the last; the bool says whether anything was told *)
Fixpoint told (ready : bool) (m : ftMap) (ks : list ftCall) : bool * ftMap :=
  match ks with
  | [] => (ready, m)
  | CLoad m' _ :: r => told true m' r
  | _ :: r => told ready m r
  end.
Definition toldBy (ks : list ftCall) : ftMap := snd (told false [] ks).
Definition anyTold (ks : list ftCall) : bool := fst (told false [] ks).
(** The names asked for since the last load *)
Fixpoint askedFrom (acc : list str) (ks : list ftCall) : list str :=
  match ks with
  | [] => acc
  | CLoad _ _ :: r => askedFrom [] r
  | CName _ n :: r => askedFrom (acc ++ [n]) r
  | _ :: r => askedFrom acc r
  end.
Definition asked (ks : list ftCall) : list str := askedFrom [] ks.
(** The meta server's answers: each name once, each index of a tag or an edge type *)
Definition okMap (m : ftMap) : Prop := NoDup (map fst m) /\ forall n x, In (n, x) m -> ftSchema x <> SNone.
Definition okCall (k : ftCall) : Prop := match k with CLoad m _ => okMap m | _ => True end.
Definition okCalls (ks : list ftCall) : Prop := forall k, In k ks -> okCall k.
(** every name asked for exists at that time *)
Fixpoint knownNames (ready : bool) (m : ftMap) (ks : list ftCall) : Prop :=
  match ks with
  | [] => True
  | CLoad m' _ :: r => knownNames true m' r
  | CName _ n :: r => (ready = true -> In n (map fst m)) /\ knownNames ready m r
  | _ :: r => knownNames ready m r
  end.
Definition schemaNo (s : schemaId) (i : Z) : Prop := s = STag i \/ s = SEdge i.

(** * Proofs *)
Section P.
Variable order : ftMap -> ftMap.
Hypothesis order_ok : forall l, Permutation (order l) l.

Definition state (ks : list ftCall) : outcome ftCache := frun order fresh ks.
Lemma told_app ks : forall r m k, told r m (ks ++ [k]) = match k with CLoad m' _ => (true, m') | _ => told r m ks end.
Proof.
  induction ks as [|x ks IH]; intros r m k; [destruct k; reflexivity|]. cbn [app]. destruct x; cbn [told]; apply IH.
Qed.
Lemma asked_app ks : forall a k, askedFrom a (ks ++ [k]) = match k with CLoad _ _ => [] | CName _ n => askedFrom a ks ++ [n] | _ => askedFrom a ks end.
Proof.
  induction ks as [|x ks IH]; intros a k; [destruct k; reflexivity|]. cbn [app]. destruct x; cbn [askedFrom]; apply IH.
Qed.
Lemma known_app ks : forall r m k, knownNames r m (ks ++ [k]) <-> knownNames r m ks /\
  match k with CName _ n => fst (told r m ks) = true -> In n (map fst (snd (told r m ks))) | _ => True end.
Proof.
  induction ks as [|x ks IH]; intros r m k; [destruct k; cbn; tauto|]. cbn [app]. destruct x; cbn [knownNames told]; rewrite IH; tauto.
Qed.
Lemma frun_app ks : forall c k, frun order c (ks ++ [k]) = (let* c1 := frun order c ks in let* (_, c2) := fstep order c1 k in Ret c2).
Proof.
  induction ks as [|x ks IH]; intros c k; cbn [app frun obind].
  - destruct (fstep order c k) as [[a c2]| | |]; reflexivity.
  - destruct (fstep order c x) as [[a c2]| | |]; cbn [obind]; try reflexivity. apply IH.
Qed.

(** The cache after any calls: ready iff anything was told; the told entries, and default ones for the names asked for that are not among them *)
Record inv (ks : list ftCall) (c : ftCache) : Prop := {
  iReady : fcReady c = anyTold ks;
  iKeys : NoDup (map fst (fcMap c));
  iTold : forall n x, In (n, x) (toldBy ks) -> aget strEqb n (fcMap c) = Some x;
  iElse : forall n, ~ In n (map fst (toldBy ks)) -> aget strEqb n (fcMap c) = if anyTold ks && existsb (strEqb n) (asked ks) then Some ftDefault else None
}.
Lemma toldBy_app ks k : toldBy (ks ++ [k]) = match k with CLoad m _ => m | _ => toldBy ks end.
Proof. unfold toldBy. rewrite told_app. destruct k; reflexivity. Qed.
Lemma anyTold_app ks k : anyTold (ks ++ [k]) = match k with CLoad _ _ => true | _ => anyTold ks end.
Proof. unfold anyTold. rewrite told_app. destruct k; reflexivity. Qed.
Lemma okCalls_app ks k : okCalls (ks ++ [k]) -> okCalls ks /\ okCall k.
Proof. intros H. split; [intros x Hx|]; apply H, in_or_app; [left; exact Hx|right; left; reflexivity]. Qed.
Lemma told_ok ks : okCalls ks -> okMap (toldBy ks).
Proof.
  induction ks as [|k ks IH] using rev_ind; intros H; [split; [constructor|intros ? ? []]|].
  apply okCalls_app in H. destruct H as [H1 H2]. rewrite toldBy_app. destruct k; try exact (IH H1). exact H2.
Qed.
Lemma told_nothing ks : anyTold ks = false -> toldBy ks = [].
Proof.
  induction ks as [|k ks IH] using rev_ind; [reflexivity|]. rewrite anyTold_app, toldBy_app. destruct k; try exact IH. discriminate.
Qed.
Lemma in_str n l : existsb (strEqb n) l = true <-> In n l.
Proof.
  rewrite existsb_exists. split; [intros (x & Hx & E); apply strEqb_eq in E; subst; exact Hx|]. intros H. exists n. split; [exact H|apply strEqb_eq; reflexivity].
Qed.
Lemma inv_holds ks : forall c, okCalls ks -> state ks = Ret c -> inv ks c.
Proof.
  induction ks as [|k ks IH] using rev_ind; intros c K H.
  - injection H as <-. split; [reflexivity|constructor|intros ? ? []|reflexivity].
  - apply okCalls_app in K. destruct K as [K Kk]. unfold state in *. rewrite frun_app in H.
    destruct (frun order fresh ks) as [c1| | |] eqn:E; cbn [obind] in H; try discriminate. destruct (IH c1 K eq_refl) as [I1 I2 I3 I4].
    assert (Same : forall k', (match k' with CLoad _ _ | CName _ _ => False | _ => True end) -> inv (ks ++ [k']) c1).
    { intros k' N. split; rewrite ?anyTold_app, ?toldBy_app; unfold asked; rewrite ?asked_app; destruct k'; try contradiction; assumption. }
    destruct k as [m cl| |s|s i|s n|]; cbn [fstep obind] in H.
    + injection H as <-. split; rewrite ?anyTold_app, ?toldBy_app; cbn.
      * reflexivity.
      * apply Kk.
      * intros n x Hx. apply In_aget; [exact strEqb_eq|apply Kk|exact Hx].
      * intros n Hn. unfold asked. rewrite asked_app. cbn. apply aget_None; [exact strEqb_eq|exact Hn].
    + injection H as <-. apply Same. exact I.
    + injection H as <-. apply Same. exact I.
    + destruct (indexBySchema order c1 s i); cbn [obind] in H; try discriminate. injection H as <-. apply Same. exact I.
    + unfold indexByName in H. destruct (fcReady c1) eqn:R.
      * destruct (aget strEqb n (fcMap c1)) as [x|] eqn:A.
        -- assert (c = c1) as -> by (destruct (negb (ftSpace x =? s)); injection H as <-; reflexivity).
           split; rewrite ?anyTold_app, ?toldBy_app; try assumption; [congruence|].
           intros n' Hn'. unfold asked. rewrite asked_app, existsb_app. cbn [existsb]. rewrite orb_false_r. fold (asked ks). rewrite (I4 _ Hn').
           destruct (strEqb n' n) eqn:En; [|rewrite orb_false_r; reflexivity]. apply strEqb_eq in En. subst n'. rewrite (I4 _ Hn') in A.
           destruct (anyTold ks && existsb (strEqb n) (asked ks)) eqn:Q; [|discriminate]. apply andb_true_iff in Q. destruct Q as [-> Q]. rewrite Q. reflexivity.
        -- injection H as <-. cbn. split; rewrite ?anyTold_app, ?toldBy_app; cbn [fcReady fcMap].
           ++ congruence.
           ++ change (NoDup (akeys (aset strEqb n ftDefault (fcMap c1)))). apply aset_keys; [exact strEqb_eq|exact I2].
           ++ intros n' x Hx. rewrite (aget_aset _ strEqb_eq). destruct (strEqb n' n) eqn:En; [|exact (I3 _ _ Hx)].
              apply strEqb_eq in En. subst n'. rewrite (I3 _ _ Hx) in A. discriminate.
           ++ intros n' Hn'. rewrite (aget_aset _ strEqb_eq). unfold asked. rewrite asked_app, existsb_app. cbn [existsb]. rewrite orb_false_r. fold (asked ks).
              rewrite (I4 _ Hn'), <- I1. destruct (strEqb n' n); [rewrite orb_true_r; reflexivity|]. rewrite orb_false_r. reflexivity.
      * injection H as <-. split; rewrite ?anyTold_app, ?toldBy_app; try assumption; [congruence|].
        intros n' Hn'. rewrite (I4 _ Hn'), <- I1. reflexivity.
    + injection H as <-. apply Same. exact I.
Qed.

Lemma all_told_here ks c n : okCalls ks -> inv ks c -> forall x, aget strEqb n (fcMap c) = Some x -> In (n, x) (toldBy ks) \/ (~ In n (map fst (toldBy ks)) /\ x = ftDefault /\ In n (asked ks)).
Proof.
  intros K J x H. destruct (in_dec (list_eq_dec Z.eq_dec) n (map fst (toldBy ks))) as [Y|N].
  - left. apply in_map_iff in Y. destruct Y as ([n' y] & E & Y). cbn in E. subst n'. rewrite (iTold _ _ J _ _ Y) in H. injection H as <-. exact Y.
  - right. rewrite (iElse _ _ J _ N) in H. destruct (anyTold ks && existsb (strEqb n) (asked ks)) eqn:Q; [|discriminate]. injection H as <-.
    apply andb_true_iff in Q. split; [exact N|]. split; [reflexivity|]. apply in_str, Q.
Qed.
Lemma filter_space space l : forall acc n x, NoDup (map fst l) -> (forall n', In n' (map fst l) -> aget strEqb n' acc = None) ->
  aget strEqb n (fold_left (fun m e => if ftSpace (snd e) =? space then aset strEqb (fst e) (snd e) m else m) l acc) = Some x <->
  aget strEqb n acc = Some x \/ (In (n, x) l /\ ftSpace x = space).
Proof.
  induction l as [|[k v] l IH]; intros acc n x N D; cbn [fold_left]; [split; [intros H; left; exact H|intros [H|[[] _]]; exact H]|].
  inversion N as [|? ? N1 N2]; subst. cbn [fst snd] in *. destruct (Z.eqb_spec (ftSpace v) space) as [E|E].
  - rewrite IH; [|exact N2|].
    + rewrite (aget_aset _ strEqb_eq). destruct (strEqb n k) eqn:En.
      * apply strEqb_eq in En. subst k. split.
        -- intros [H|[H _]]; [injection H as <-; right; split; [left; reflexivity|exact E]|]. exfalso. apply N1. exact (in_map fst _ _ H).
        -- intros [H|[[H|H] S]]; [rewrite (D n (or_introl eq_refl)) in H; discriminate|left; congruence|exfalso; apply N1; exact (in_map fst _ _ H)].
      * split; [intros [H|[H S]]; [left; exact H|right; split; [right; exact H|exact S]]|].
        intros [H|[[H|H] S]]; [left; exact H| |right; split; assumption]. injection H as -> ->. rewrite (proj2 (strEqb_eq n n) eq_refl) in En. discriminate.
    + intros n' Hn'. rewrite (aget_aset _ strEqb_eq). destruct (strEqb n' k) eqn:En; [apply strEqb_eq in En; subst; contradiction|]. apply D. right. exact Hn'.
  - rewrite IH; [|exact N2|intros n' Hn'; apply D; right; exact Hn'].
    split; [intros [H|[H S]]; [left; exact H|right; split; [right; exact H|exact S]]|].
    intros [H|[[H|H] S]]; [left; exact H|injection H as -> ->; contradiction|right; split; assumption].
Qed.
Lemma order_nodup m : NoDup (map fst m) -> NoDup (map fst (order m)).
Proof using order_ok. intros N. refine (Permutation_NoDup _ N). apply Permutation_map, Permutation_sym, order_ok. Qed.
Lemma order_in m e : In e (order m) <-> In e m.
Proof using order_ok. split; apply Permutation_in; [apply order_ok|apply Permutation_sym, order_ok]. Qed.

Lemma by_schema_loop l space schema : (forall n x, In (n, x) l -> ftSchema x <> SNone) ->
  (exists n x, bySchemaLoop l space schema = Ret (ANamed n x) /\ In (n, x) l /\ ftSpace x = space /\ schemaNo (ftSchema x) schema) \/
  (bySchemaLoop l space schema = Ret ANotFound /\ forall n x, In (n, x) l -> ~ (ftSpace x = space /\ schemaNo (ftSchema x) schema)).
Proof.
  induction l as [|[n x] l IH]; intros D; [right; split; [reflexivity|intros ? ? []]|].
  cbn [bySchemaLoop]. assert (exists id, (match ftSchema x with SEdge id => Ret id | STag id => Ret id | SNone => UB end) = Ret id /\ forall i, schemaNo (ftSchema x) i <-> i = id) as (id & -> & U).
  { pose proof (D n x (or_introl eq_refl)) as Dx. destruct (ftSchema x) as [|id|id]; [contradiction| |]; exists id; (split; [reflexivity|]); unfold schemaNo; intros i; split.
    - intros [H|H]; congruence.
    - intros ->; left; reflexivity.
    - intros [H|H]; congruence.
    - intros ->; right; reflexivity. }
  cbn [obind]. destruct ((ftSpace x =? space) && (id =? schema)) eqn:E.
  - left. exists n, x. apply andb_true_iff in E. rewrite !Z.eqb_eq in E. split; [reflexivity|]. split; [left; reflexivity|]. split; [apply E|]. apply U. symmetry. apply E.
  - destruct (IH (fun n x H => D n x (or_intror H))) as [(n' & x' & H1 & H2 & H3)|[H1 H2]].
    + left. exists n', x'. split; [exact H1|]. split; [right; exact H2|exact H3].
    + right. split; [exact H1|]. intros n' x' [H|H]; [|exact (H2 _ _ H)]. injection H as <- <-. rewrite U. intros [S ->]. rewrite S, !Z.eqb_refl in E. discriminate.
Qed.
Lemma known_clean ks c : okCalls ks -> state ks = Ret c -> knownNames false [] ks -> fcMap c = toldBy ks.
Proof.
  revert c. induction ks as [|k ks IH] using rev_ind; intros c K H W.
  - injection H as <-. reflexivity.
  - apply okCalls_app in K. destruct K as [K Kk]. apply known_app in W. destruct W as [W Wk]. unfold state in *. rewrite frun_app in H.
    destruct (frun order fresh ks) as [c1| | |] eqn:E; cbn [obind] in H; try discriminate. specialize (IH c1 K eq_refl W). rewrite toldBy_app.
    destruct k as [m cl| |s|s i|s n|]; cbn [fstep obind] in H; try (injection H as <-; exact IH || reflexivity).
    + destruct (indexBySchema order c1 s i); cbn [obind] in H; try discriminate. injection H as <-. exact IH.
    + unfold indexByName in H. pose proof (inv_holds ks c1 K E) as J. destruct (fcReady c1) eqn:R; [|injection H as <-; exact IH].
      destruct (aget strEqb n (fcMap c1)) as [x|] eqn:A; [assert (c = c1) as -> by (destruct (negb (ftSpace x =? s)); injection H as <-; reflexivity); exact IH|].
      exfalso. rewrite (iReady _ _ J) in R. specialize (Wk R). fold (toldBy ks) in Wk. apply (aget_None strEqb strEqb_eq) in A. apply A. unfold akeys. rewrite IH. exact Wk.
Qed.
End P.

(** * C130 *)
(** Nothing told yet: every lookup says so. *)
Theorem C130_not_ready : forall order ks c, okCalls ks -> frun order fresh ks = Ret c -> anyTold ks = false ->
  allIndexes c = ANotReady /\ (forall s, indexesBySpace order c s = ANotReady) /\ (forall s i, indexBySchema order c s i = Ret ANotReady) /\
  (forall s n, indexByName c s n = (ANotReady, c)) /\ schemaManClients c = ANotReady.
Proof.
  intros order ks c K H T. pose proof (iReady _ _ (inv_holds order ks c K H)) as R. rewrite T in R.
  unfold allIndexes, indexesBySpace, indexBySchema, indexByName, schemaManClients, ftClients. rewrite R. splits; reflexivity.
Qed.

(** After any calls, a name the meta server told last is found, in its space and in no other, and the cache is left alone. *)
Theorem C130_by_name : forall order ks c n x space, okCalls ks -> frun order fresh ks = Ret c -> In (n, x) (toldBy ks) ->
  indexByName c space n = (if ftSpace x =? space then AIndex x else ANotFound, c).
Proof.
  intros order ks c n x space K H T. pose proof (inv_holds order ks c K H) as J. unfold indexByName. rewrite (iReady _ _ J).
  destruct (anyTold ks) eqn:R; [|rewrite (told_nothing _ R) in T; destruct T]. rewrite (iTold _ _ J _ _ T). destruct (ftSpace x =? space); reflexivity.
Qed.
Definition exMap : ftMap := [(B "idx_a"%string, mkFt 1 (STag 5) [B "name"%string]); (B "idx_b"%string, mkFt 2 (SEdge 6) [B "w"%string]); (B "idx_c"%string, mkFt 1 (SEdge 7) [])].
Example exMap_ok : okCalls [CLoad exMap [B "h"%string]].
Proof.
  intros k [<-|[]]. split.
  - repeat constructor; cbn; intros H; repeat (destruct H as [H|H]; [discriminate H|]); contradiction.
  - intros n x H. repeat (destruct H as [H|H]; [injection H as <- <-; discriminate|]). contradiction.
Qed.
Example C130_by_name_ex : match frun (fun l => l) fresh [CLoad exMap []; CName 3 (B "zz"%string); CAll] with
  | Ret c => fst (indexByName c 1 (B "idx_c"%string)) = AIndex (mkFt 1 (SEdge 7) []) /\ fst (indexByName c 2 (B "idx_c"%string)) = ANotFound
  | _ => False end.
Proof. vm_compute. split; reflexivity. Qed.

(** A name the meta server did not tell: the first lookup answers with an index that does not exist, and so do later ones in space 0; the others say not found. *)
Theorem C130_missing_name : forall order ks c n space, okCalls ks -> frun order fresh ks = Ret c -> anyTold ks = true -> ~ In n (map fst (toldBy ks)) ->
  fst (indexByName c space n) = (if existsb (strEqb n) (asked ks) && negb (space =? 0) then ANotFound else AIndex ftDefault).
Proof.
  intros order ks c n space K H R N. pose proof (inv_holds order ks c K H) as J. unfold indexByName. rewrite (iReady _ _ J), R, (iElse _ _ J _ N), R. cbn [andb].
  destruct (existsb (strEqb n) (asked ks)); cbn [andb]; [|reflexivity]. cbn [ftDefault ftSpace]. rewrite (Z.eqb_sym 0 space). destruct (space =? 0); reflexivity.
Qed.
(** So a lookup can find what is not there, *)
Theorem C130_missing_name_refuted : ~ (forall order ks c n space x, (forall l, Permutation (order l) l) -> okCalls ks -> frun order fresh ks = Ret c ->
  fst (indexByName c space n) = AIndex x -> In (n, x) (toldBy ks)).
Proof.
  intros H. specialize (H (fun l => l) [CLoad exMap [B "h"%string]] _ (B "zz"%string) 1 ftDefault (fun l => Permutation_refl l) exMap_ok eq_refl eq_refl).
  cbn in H. repeat (destruct H as [H|H]; [discriminate H|]). contradiction.
Qed.
(** it changes the cache, which is only locked for reading, exactly when the name is missing in it, *)
Theorem C130_lookup_writes : forall c space n, fcReady c = true -> (snd (indexByName c space n) = c <-> In n (map fst (fcMap c))).
Proof.
  intros c space n R. unfold indexByName. rewrite R. destruct (aget strEqb n (fcMap c)) as [x|] eqn:A.
  - apply (aget_In strEqb strEqb_eq), (in_map fst) in A. destruct (negb (ftSpace x =? space)); cbn; tauto.
  - split; [|apply (aget_None strEqb strEqb_eq) in A; intros Hn; contradiction]. intros E. cbn [snd] in E. exfalso.
    apply (f_equal fcMap) in E. cbn [fcMap] in E. rewrite <- E in A. rewrite (aget_aset _ strEqb_eq), (proj2 (strEqb_eq n n) eq_refl) in A. discriminate.
Qed.
Example C130_lookup_writes_ex : match frun (fun l => l) fresh [CLoad exMap []] with
  | Ret c => List.length (fcMap (snd (indexByName c 1 (B "zz"%string)))) = 4%nat /\ snd (indexByName c 1 (B "idx_b"%string)) = c
  | _ => False end.
Proof. vm_compute. split; reflexivity. Qed.
(** and afterwards a lookup by schema reads a member that is not there. *)
Theorem C130_by_schema_refuted : ~ (forall order ks c space schema, (forall l, Permutation (order l) l) -> okCalls ks -> frun order fresh ks = Ret c ->
  exists a, indexBySchema order c space schema = Ret a).
Proof.
  intros H. destruct (H (fun l => l) [CLoad exMap [B "h"%string]; CName 1 (B "zz"%string)] _ 1 9 (fun l => Permutation_refl l)
    ltac:(intros k [<-|[<-|[]]]; [apply (exMap_ok (CLoad exMap [B "h"%string])); left; reflexivity|exact I]) eq_refl) as [a A]. discriminate A.
Qed.

(** The list of all: what was told, and each missing name that was asked for since. *)
Theorem C130_all : forall order ks c n x, okCalls ks -> frun order fresh ks = Ret c -> anyTold ks = true ->
  exists l, allIndexes c = AIndexes l /\ NoDup (map fst l) /\
  (In (n, x) l <-> In (n, x) (toldBy ks) \/ (~ In n (map fst (toldBy ks)) /\ In n (asked ks) /\ x = ftDefault)).
Proof.
  intros order ks c n x K H R. pose proof (inv_holds order ks c K H) as J. exists (fcMap c). unfold allIndexes. rewrite (iReady _ _ J), R.
  split; [reflexivity|]. split; [exact (iKeys _ _ J)|]. rewrite <- (aget_iff strEqb strEqb_eq _ _ _ (iKeys _ _ J)). split.
  - intros A. destruct (all_told_here ks c n K J x A) as [T|(N & D & Q)]; [left; exact T|right; splits; assumption].
  - intros [T|(N & Q & ->)]; [exact (iTold _ _ J _ _ T)|]. rewrite (iElse _ _ J _ N), R, (proj2 (in_str n _) Q). reflexivity.
Qed.
(** By space: exactly those told, in every space but 0, whatever was asked for before. *)
Theorem C130_by_space : forall order ks c space n x, (forall l, Permutation (order l) l) -> okCalls ks -> frun order fresh ks = Ret c -> anyTold ks = true -> space <> 0 ->
  exists l, indexesBySpace order c space = AIndexes l /\ (aget strEqb n l = Some x <-> In (n, x) (toldBy ks) /\ ftSpace x = space).
Proof.
  intros order ks c space n x O K H R S. pose proof (inv_holds order ks c K H) as J. unfold indexesBySpace. rewrite (iReady _ _ J), R. eexists. split; [reflexivity|].
  rewrite filter_space; [|apply order_nodup; [exact O|exact (iKeys _ _ J)]|reflexivity]. rewrite (order_in order O). cbn [aget]. split.
  - intros [A|[A E]]; [discriminate|]. split; [|exact E]. apply (In_aget strEqb strEqb_eq _ _ _ (iKeys _ _ J)) in A.
    destruct (all_told_here ks c n K J x A) as [T|(_ & -> & _)]; [exact T|]. cbn in E. congruence.
  - intros [A E]. right. split; [|exact E]. apply (aget_In strEqb strEqb_eq), (iTold _ _ J _ _ A).
Qed.
Example C130_by_space_ex : match frun (@rev _) fresh [CLoad exMap []; CName 3 (B "zz"%string)] with
  | Ret c => match indexesBySpace (@rev _) c 1 with AIndexes l => List.length l = 2%nat | _ => False end
  | _ => False end.
Proof. vm_compute. reflexivity. Qed.
(** By schema, as long as only existing names were asked for: an index of that space on a tag or an edge type of that number, if there is one; it never fails. *)
Theorem C130_by_schema : forall order ks c space schema, (forall l, Permutation (order l) l) -> okCalls ks -> frun order fresh ks = Ret c -> anyTold ks = true ->
  knownNames false [] ks ->
  (exists n x, indexBySchema order c space schema = Ret (ANamed n x) /\ In (n, x) (toldBy ks) /\ ftSpace x = space /\ schemaNo (ftSchema x) schema) \/
  (indexBySchema order c space schema = Ret ANotFound /\ forall n x, In (n, x) (toldBy ks) -> ~ (ftSpace x = space /\ schemaNo (ftSchema x) schema)).
Proof.
  intros order ks c space schema O K H R W. pose proof (inv_holds order ks c K H) as J. unfold indexBySchema. rewrite (iReady _ _ J), R.
  pose proof (known_clean order ks c K H W) as E. rewrite E. destruct (told_ok ks K) as [_ D].
  destruct (by_schema_loop (order (toldBy ks)) space schema) as [(n & x & H1 & H2 & H3)|[H1 H2]].
  - intros n x Hx. apply (D n). apply (order_in order O), Hx.
  - left. exists n, x. split; [exact H1|]. split; [apply (order_in order O), H2|exact H3].
  - right. split; [exact H1|]. intros n x Hx. apply (H2 n). apply (order_in order O), Hx.
Qed.
Example C130_by_schema_ex : match frun (@rev _) fresh [CLoad exMap []; CName 9 (B "idx_a"%string)] with
  | Ret c => indexBySchema (@rev _) c 1 7 = Ret (ANamed (B "idx_c"%string) (mkFt 1 (SEdge 7) [])) /\ indexBySchema (@rev _) c 2 7 = Ret ANotFound
  | _ => False end.
Proof. vm_compute. split; reflexivity. Qed.
(** The number does not say whether a tag or an edge type is meant: with both, the order of the hash map decides. *)
Theorem C130_tag_or_edge_refuted : ~ (forall order1 order2 ks c, (forall l, Permutation (order1 l) l) -> (forall l, Permutation (order2 l) l) -> okCalls ks ->
  frun order1 fresh ks = Ret c -> indexBySchema order1 c 1 5 = indexBySchema order2 c 1 5).
Proof.
  intros H. specialize (H (fun l => l) (@rev _) [CLoad [(B "t"%string, mkFt 1 (STag 5) []); (B "e"%string, mkFt 1 (SEdge 5) [])] []]
    (mkFtc true [(B "t"%string, mkFt 1 (STag 5) []); (B "e"%string, mkFt 1 (SEdge 5) [])] []) (fun l => Permutation_refl l) (fun l => Permutation_sym (Permutation_rev l))). specialize (H ltac:(
      intros k [<-|[]]; split; [repeat constructor; cbn; intros X; repeat (destruct X as [X|X]; [discriminate X|]); contradiction|
      intros n x X; repeat (destruct X as [X|X]; [injection X as <- <-; discriminate|]); contradiction]) eq_refl). discriminate H.
Qed.
(** The schema manager's clients are those told, and none is an error. *)
Theorem C130_clients : forall order ks c m cl, frun order fresh (ks ++ [CLoad m cl]) = Ret c ->
  schemaManClients c = match cl with [] => ANoClients | _ => AClients cl end.
Proof.
  intros order ks c m cl H. rewrite frun_app in H. destruct (frun order fresh ks); cbn in H; try discriminate. injection H as <-.
  unfold schemaManClients, ftClients. cbn. destruct cl; reflexivity.
Qed.

Print Assumptions C130_not_ready.
Print Assumptions C130_by_name.
Print Assumptions C130_missing_name.
Print Assumptions C130_missing_name_refuted.
Print Assumptions C130_lookup_writes.
Print Assumptions C130_by_schema_refuted.
Print Assumptions C130_all.
Print Assumptions C130_by_space.
Print Assumptions C130_by_schema.
Print Assumptions C130_tag_or_edge_refuted.
Print Assumptions C130_clients.
