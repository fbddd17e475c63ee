(** What the storage clients send where. *)
From Coq Require Import String List Permutation.
From Verif Require Import Prelude Trans ValueBase ValueProofs ValueModel HashModel HashSpec HashProofs HashProps AssocModel LeaderModel LeaderProps StoreReqModel.
Import ListNotations.
Local Open Scope Z_scope.
Local Open Scope list_scope.

(** ** What is to be sent *)
(** the vertex an item belongs to: of an edge its source *)
Definition vertexOf {A} (k : kind A) : A -> value :=
  match k in kind A return A -> value with
  | KRow _ => fun r => match r with v :: _ => v | [] => VEmpty end
  | KVertex => nvId
  | KEdge => fun e => ekSrc (neKey e)
  | KKey => ekSrc
  | KValue => fun v => v
  | KTags => dtId
  | KText => VStr
  | KPair => fun p => VStr (fst p)
  end.
(** the bytes of a vertex id *)
Inductive idText : vidType -> value -> str -> Prop :=
| it_int z : idText TInt64 (VInt z) (le8 z)
| it_str s : idText TFixedString (VStr s) s.
Definition sentId (t : vidType) (v v' : value) : Prop := exists s, idText t v s /\ v' = VStr s.
(** the item sent: ids as bytes, all else as it is. Ids that are texts are not touched, and of an edge only the source is looked at then. *)
Definition sentKey (t : vidType) (a a' : edgeKey) : Prop :=
  sentId t (ekSrc a) (ekSrc a') /\ ekType a' = ekType a /\ ekRank a' = ekRank a /\
  match t with TInt64 => sentId t (ekDst a) (ekDst a') | TFixedString => ekDst a' = ekDst a end.
Definition sentAs {A} (k : kind A) (t : vidType) : A -> A -> Prop :=
  match k in kind A return A -> A -> Prop with
  | KRow edge => fun a a' => exists v v' r r', a = v :: r /\ a' = v' :: r' /\ sentId t v v' /\
      match t, edge with
      | TInt64, true => exists x y d d' rest, r = x :: y :: d :: rest /\ r' = x :: y :: d' :: rest /\ sentId t d d'
      | _, _ => r' = r
      end
  | KVertex => fun a a' => sentId t (nvId a) (nvId a') /\ nvTags a' = nvTags a
  | KEdge => fun a a' => sentKey t (neKey a) (neKey a') /\ neProps a' = neProps a
  | KKey => sentKey t
  | KValue => sentId t
  | KTags => fun a a' => sentId t (dtId a) (dtId a') /\ dtTags a' = dtTags a
  | KText => fun a a' => a' = a
  | KPair => fun a a' => a' = a
  end.
(** the type of ids that matters for a kind of items *)
Definition typed {A} (k : kind A) (t : vidType) : Prop := asksType k = true \/ t = TFixedString.

Lemma idText_fun t v s s' : idText t v s -> idText t v s' -> s = s'.
Proof. intros H. inversion H; subst; intros H'; inversion H'; reflexivity. Qed.
Lemma sentId_fun t v a b : sentId t v a -> sentId t v b -> a = b.
Proof. intros (s & H & ->) (s' & H' & ->). f_equal. eapply idText_fun; eauto. Qed.

Lemma takeValue_ok t v v' s : takeValue t v = Ret (v', s) <-> sentId t v v' /\ idText t v s.
Proof.
  split.
  - destruct t, v; cbn; try discriminate; intros E; injection E as <- <-; (split; [eexists; split; [constructor | reflexivity] | constructor]).
  - intros [(s' & H & ->) H']. pose proof (idText_fun _ _ _ _ H H'). subst s'. inversion H; subst; reflexivity.
Qed.
Lemma takeKey_ok t a a' s : takeKey t a = Ret (a', s) <-> sentKey t a a' /\ idText t (ekSrc a) s.
Proof.
  destruct a as [x ty rk y], a' as [x' ty' rk' y']. unfold takeKey, sentKey. cbn [ekSrc ekType ekRank ekDst]. split.
  - destruct t.
    + destruct x; cbn; try discriminate. destruct y; cbn; try discriminate. intros E. injection E as <- <- <- <- <-.
      splits; try reflexivity; try (eexists; split; [constructor | reflexivity]). constructor.
    + destruct x; cbn; try discriminate. intros E. injection E as <- <- <- <- <-.
      splits; try reflexivity; try (eexists; split; [constructor | reflexivity]). constructor.
  - intros [(H1 & -> & -> & H2) H]. destruct t.
    + inversion H; subst. destruct H1 as (s1 & H1 & ->), H2 as (s2 & H2 & ->). inversion H1; subst. inversion H2; subst. reflexivity.
    + inversion H; subst. destruct H1 as (s1 & H1 & ->). inversion H1; subst. reflexivity.
Qed.
Lemma takeRow_ok edge t a a' s : takeRow edge t a = Ret (a', s) <-> sentAs (KRow edge) t a a' /\ idText t (vertexOf (KRow edge) a) s.
Proof.
  unfold takeRow. cbn [sentAs vertexOf]. split.
  - destruct t.
    + destruct a as [| v r]; cbn; [discriminate |]. destruct v; cbn; try discriminate. destruct edge; cbn.
      * destruct r as [| x [| y [| d rest]]]; cbn; try discriminate. destruct d; cbn; try discriminate. intros E. injection E as <- <-.
        split; [| constructor]. do 4 eexists. splits; try reflexivity; [eexists; split; [constructor | reflexivity] |].
        do 5 eexists. splits; try reflexivity. eexists; split; [constructor | reflexivity].
      * intros E. injection E as <- <-. split; [| constructor]. do 4 eexists. splits; try reflexivity. eexists; split; [constructor | reflexivity].
    + destruct a as [| v r]; cbn; [discriminate |]. destruct v; cbn; try discriminate. intros E. injection E as <- <-.
      split; [| constructor]. do 4 eexists. splits; try reflexivity. eexists; split; [constructor | reflexivity].
  - intros [(v & v' & r & r' & -> & -> & (s' & H' & ->) & R) H]. cbn in H. pose proof (idText_fun _ _ _ _ H' H). subst s'. destruct t.
    + inversion H; subst. destruct edge.
      * destruct R as (x & y & d & d' & rest & -> & -> & (s2 & H2 & ->)). inversion H2; subst. reflexivity.
      * subst r'. reflexivity.
    + inversion H; subst. reflexivity.
Qed.
Lemma take_ok {A} (k : kind A) t a a' s : typed k t -> (take k t a = Ret (a', s) <-> sentAs k t a a' /\ idText t (vertexOf k a) s).
Proof.
  intros T. destruct k; cbn [take sentAs vertexOf].
  - apply takeRow_ok.
  - unfold takeVertex. destruct a as [i tg], a' as [i' tg']. cbn [nvId nvTags]. split.
    + destruct (takeValue t i) as [[v x] | | |] eqn:E; try discriminate. cbn. intros H. injection H as <- <- <-. apply takeValue_ok in E. tauto.
    + intros [[H1 ->] H2]. rewrite (proj2 (takeValue_ok t i i' s)) by auto. reflexivity.
  - unfold takeEdge. destruct a as [i tg], a' as [i' tg']. cbn [neKey neProps]. split.
    + destruct (takeKey t i) as [[v x] | | |] eqn:E; try discriminate. cbn. intros H. injection H as <- <- <-. apply takeKey_ok in E. tauto.
    + intros [[H1 ->] H2]. rewrite (proj2 (takeKey_ok t i i' s)) by auto. reflexivity.
  - apply takeKey_ok.
  - apply takeValue_ok.
  - unfold takeTags. destruct a as [i tg], a' as [i' tg']. cbn [dtId dtTags]. split.
    + destruct (takeValue t i) as [[v x] | | |] eqn:E; try discriminate. cbn. intros H. injection H as <- <- <-. apply takeValue_ok in E. tauto.
    + intros [[H1 ->] H2]. rewrite (proj2 (takeValue_ok t i i' s)) by auto. reflexivity.
  - destruct T as [T | ->]; [discriminate T |]. split; [intros E; injection E as <- <-; split; [reflexivity | constructor] |].
    intros [-> H]. inversion H. reflexivity.
  - destruct T as [T | ->]; [discriminate T |]. split; [intros E; injection E as <- <-; split; [reflexivity | constructor] |].
    intros [-> H]. inversion H. reflexivity.
Qed.
Lemma sent_text {A} (k : kind A) t a a' : typed k t -> sentAs k t a a' -> exists s, idText t (vertexOf k a) s.
Proof.
  intros T H. destruct k; cbn in *.
  - destruct H as (v & v' & r & r' & -> & _ & (s & H & _) & _). eauto.
  - destruct H as [(s & H & _) _]. eauto.
  - destruct H as [[(s & H & _) _] _]. eauto.
  - destruct H as [(s & H & _) _]. eauto.
  - destruct H as (s & H & _). eauto.
  - destruct H as [(s & H & _) _]. eauto.
  - destruct T as [T | ->]; [discriminate T |]. eexists. constructor.
  - destruct T as [T | ->]; [discriminate T |]. eexists. constructor.
Qed.

(** the part of a vertex, by C22 *)
Definition partOf (t : vidType) (n : Z) (v : value) (p : Z) : Prop := exists s, idText t v s /\ partId n s = Ret p.
(** what a host gets for a part *)
Definition itemsFor {A S} (reqs : list (host * request A S)) (h : host) (p : Z) : list A :=
  match aget hostEqb h reqs with Some r => match aget Z.eqb p (rqParts r) with Some g => g | None => [] end | None => [] end.
Definition allItems {A S} (reqs : list (host * request A S)) : list A := flat_map (fun hr => flat_map snd (rqParts (snd hr))) reqs.

(** ** The bytes of an integer *)
Lemma le8_ok z : bytes_ok (le8 z) /\ List.length (le8 z) = 8%nat /\ le_num (le8 z) = z mod 2 ^ 64.
Proof.
  unfold le8. assert (U : 0 <= u64 z < 2 ^ 64) by (unfold u64; lia). splits.
  - repeat constructor; lia.
  - reflexivity.
  - cbn [map le_num]. change (z mod 2 ^ 64) with (u64 z). set (u := u64 z) in *.
    change (2 ^ (8 * 0)) with 1. change (2 ^ (8 * 1)) with 256. change (2 ^ (8 * 2)) with 65536. change (2 ^ (8 * 3)) with 16777216.
    change (2 ^ (8 * 4)) with 4294967296. change (2 ^ (8 * 5)) with 1099511627776. change (2 ^ (8 * 6)) with 281474976710656.
    change (2 ^ (8 * 7)) with 72057594037927936. change (2 ^ 64) with 18446744073709551616 in U. lia.
Qed.

(** ** The loop *)
Local Notation kget := (aget pkeyEqb).
Definition leaderIn (leaders : list (Z * host)) (p : Z) : host := match aget Z.eqb p leaders with Some h => h | None => noHost end.
Definition keysOk {A} (cl : list (host * list (Z * list A))) : Prop := NoDup (akeys cl) /\ forall h m, In (h, m) cl -> NoDup (akeys m).
Lemma keysOk_add {A} h p (a : A) cl : keysOk cl -> keysOk (addTo h p a cl).
Proof.
  intros [N M]. unfold addTo. split; [apply (aset_keys hostEqb hostEqb_ok); exact N |].
  intros h' m' H. apply in_aset in H. destruct H as [H | H]; [| eapply M; exact H]. injection H as -> ->.
  apply (aset_keys Z.eqb Z.eqb_eq). destruct (aget hostEqb h cl) as [m |] eqn:E; [| constructor].
  eapply M. apply (aget_In hostEqb hostEqb_ok). exact E.
Qed.
Lemma spread_spec {A} (k : kind A) t n leaders : typed k t -> forall items cl items' cl', spread k t n leaders items cl = Ret (items', cl') ->
  exists ps, Forall2 (sentAs k t) items items' /\ Forall2 (fun a p => partOf t n (vertexOf k a) p) items ps /\
    (forall h p, group cl' h p = group cl h p ++ map snd (filter (fun x => (fst x =? p) && hostEqb h (leaderIn leaders p)) (combine ps items'))) /\
    Permutation (allIds cl') (allIds cl ++ items') /\ (keysOk cl -> keysOk cl') /\ (noEmpty cl -> noEmpty cl').
Proof.
  intros T. induction items as [| a items IH]; intros cl items' cl' E; cbn [spread] in E.
  - injection E as <- <-. exists []. splits; auto; try (intros; cbn; rewrite app_nil_r; auto).
  - destruct (take k t a) as [[a' s] | | |] eqn:Ea; try discriminate E. cbn [obind] in E.
    destruct (partId n s) as [p | | |] eqn:Ep; try discriminate E. cbn [obind] in E. cbv zeta in E.
    fold (leaderIn leaders p) in E.
    destruct (spread k t n leaders items _) as [[r' c'] | | |] eqn:Er; try discriminate E. cbn [obind] in E. injection E as <- <-.
    destruct (IH _ _ _ Er) as (ps & F1 & F2 & G & P & K & Ne). apply (take_ok k t a a' s T) in Ea. destruct Ea as [Sa Ia].
    exists (p :: ps). splits.
    + constructor; assumption.
    + constructor; [exists s; auto | assumption].
    + intros h q. rewrite G, group_add. cbn [combine filter fst].
      destruct (Z.eqb_spec p q) as [<- | Hne]; cbn [andb].
      * rewrite Z.eqb_refl, andb_true_r. destruct (hostEqb h (leaderIn leaders p)) eqn:Eh.
        -- apply hostEqb_ok in Eh. subst h. rewrite <- app_assoc. reflexivity.
        -- reflexivity.
      * destruct (Z.eqb_spec q p); [congruence |]. rewrite andb_false_r. reflexivity.
    + eapply perm_trans; [exact P |]. eapply perm_trans; [apply Permutation_app_tail, perm_add |]. apply (Permutation_middle _ _ a').
    + intros N. apply K, keysOk_add, N.
    + intros N. apply Ne, noEmpty_add, N.
Qed.

Section P.
Context (cache : allocCache) (vidTypes : Z -> option vidType).
Local Notation storageCall := (storageCall cache vidTypes true).
Local Notation singleCall := (singleCall cache vidTypes true).

Lemma get_map {A S} space (spec : S) (cl : list (host * list (Z * list A))) h :
  aget hostEqb h (map (fun c => (fst c, mkRequest space (snd c) spec)) cl) = match aget hostEqb h cl with Some m => Some (mkRequest space m spec) | None => None end.
Proof. induction cl as [| [h0 m] cl IH]; cbn; [reflexivity |]. destruct (hostEqb h h0); [reflexivity | exact IH]. Qed.
Lemma itemsFor_map {A S} space (spec : S) (cl : list (host * list (Z * list A))) h p :
  itemsFor (map (fun c => (fst c, mkRequest space (snd c) spec)) cl) h p = group cl h p.
Proof. unfold itemsFor, group. rewrite get_map. destruct (aget hostEqb h cl); reflexivity. Qed.
Lemma allItems_map {A S} space (spec : S) (cl : list (host * list (Z * list A))) :
  allItems (map (fun c => (fst c, mkRequest space (snd c) spec)) cl) = allIds cl.
Proof. unfold allItems, allIds. induction cl as [| [h m] cl IH]; cbn; [reflexivity |]. rewrite IH. reflexivity. Qed.

(** the type of ids that a call works with *)
Definition callType {A} (k : kind A) (space : Z) (t : vidType) : Prop := if asksType k then vidTypes space = Some t else t = TFixedString.
Lemma callType_typed {A} (k : kind A) space t : callType k space t -> typed k t.
Proof. unfold callType, typed. destruct (asksType k); auto. Qed.
Lemma call_inv {A S} (k : kind A) li space items (spec : S) reqs items' li' : storageCall k li space items spec = Ret (mkSent (Some reqs) items' li') ->
  exists t n leaders cl, callType k space t /\ partsNum cache space = Some n /\ partLeaders cache true space 1 (Z.to_nat n) li [] = Ret (Some leaders, li') /\
    spread k t n leaders items [] = Ret (items', cl) /\ reqs = map (fun c => (fst c, mkRequest space (snd c) spec)) cl.
Proof.
  unfold StoreReqModel.storageCall. intros E.
  destruct (if asksType k then spaceVidType cache vidTypes true space else Some TFixedString) as [t |] eqn:Et; [| discriminate E].
  destruct (partsNum cache space) as [n |] eqn:En; [| discriminate E].
  destruct (partLeaders cache true space 1 (Z.to_nat n) li []) as [[ls l1] | | |] eqn:El; try discriminate E. cbn [obind] in E.
  destruct ls as [leaders |]; [| discriminate E].
  destruct (spread k t n leaders items []) as [[i c] | | |] eqn:Es; try discriminate E. cbn [obind] in E. injection E as <- <- <-.
  exists t, n, leaders, c. splits; auto. unfold callType. destruct (asksType k); [| congruence].
  unfold spaceVidType in Et. destruct (aget Z.eqb space cache); [exact Et | discriminate].
Qed.

(** Every item is sent exactly once: to the host that the leader cache holds for its part, under its part, in the order of the input within a part;
    ids as bytes and everything else unchanged. All requests carry the space and the rest of the arguments. *)
Theorem C120_requests : forall A S (k : kind A) li space items (spec : S) reqs items' li' n,
  storageCall k li space items spec = Ret (mkSent (Some reqs) items' li') -> partsNum cache space = Some n -> 0 < n ->
  exists t ps leaderOf, callType k space t /\ Forall2 (sentAs k t) items items' /\ Forall2 (fun a p => partOf t n (vertexOf k a) p) items ps /\
    (forall p, 1 <= p <= n -> kget (space, p) (leaderMap li') = Some (leaderOf p)) /\
    (forall h p, itemsFor reqs h p = if hostEqb h (leaderOf p) then map snd (filter (fun x => fst x =? p) (combine ps items')) else []) /\
    Permutation (allItems reqs) items' /\
    NoDup (map fst reqs) /\
    (forall h r, In (h, r) reqs -> rqSpace r = space /\ rqSpec r = spec /\ NoDup (map fst (rqParts r)) /\ rqParts r <> [] /\ forall p g, In (p, g) (rqParts r) -> g <> []).
Proof.
  intros A S k li space items spec reqs items' li' n E Hn Hpos.
  destruct (call_inv _ _ _ _ _ _ _ _ E) as (t & n' & leaders & cl & Ct & Hn' & El & Es & ->). rewrite Hn in Hn'. injection Hn' as <-.
  destruct (spread_spec k t n leaders (callType_typed _ _ _ Ct) _ _ _ _ Es) as (ps & F1 & F2 & G & P & K & Ne).
  destruct (partLeaders_spec cache true space _ _ _ _ _ _ El) as (_ & Hl & _).
  destruct K as [K1 K2]; [split; [constructor | intros h m []] |]. specialize (Ne ltac:(intros h m [])).
  exists t, ps, (leaderIn leaders). splits; auto.
  - intros p Hp. destruct (Hl p ltac:(lia)) as (h & Eh & ->). unfold leaderIn. rewrite Eh. reflexivity.
  - intros h p. rewrite itemsFor_map, G. cbn [group aget app]. destruct (hostEqb h (leaderIn leaders p)).
    + f_equal. apply filter_ext. intros x. apply andb_true_r.
    + clear. induction (combine ps items') as [| x l IH]; [reflexivity |]. cbn [filter]. rewrite andb_false_r. exact IH.
  - rewrite allItems_map. exact P.
  - rewrite map_map. cbn. exact K1.
  - intros h r H. apply in_map_iff in H. destruct H as ([h0 m] & H & Hin). cbn in H. injection H as <- <-. cbn. splits; auto.
    + eapply K2. exact Hin.
    + exact (proj1 (Ne _ _ Hin)).
    + intros p g. exact (proj2 (Ne _ _ Hin) p g).
Qed.

(** An integer id is put by its value modulo the number of parts, and different integers are different bytes *)
Theorem C120_integers : forall n z, 0 < n <= 2147483647 ->
  partOf TInt64 n (VInt z) ((z mod 2 ^ 64) mod n + 1) /\
  (forall z' s, int64_min <= z <= int64_max -> int64_min <= z' <= int64_max -> idText TInt64 (VInt z) s -> idText TInt64 (VInt z') s -> z' = z).
Proof.
  intros n z Hn. destruct (le8_ok z) as (L1 & L2 & L3). split.
  - exists (le8 z). split; [constructor |]. apply C22_integer_ids; auto.
  - intros z' s H H' I I'. assert (E1 : s = le8 z) by (inversion I; reflexivity). assert (E2 : s = le8 z') by (inversion I'; reflexivity).
    destruct (le8_ok z') as (_ & _ & L3'). rewrite <- E2, E1, L3 in L3'.
    unfold int64_min, int64_max in *. change (2 ^ 64) with 18446744073709551616 in L3'. lia.
Qed.

(** ** Whether a call ends well *)
(** items whose ids are of the type of the space *)
Definition idsFit {A} (k : kind A) (t : vidType) (a : A) : Prop := exists a', sentAs k t a a'.
Definition bytesFit {A} (k : kind A) (a : A) : Prop := forall s, vertexOf k a = VStr s -> bytes_ok s.
(** every part of the space has replicas *)
Definition served (space n : Z) : Prop := exists alloc, aget Z.eqb space cache = Some alloc /\ n = Z.of_nat (List.length alloc) /\ 0 < n <= int32_max /\
  forall p, 1 <= p <= n -> exists hs, aget Z.eqb p alloc = Some hs /\ hs <> [].
Lemma served_parts space n : served space n -> partsNum cache space = Some n.
Proof.
  intros (alloc & Ha & -> & Hl & _). unfold partsNum. rewrite Ha. f_equal. unfold wrap32, int32_max in *. rewrite Z.mod_small; lia.
Qed.
Lemma served_get space n : served space n -> forall li p, 1 <= p <= n -> exists h li', getLeader cache true li (space, p) = Ret (Some h, li').
Proof.
  intros (alloc & Ha & Hn & _ & Hrep) l p Hp. unfold getLeader. cbn [negb]. destruct (kget (space, p) (leaderMap l)) as [h |]; [eauto |].
  unfold pickLeader, getPartHosts. cbn [fst snd]. rewrite Ha. destruct (Hrep p Hp) as (hs & -> & Hne).
  destruct (Nat.eqb_spec (List.length hs) 0) as [Hz | Hz]; [destruct hs; [congruence | discriminate Hz] |]. cbv zeta.
  match goal with |- context [nth_error hs ?i] => destruct (nth_error hs i) as [h |] eqn:En end; [eauto |].
  apply nth_error_None in En. exfalso. match type of En with context [?x mod ?y] => pose proof (Z.mod_pos_bound x y ltac:(lia)) end. lia.
Qed.
Lemma served_leaders space n : served space n -> forall li, exists ls li', partLeaders cache true space 1 (Z.to_nat n) li [] = Ret (Some ls, li').
Proof.
  intros H.
  assert (Hpl : forall count part li acc, 1 <= part -> part + Z.of_nat count <= n + 1 ->
            exists ls li', partLeaders cache true space part count li acc = Ret (Some ls, li')).
  { induction count as [| c IH]; intros part l acc H1 H2; cbn [partLeaders]; [eauto |].
    destruct (served_get space n H l part ltac:(lia)) as (h & l' & ->). cbn [obind]. apply IH; lia. }
  assert (0 < n) by (destruct H as (alloc & _ & _ & Hl & _); lia).
  intros li. apply Hpl; lia.
Qed.
Lemma text_bytes {A} (k : kind A) t a s : bytesFit k a -> idText t (vertexOf k a) s -> bytes_ok s.
Proof. intros Bf H. inversion H; subst; [apply le8_ok | apply Bf; congruence]. Qed.
Lemma spread_ends {A} (k : kind A) t n leaders : typed k t -> 0 < n <= int32_max -> forall items cl, Forall (bytesFit k) items ->
  (exists r, spread k t n leaders items cl = Ret r) <-> Forall (idsFit k t) items.
Proof.
  intros T Hn. induction items as [| a items IH]; intros cl Bf; cbn [spread].
  - split; [intros _; constructor | eauto].
  - inversion Bf as [| ? ? B1 B2]; subst. split.
    + intros (r & E). destruct (take k t a) as [[a' s] | | |] eqn:Ea; try discriminate E. cbn [obind] in E.
      destruct (partId n s) as [p | | |] eqn:Ep; try discriminate E. cbn [obind] in E. cbv zeta in E.
      apply (take_ok k t a a' s T) in Ea. constructor; [exists a'; tauto |].
      destruct (spread k t n leaders items _) as [x | | |] eqn:Er; try discriminate E. eapply IH; [exact B2 | eauto].
    + intros F. inversion F as [| ? ? [a' F1] F2]; subst. destruct (sent_text k t a a' T F1) as (s & Hs).
      rewrite (proj2 (take_ok k t a a' s T) (conj F1 Hs)). cbn [obind].
      destruct (C22_part_id_in_range n s (text_bytes k t a s B1 Hs)) as (p & -> & _); [unfold int32_max in Hn; lia |]. cbn [obind].
      destruct (proj2 (IH (addTo match aget Z.eqb p leaders with Some h => h | None => noHost end p a' cl) B2) F2) as ([r' cl'] & ->). cbn. eauto.
Qed.
Lemma packed_nd v : packed v <> Diverge.
Proof. destruct v; discriminate. Qed.
Lemma textOf_nd v : textOf v <> Diverge.
Proof. destruct v; discriminate. Qed.
Lemma at_nd r i : at_ r i <> Diverge.
Proof. unfold at_. destruct (nth_error r i); discriminate. Qed.
Lemma bind_nd {A C} (o : outcome A) (f : A -> outcome C) : o <> Diverge -> (forall a, f a <> Diverge) -> obind o f <> Diverge.
Proof. intros H1 H2. destruct o; cbn; auto; discriminate. Qed.
Lemma take_nd {A} (k : kind A) t a : take k t a <> Diverge.
Proof.
  destruct k; cbn [take]; unfold takeRow, takeVertex, takeEdge, takeTags, takeKey, takeValue; try discriminate; destruct t.
  all: repeat first [ apply packed_nd | apply textOf_nd | apply at_nd | discriminate | apply bind_nd; [| intros]
    | match goal with |- (let (_, _) := ?x in _) <> _ => destruct x end | match goal with |- (if ?b then _ else _) <> _ => destruct b end ].
Qed.
(** With a known space all of whose parts have replicas, a call makes its requests exactly if every id is of the type of the space; otherwise the
    process ends *)
Theorem C120_ends : forall A S (k : kind A) li space n items (spec : S) t, served space n -> callType k space t -> Forall (bytesFit k) items ->
  (exists reqs items' li', storageCall k li space items spec = Ret (mkSent (Some reqs) items' li')) <-> Forall (idsFit k t) items.
Proof.
  intros A S k li space n items spec t H Ct Bf. pose proof (served_parts _ _ H) as Hn. destruct (served_leaders _ _ H li) as (ls & li1 & El).
  assert (Hr : 0 < n <= int32_max) by (destruct H as (alloc & _ & _ & Hl & _); lia).
  rewrite <- (spread_ends k t n ls (callType_typed _ _ _ Ct) Hr items [] Bf). unfold StoreReqModel.storageCall.
  replace (if asksType k then spaceVidType cache vidTypes true space else Some TFixedString) with (Some t).
  2: { unfold callType in Ct. destruct (asksType k); [| congruence]. unfold spaceVidType. destruct H as (alloc & -> & _). congruence. }
  rewrite Hn, El. cbn [obind]. split.
  - intros (reqs & items' & li' & E). destruct (spread k t n ls items []) as [[i c] | | |]; try discriminate E. eauto.
  - intros ([i c] & ->). cbn [obind]. eauto.
Qed.
Theorem C120_ends_otherwise : forall A S (k : kind A) li space n items (spec : S) t, served space n -> callType k space t -> Forall (bytesFit k) items ->
  ~ Forall (idsFit k t) items -> storageCall k li space items spec = Fatal \/ storageCall k li space items spec = UB.
Proof.
  intros A S k li space n items spec t H Ct Bf F. pose proof (served_parts _ _ H) as Hn. destruct (served_leaders _ _ H li) as (ls & li1 & El).
  assert (Hr : 0 < n <= int32_max) by (destruct H as (alloc & _ & _ & Hl & _); lia).
  unfold StoreReqModel.storageCall.
  replace (if asksType k then spaceVidType cache vidTypes true space else Some TFixedString) with (Some t).
  2: { unfold callType in Ct. destruct (asksType k); [| congruence]. unfold spaceVidType. destruct H as (alloc & -> & _). congruence. }
  rewrite Hn, El. cbn [obind].
  assert (D : forall items cl, Forall (bytesFit k) items -> spread k t n ls items cl <> Diverge).
  { clear - Ct Hr. pose proof (callType_typed _ _ _ Ct) as T. induction items as [| a items IH]; intros cl Bf; cbn [spread]; [discriminate |].
    inversion Bf as [| ? ? B1 B2]; subst. destruct (take k t a) as [[a' s] | | |] eqn:Ea; try discriminate.
    - cbn [obind]. apply (take_ok k t a a' s T) in Ea.
      destruct (C22_part_id_in_range n s (text_bytes k t a s B1 (proj2 Ea))) as (p & -> & _); [unfold int32_max in Hr; lia |]. cbn [obind].
      specialize (IH (addTo match aget Z.eqb p ls with Some h => h | None => noHost end p a' cl) B2).
      destruct (spread k t n ls items _) as [[r' c'] | | |]; try discriminate. congruence.
    - exfalso. exact (take_nd k t a Ea). }
  destruct (spread k t n ls items []) as [[i c] | | |] eqn:E; cbn [obind]; auto.
  - exfalso. apply F. apply (spread_ends k t n ls (callType_typed _ _ _ Ct) Hr items [] Bf). eauto.
  - exfalso. eapply D; eauto.
Qed.

(** ** What becomes of the caller's items *)
Lemma sent_same {A} (k : kind A) a a' : sentAs k TFixedString a a' -> a' = a.
Proof.
  assert (I : forall v v', sentId TFixedString v v' -> v' = v) by (intros v v' (s & H & ->); inversion H; reflexivity).
  assert (K : forall k k', sentKey TFixedString k k' -> k' = k).
  { intros [x1 t1 r1 y1] [x2 t2 r2 y2] (H & E1 & E2 & E3). cbn in *. apply I in H. congruence. }
  destruct k; cbn.
  - intros (v & v' & r & r' & -> & -> & H & E). apply I in H. congruence.
  - destruct a, a'. cbn. intros [H ->]. apply I in H. congruence.
  - destruct a, a'. cbn. intros [H ->]. apply K in H. congruence.
  - apply K.
  - apply I.
  - destruct a, a'. cbn. intros [H ->]. apply I in H. congruence.
  - auto.
  - auto.
Qed.
(** Rows that are passed by reference are unchanged if the ids of the space are texts, or if the call ends with an error *)
Theorem C121_unchanged : forall A S (k : kind A) li space items (spec : S) reqs items' li',
  storageCall k li space items spec = Ret (mkSent reqs items' li') -> callType k space TFixedString \/ reqs = None -> items' = items.
Proof.
  intros A S k li space items spec reqs items' li' E. destruct reqs as [reqs |].
  - intros [Ct | D]; [| discriminate D]. destruct (call_inv _ _ _ _ _ _ _ _ E) as (t & n & leaders & cl & Ct' & _ & _ & Es & _).
    assert (t = TFixedString) as -> by (unfold callType in *; destruct (asksType k); congruence).
    destruct (spread_spec k TFixedString n leaders (callType_typed _ _ _ Ct) _ _ _ _ Es) as (ps & F & _).
    clear - F. induction F as [| a a' l l' H F IH]; [reflexivity |]. apply sent_same in H. congruence.
  - intros _. unfold StoreReqModel.storageCall in E.
    destruct (if asksType k then spaceVidType cache vidTypes true space else Some TFixedString) as [t |]; [| congruence].
    destruct (partsNum cache space) as [n |]; [| congruence].
    destruct (partLeaders cache true space 1 (Z.to_nat n) li []) as [[ls l1] | | |]; try discriminate E. cbn [obind] in E.
    destruct ls as [leaders |]; [| congruence]. destruct (spread k t n leaders items []) as [[i c] | | |]; discriminate E.
Qed.
(** If they are integers, every row is changed by the call, and the same call with the rows it leaves ends the process *)
Theorem C121_integer_spaces : forall S edge li space n items (spec : S) reqs items' li', served space n -> vidTypes space = Some TInt64 -> items <> [] ->
  storageCall (KRow edge) li space items spec = Ret (mkSent (Some reqs) items' li') ->
  Forall2 (fun r r' => r <> r') items items' /\ storageCall (KRow edge) li' space items' spec = Fatal.
Proof.
  intros S edge li space n items spec reqs items' li' H Ct Hne E.
  destruct (call_inv _ _ _ _ _ _ _ _ E) as (t & n' & leaders & cl & Ct' & Hn & _ & Es & _). unfold callType in Ct'. cbn in Ct'.
  assert (t = TInt64) as -> by congruence.
  destruct (spread_spec (KRow edge) TInt64 n' leaders (or_introl eq_refl) _ _ _ _ Es) as (ps & F & _). split.
  - clear - F. induction F as [| a a' l l' X F IH]; [constructor |]. constructor; [| exact IH].
    cbn in X. destruct X as (v & v' & r & r' & -> & -> & (s & X & ->) & _). inversion X; subst. congruence.
  - destruct (served_leaders _ _ H li') as (ls & li1 & El). unfold StoreReqModel.storageCall. cbn [asksType]. unfold spaceVidType.
    rewrite (served_parts _ _ H), El. destruct H as (alloc & -> & _). rewrite Ct. cbn [obind].
    destruct F as [| a a' l l' X F]; [congruence |]. cbn in X. destruct X as (v & v' & r & r' & -> & -> & (s & X & ->) & _). reflexivity.
Qed.

(** ** Calls with one request *)
Theorem C122_single : forall A (k : kind A) li space n a h part a' li', partsNum cache space = Some n ->
  singleCall k li space a = Ret (Some (h, part, a'), li') ->
  exists t, callType k space t /\ sentAs k t a a' /\ partOf t n (vertexOf k a) part /\ kget (space, part) (leaderMap li') = Some h.
Proof.
  intros A k li space n a h part a' li' Hn E. unfold StoreReqModel.singleCall in E.
  destruct (if asksType k then spaceVidType cache vidTypes true space else Some TFixedString) as [t |] eqn:Et; [| discriminate E].
  rewrite Hn in E. assert (Ct : callType k space t).
  { unfold callType. destruct (asksType k); [| congruence]. unfold spaceVidType in Et. destruct (aget Z.eqb space cache); [exact Et | discriminate]. }
  destruct (take k t a) as [[x s] | | |] eqn:Ea; try discriminate E. cbn [obind] in E.
  destruct (partId n s) as [p | | |] eqn:Ep; try discriminate E. cbn [obind] in E.
  destruct (getLeader cache true li (space, p)) as [[g l1] | | |] eqn:El; try discriminate E. cbn [obind] in E.
  destruct g as [g |]; [| discriminate E]. injection E as -> -> -> ->.
  apply (take_ok k t a a' s (callType_typed _ _ _ Ct)) in Ea. exists t. splits; try tauto.
  - exists s. tauto.
  - eapply get_sets. exact El.
Qed.
(** A scan goes to the host the leader cache holds for the part that is asked for, before the call if there was one *)
Theorem C122_scan : forall li space part h li', StoreReqModel.scanCall cache true li space part = Ret (Some h, li') ->
  kget (space, part) (leaderMap li') = Some h /\ forall g, kget (space, part) (leaderMap li) = Some g -> g = h.
Proof.
  intros li space part h li' E. unfold StoreReqModel.scanCall in E. split; [eapply get_sets; exact E|].
  intros g G. unfold getLeader in E. cbn [negb] in E. rewrite G in E. congruence.
Qed.
(** An update goes to the host and the part to which an insertion of the vertex went, as long as the leader cache is the same *)
Theorem C122_follows_insertion : forall A C S (k : kind A) (k' : kind C) li space n items (spec : S) reqs items' li1 a b h part b' li2,
  asksType k = asksType k' -> partsNum cache space = Some n -> 0 < n <= int32_max -> bytesFit k a ->
  storageCall k li space items spec = Ret (mkSent (Some reqs) items' li1) -> In a items -> vertexOf k a = vertexOf k' b ->
  singleCall k' li1 space b = Ret (Some (h, part, b'), li2) ->
  exists t a', sentAs k t a a' /\ In a' (itemsFor reqs h part).
Proof.
  intros A C S k k' li space n items spec reqs items' li1 a b h part b' li2 At Hn Hpos Bf E Ha Ev E2.
  destruct (C122_single _ _ _ _ _ _ _ _ _ _ Hn E2) as (t & Ct & _ & (s & Hs & Hp) & L).
  destruct (C120_requests _ _ _ _ _ _ _ _ _ _ _ E Hn ltac:(lia)) as (t1 & ps & leaderOf & Ct1 & F1 & F2 & Lo & G & _).
  assert (t1 = t) as -> by (unfold callType in *; rewrite At in Ct1; destruct (asksType k'); congruence).
  assert (Hr : 1 <= part <= n).
  { destruct (C22_part_id_in_range n s) as (q & Eq & Hq & _); [| unfold int32_max in Hpos; lia | rewrite Hp in Eq; injection Eq as <-; exact Hq].
    rewrite <- Ev in Hs. eapply text_bytes; eauto. }
  assert (Lh : leaderOf part = h).
  { pose proof (Lo part Hr) as L1. unfold StoreReqModel.singleCall in E2.
    destruct (if asksType k' then spaceVidType cache vidTypes true space else Some TFixedString) as [t2 |]; [| discriminate E2].
    rewrite Hn in E2. destruct (take k' t2 b) as [[x s2] | | |]; try discriminate E2. cbn [obind] in E2.
    destruct (partId n s2) as [p2 | | |]; try discriminate E2. cbn [obind] in E2.
    destruct (getLeader cache true li1 (space, p2)) as [[g l3] | | |] eqn:El; try discriminate E2. cbn [obind] in E2.
    destruct g as [g |]; [| discriminate E2]. injection E2 as -> -> _ _.
    unfold getLeader in El. cbn [negb] in El. rewrite L1 in El. congruence. }
  assert (Hin : forall ps items' items, In a items -> Forall2 (sentAs k t) items items' -> Forall2 (fun a p => partOf t n (vertexOf k a) p) items ps ->
            exists a', sentAs k t a a' /\ In (part, a') (combine ps items')).
  { clear - Ev Hs Hp. intros ps items' items H F1. revert ps. induction F1 as [| x x' l l' X F1 IH]; intros ps F2; [destruct H |].
    inversion F2 as [| ? p ? ps' P F2']; subst. destruct H as [-> | H].
    - exists x'. split; [exact X |]. left. destruct P as (s1 & H1 & P1). rewrite Ev in H1. pose proof (idText_fun _ _ _ _ H1 Hs). congruence.
    - destruct (IH H _ F2') as (a' & A1 & A2). exists a'. split; [exact A1 | right; exact A2]. }
  destruct (Hin _ _ _ Ha F1 F2) as (a' & A1 & A2). exists t, a'. split; [exact A1 |]. rewrite G.
  replace (hostEqb h (leaderOf part)) with true by (symmetry; apply hostEqb_ok; congruence).
  apply in_map_iff. exists (part, a'). split; [reflexivity |]. apply filter_In. split; [exact A2 | apply Z.eqb_refl].
Qed.
(** A lookup asks for every part exactly once, at the host that the leader cache holds for it *)
Lemma hostParts_spec space : forall count part li acc cl li', hostPartsLoop cache true space part count li acc = Ret (Some cl, li') ->
  (forall k h, kget k (leaderMap li) = Some h -> kget k (leaderMap li') = Some h) /\
  Permutation (flat_map snd cl) (flat_map snd acc ++ map (fun i => part + Z.of_nat i) (seq 0 count)) /\
  (NoDup (akeys acc) -> NoDup (akeys cl)) /\
  (forall h ps, In (h, ps) cl -> forall p, In p ps -> (exists ps', In (h, ps') acc /\ In p ps') \/ kget (space, p) (leaderMap li') = Some h).
Proof.
  induction count as [| c IH]; intros part li acc cl li' E; cbn [hostPartsLoop] in E.
  - injection E as <- <-. splits; auto; [cbn; rewrite app_nil_r; reflexivity |]. intros h ps H p P. left. eauto.
  - destruct (getLeader cache true li (space, part)) as [[g l1] | | |] eqn:El; try discriminate E. cbn [obind] in E.
    destruct g as [g |]; [| discriminate E]. destruct (IH _ _ _ _ _ E) as (H1 & H2 & H3 & H4). splits.
    + intros k h K. apply H1. eapply get_keeps; eauto.
    + eapply perm_trans; [exact H2 |]. cbn [seq map]. rewrite <- seq_shift, map_map.
      replace (map (fun x => part + Z.of_nat (Datatypes.S x)) (seq 0 c)) with (map (fun i => part + 1 + Z.of_nat i) (seq 0 c)) by (apply map_ext; intros; lia).
      replace (part + Z.of_nat 0) with part by lia.
      eapply perm_trans; [| apply Permutation_middle].
      rewrite app_comm_cons. apply Permutation_app_tail.
      clear. induction acc as [| [h ps] acc IH]; cbn [aget aset flat_map]; [reflexivity |]. destruct (hostEqb g h) eqn:Eg; cbn [flat_map snd].
      * rewrite <- app_assoc. cbn. apply Permutation_sym, Permutation_middle.
      * eapply perm_trans; [apply Permutation_app_head, IH |]. apply Permutation_sym, Permutation_middle.
    + intros N. apply H3. apply (aset_keys hostEqb hostEqb_ok). exact N.
    + intros h ps Hin p Hp. destruct (H4 _ _ Hin _ Hp) as [(ps' & Ha & Hb) | K]; [| auto].
      apply in_aset in Ha. destruct Ha as [Ha | Ha]; [| left; eauto]. injection Ha as -> ->. apply in_app_iff in Hb. destruct Hb as [Hb | [<- | []]].
      * destruct (aget hostEqb g acc) as [q |] eqn:Eg; [| destruct Hb]. left. exists q. split; [apply (aget_In hostEqb hostEqb_ok); exact Eg | exact Hb].
      * right. apply H1. eapply get_sets. exact El.
Qed.
Theorem C122_lookup : forall S li space (spec : S) reqs li' n, partsNum cache space = Some n ->
  lookupCall cache true li space spec = Ret (Some reqs, li') ->
  NoDup (map fst reqs) /\
  Permutation (flat_map (fun r => snd (fst (snd r))) reqs) (map Z.of_nat (seq 1 (Z.to_nat n))) /\
  forall h sp ps sc, In (h, (sp, ps, sc)) reqs -> sp = space /\ sc = spec /\ forall p, In p ps -> kget (space, p) (leaderMap li') = Some h.
Proof.
  intros S li space spec reqs li' n Hn E. unfold lookupCall, getHostParts in E. rewrite Hn in E.
  destruct (hostPartsLoop cache true space 1 (Z.to_nat n) li []) as [[hp l1] | | |] eqn:El; try discriminate E. cbn [obind] in E.
  destruct hp as [cl |]; [| discriminate E]. injection E as <- <-. destruct (hostParts_spec _ _ _ _ _ _ _ El) as (_ & P & K & L). splits.
  - rewrite map_map. cbn. apply K. constructor.
  - eapply perm_trans; [| eapply perm_trans; [exact P |]].
    + clear. induction cl as [| [h ps] cl IH]; cbn; [reflexivity |]. apply Permutation_app_head. exact IH.
    + cbn [flat_map app]. rewrite <- seq_shift, map_map. replace (map (fun x => Z.of_nat (Datatypes.S x)) (seq 0 (Z.to_nat n))) with (map (fun i => 1 + Z.of_nat i) (seq 0 (Z.to_nat n)))
        by (apply map_ext; intros; lia). reflexivity.
  - intros h sp ps sc H. apply in_map_iff in H. destruct H as ([h0 q] & H & Hin). cbn in H. injection H as <- <- <- <-. splits; auto.
    intros p Hp. destruct (L _ _ Hin _ Hp) as [(x & [] & _) | K']. exact K'.
Qed.
End P.

(** ** Cases *)
Definition alloc0 : list (Z * list host) := [(1, [(B "a", 1); (B "b", 1)]); (2, [(B "b", 1)])].
Definition cache0 : allocCache := [(1, alloc0); (2, alloc0)].
Definition types0 (s : Z) : option vidType := if s =? 1 then Some TInt64 else Some TFixedString.
Definition li0 : leaderInfo := mkLI [((1, 1), (B "a", 1)); ((2, 1), (B "a", 1))] [].
Definition edge0 : edgeKey := mkEK (VInt 3) 5 0 (VInt 4).
Lemma served0 : served cache0 1 2.
Proof.
  exists alloc0. splits; try reflexivity; try (unfold int32_max; lia). intros p Hp. assert (p = 1 \/ p = 2) as [-> | ->] by lia; eexists; (split; [reflexivity | discriminate]).
Qed.
Example C120_example :
  (exists li', storageCall cache0 types0 true KEdge li0 1 [mkNE edge0 [VBool true]; mkNE (mkEK (VInt 2) 5 0 (VInt 3)) []; mkNE (mkEK (VInt 5) 5 0 (VInt 4)) []] tt =
     Ret (mkSent (Some [((B "b", 1), mkRequest 1 [(2, [mkNE (mkEK (VStr (le8 3)) 5 0 (VStr (le8 4))) [VBool true]; mkNE (mkEK (VStr (le8 5)) 5 0 (VStr (le8 4))) []])] tt);
                        ((B "a", 1), mkRequest 1 [(1, [mkNE (mkEK (VStr (le8 2)) 5 0 (VStr (le8 3))) []])] tt)])
                 [mkNE (mkEK (VStr (le8 3)) 5 0 (VStr (le8 4))) [VBool true]; mkNE (mkEK (VStr (le8 2)) 5 0 (VStr (le8 3))) []; mkNE (mkEK (VStr (le8 5)) 5 0 (VStr (le8 4))) []] li')) /\
  partsNum cache0 1 = Some 2 /\ le8 3 = [3; 0; 0; 0; 0; 0; 0; 0] /\ le8 (-1) = [255; 255; 255; 255; 255; 255; 255; 255] /\
  callType types0 KEdge 1 TInt64 /\ bytesFit KEdge (mkNE edge0 []) /\ idsFit KEdge TInt64 (mkNE edge0 []) /\
  storageCall cache0 types0 true KEdge li0 1 [mkNE (mkEK (VStr (B "x")) 5 0 (VInt 3)) []] tt = Fatal.
Proof.
  splits; try (vm_compute; reflexivity).
  - eexists. vm_compute. reflexivity.
  - intros s E. discriminate E.
  - exists (mkNE (mkEK (VStr (le8 3)) 5 0 (VStr (le8 4))) []). cbn [sentAs]. unfold sentKey. splits; try reflexivity; [exists (le8 3) | exists (le8 4)]; (split; [apply it_int | reflexivity]).
Qed.
(** getNeighbors and getProps change the rows of the caller, which they take by constant reference; trying again with them ends the process *)
Theorem C121_rows_refuted : exists cache types li space rows (spec : Z) reqs rows' li',
  storageCall cache types true (KRow false) li space rows spec = Ret (mkSent (Some reqs) rows' li') /\ rows' <> rows /\
  storageCall cache types true (KRow false) li' space rows' spec = Fatal.
Proof.
  exists cache0, types0, li0, 1, [[VInt 3; VBool true]], 0. do 3 eexists. splits; [vm_compute; reflexivity | discriminate | vm_compute; reflexivity].
Qed.
Example C121_example : exists reqs li',
  storageCall cache0 types0 true (KRow true) li0 2 [[VStr (B "v"); VInt 5; VInt 0; VStr (B "w")]] tt = Ret (mkSent (Some reqs) [[VStr (B "v"); VInt 5; VInt 0; VStr (B "w")]] li') /\
  callType types0 (KRow true) 2 TFixedString /\ served cache0 1 2 /\ types0 1 = Some TInt64.
Proof. do 2 eexists. splits; try (vm_compute; reflexivity). exact served0. Qed.
Example C122_example : exists reqs items' li1 li2,
  storageCall cache0 types0 true KVertex li0 1 [mkNV (VInt 3) []; mkNV (VInt 2) []] tt = Ret (mkSent (Some reqs) items' li1) /\
  singleCall cache0 types0 true KValue li1 1 (VInt 3) = Ret (Some ((B "b", 1), 2, VStr (le8 3)), li2) /\
  itemsFor reqs (B "b", 1) 2 = [mkNV (VStr (le8 3)) []] /\
  (exists li3, lookupCall cache0 true li0 1 tt = Ret (Some [((B "a", 1), (1, [1], tt)); ((B "b", 1), (1, [2], tt))], li3)).
Proof. do 4 eexists. splits; try (vm_compute; reflexivity). eexists. vm_compute. reflexivity. Qed.
Example C122_scan_example : exists li', StoreReqModel.scanCall cache0 true li0 1 2 = Ret (Some (B "b", 1), li').
Proof. eexists. vm_compute. reflexivity. Qed.

Print Assumptions C122_scan.
Print Assumptions C120_requests.
Print Assumptions C120_integers.
Print Assumptions C120_ends.
Print Assumptions C120_ends_otherwise.
Print Assumptions C121_unchanged.
Print Assumptions C121_integer_spaces.
Print Assumptions C121_rows_refuted.
Print Assumptions C122_single.
Print Assumptions C122_follows_insertion.
Print Assumptions C122_lookup.
