(** Property C52: notifications about changed parts. *)
From Coq Require Import String List.
From Verif Require Import Prelude Trans ValueBase ValueProofs LeaderModel AssocModel DiffModel.
Import ListNotations.
Open Scope Z_scope.

(** * Specification *)

(** What a listener that follows the notifications knows: the spaces it serves, and the replicas of each part. *)
Record mirror := mkM { spaces : Z -> bool; parts : Z -> Z -> option (list host) }.
Definition sameMirror (a b : mirror) : Prop := (forall s, spaces a s = spaces b s) /\ (forall s p, parts a s p = parts b s p).
(** One notification. Each is meaningful only in a matching state: a space is added once, parts are added to a known
    space, only known parts are updated or removed, and a space is removed when it has no part left. *)
Inductive follows : mirror -> note -> mirror -> Prop :=
| f_space_added m m' s : spaces m s = false ->
    (forall s', spaces m' s' = (s' =? s) || spaces m s') -> (forall s' p, parts m' s' p = parts m s' p) ->
    follows m (NSpaceAdded s) m'
| f_space_removed m m' s : spaces m s = true -> (forall p, parts m s p = None) ->
    (forall s', spaces m' s' = negb (s' =? s) && spaces m s') -> (forall s' p, parts m' s' p = parts m s' p) ->
    follows m (NSpaceRemoved s) m'
| f_part_added m m' s p hs : spaces m s = true -> parts m s p = None -> (forall s', spaces m' s' = spaces m s') ->
    (forall s' p', parts m' s' p' = if (s' =? s) && (p' =? p) then Some hs else parts m s' p') ->
    follows m (NPartAdded (mkPH s p hs)) m'
| f_part_updated m m' s p hs old : parts m s p = Some old -> (forall s', spaces m' s' = spaces m s') ->
    (forall s' p', parts m' s' p' = if (s' =? s) && (p' =? p) then Some hs else parts m s' p') ->
    follows m (NPartUpdated (mkPH s p hs)) m'
| f_part_removed m m' s p old : parts m s p = Some old -> (forall s', spaces m' s' = spaces m s') ->
    (forall s' p', parts m' s' p' = if (s' =? s) && (p' =? p) then None else parts m s' p') ->
    follows m (NPartRemoved s p) m'.
Fixpoint followsAll (m : mirror) (ns : list note) (m' : mirror) : Prop :=
  match ns with [] => sameMirror m m' | n :: ns' => exists m1, follows m n m1 /\ followsAll m1 ns' m' end.

(** The assignment a cache describes for a host: the parts that have the host among their replicas. *)
Definition allocOf (c : localCache) (s p : Z) : option (list host) :=
  match aget Z.eqb s c with Some si => aget Z.eqb p (partsAlloc si) | None => None end.
Definition assigned (h : host) (c : localCache) (s p : Z) (hs : list host) : Prop :=
  allocOf c s p = Some hs /\ In h hs.
Definition describes (h : host) (c : localCache) (m : mirror) : Prop :=
  (forall s p hs, parts m s p = Some hs <-> assigned h c s p hs) /\
  (forall s, spaces m s = true <-> exists p hs, assigned h c s p hs).
(** A cache as loadData builds it: partsOnHost_ is the reverse of partsAlloc_ (216-217). *)
Definition loaded (c : localCache) : Prop :=
  NoDup (akeys c) /\ forall s si, In (s, si) c -> NoDup (akeys (partsAlloc si)) /\ partsOnHost si = reverse (partsAlloc si).

(** the part a notification is about *)
Definition about (s p : Z) (n : note) : bool :=
  match n with
  | NPartAdded ph | NPartUpdated ph => (phSpace ph =? s) && (phPart ph =? p)
  | NPartRemoved s' p' => (s' =? s) && (p' =? p)
  | _ => false
  end.
Definition aboutSpace (s : Z) (n : note) : bool :=
  match n with NSpaceAdded s' | NSpaceRemoved s' => s' =? s | _ => false end.

(** * reverse and doGetPartsMap *)
Lemma addPart_get part h m h' : aget hostEqb h' (addPart part m h) =
  if hostEqb h' h then Some (match aget hostEqb h m with Some l => l | None => [] end ++ [part]) else aget hostEqb h' m.
Proof. unfold addPart. apply (aget_aset hostEqb hostEqb_ok). Qed.
Definition getL (h : host) (m : list (host * list Z)) : list Z := match aget hostEqb h m with Some l => l | None => [] end.
Lemma addParts_In part hs : forall m h p, In p (getL h (fold_left (addPart part) hs m)) <-> In p (getL h m) \/ (p = part /\ In h hs).
Proof.
  induction hs as [|h0 hs IH]; intros m h p; cbn [fold_left]; [cbn; tauto|].
  rewrite IH. unfold getL at 1. rewrite addPart_get. destruct (hostEqb h h0) eqn:E.
  - apply hostEqb_ok in E. subst h0. change (match aget hostEqb h m with Some l => l | None => [] end) with (getL h m).
    rewrite in_app_iff. cbn. intuition.
  - assert (h0 <> h) by (intros ->; rewrite (eqb_self hostEqb hostEqb_ok) in E; discriminate).
    change (match aget hostEqb h m with Some l => l | None => [] end) with (getL h m). cbn. tauto.
Qed.
Lemma reverse_In alloc h p : In p (getL h (reverse alloc)) <-> exists hs, In (p, hs) alloc /\ In h hs.
Proof.
  unfold reverse. assert (G : forall alloc m, In p (getL h (fold_left (fun m ph => fold_left (addPart (fst ph)) (snd ph) m) alloc m)) <->
    In p (getL h m) \/ exists hs, In (p, hs) alloc /\ In h hs).
  { clear. induction alloc as [|[q hs] alloc IH]; intros m; cbn [fold_left fst snd].
    - split; [auto|]. intros [H | (hs & [] & _)]. assumption.
    - rewrite IH, addParts_In. split.
      + intros [[H | [-> H]] | (hs' & H & Hh)]; [left; assumption|right; exists hs; cbn; auto|right; exists hs'; cbn; auto].
      + intros [H | (hs' & [H | H] & Hh)]; [auto| |right; eauto]. injection H as <- <-. auto. }
  rewrite G. cbn. tauto.
Qed.

Definition lookup (m : partsMap) (s p : Z) : option partHosts :=
  match aget Z.eqb s m with Some ps => aget Z.eqb p ps | None => None end.
(** keys are distinct, and no space is empty *)
Definition pmOk (m : partsMap) : Prop :=
  NoDup (akeys m) /\ forall s ps, In (s, ps) m -> NoDup (akeys ps) /\ ps <> [] /\ (forall p ph, In (p, ph) ps -> phSpace ph = s /\ phPart ph = p).
Lemma setPart_lookup m s p ph s' p' : lookup (setPart m s p ph) s' p' = if (s' =? s) && (p' =? p) then Some ph else lookup m s' p'.
Proof.
  unfold lookup, setPart. rewrite (aget_aset Z.eqb Z.eqb_eq). destruct (Z.eqb_spec s' s) as [-> |]; cbn [andb]; [|reflexivity].
  rewrite (aget_aset Z.eqb Z.eqb_eq). destruct (p' =? p); [reflexivity|]. destruct (aget Z.eqb s m); reflexivity.
Qed.
Lemma aset_nonnil {V} k (v : V) l : aset Z.eqb k v l <> [].
Proof. destruct l as [|[k' v'] l]; cbn; [discriminate|]. destruct (k =? k'); discriminate. Qed.
Lemma aset_In_inv {V} k (v : V) l x : In x (aset Z.eqb k v l) -> x = (k, v) \/ In x l.
Proof.
  induction l as [|[k' v'] l IH]; cbn; [intros [H | []]; auto|].
  destruct (k =? k'); cbn; intros [H | H]; auto. destruct (IH H); auto.
Qed.
Lemma setPart_ok m s p hs : pmOk m -> pmOk (setPart m s p (mkPH s p hs)).
Proof.
  intros [N H]. unfold setPart. split; [apply (aset_keys Z.eqb Z.eqb_eq), N|].
  intros s' ps Hin. apply aset_In_inv in Hin. destruct Hin as [E | Hin]; [|apply H; assumption].
  injection E as -> ->.
  assert (G : NoDup (akeys (match aget Z.eqb s m with Some ps => ps | None => [] end)) /\
    forall p ph, In (p, ph) (match aget Z.eqb s m with Some ps => ps | None => [] end) -> phSpace ph = s /\ phPart ph = p).
  { destruct (aget Z.eqb s m) as [ps|] eqn:E; [|split; [constructor|intros ? ? []]].
    apply (aget_In Z.eqb Z.eqb_eq) in E. destruct (H s ps E) as (H1 & _ & H3). auto. }
  destruct G as [G1 G2]. split; [apply (aset_keys Z.eqb Z.eqb_eq), G1|]. split; [apply aset_nonnil|].
  intros q ph Hq. apply aset_In_inv in Hq. destruct Hq as [E | Hq]; [injection E as -> ->; auto|apply G2; assumption].
Qed.

Lemma partsOf_spec s alloc ps : (forall p, In p ps -> exists hs, aget Z.eqb p alloc = Some hs) -> forall m, pmOk m ->
  exists m', partsOf s alloc ps m = Ret m' /\ pmOk m' /\
    (forall s' p', s' <> s -> lookup m' s' p' = lookup m s' p') /\
    (forall p', lookup m' s p' = if existsb (Z.eqb p') ps then option_map (mkPH s p') (aget Z.eqb p' alloc) else lookup m s p').
Proof.
  induction ps as [|p ps IH]; intros Hall m Hok; cbn [partsOf].
  - exists m. cbn. splits; auto.
  - destruct (Hall p (or_introl eq_refl)) as (hs & E). rewrite E.
    destruct (IH (fun q Hq => Hall q (or_intror Hq)) (setPart m s p (mkPH s p hs)) (setPart_ok m s p hs Hok)) as (m' & R & O & L1 & L2).
    exists m'. splits; auto.
    + intros s' p' Hne. rewrite L1, setPart_lookup by assumption. destruct (Z.eqb_spec s' s); [congruence|reflexivity].
    + intros p'. rewrite L2. cbn [existsb]. destruct (existsb (Z.eqb p') ps) eqn:Ex; [rewrite orb_true_r; reflexivity|].
      rewrite orb_false_r, setPart_lookup, Z.eqb_refl. cbn [andb]. destruct (Z.eqb_spec p' p) as [-> |]; [|reflexivity].
      rewrite E. reflexivity.
Qed.

Lemma existsb_In p l : existsb (Z.eqb p) l = true <-> In p l.
Proof. rewrite existsb_exists. split; [intros (x & H & E); apply Z.eqb_eq in E; subst; auto|intros H; exists p; split; [assumption|apply Z.eqb_refl]]. Qed.

Lemma partsMap_spec h c : forall m, NoDup (akeys c) ->
  (forall s si, In (s, si) c -> NoDup (akeys (partsAlloc si)) /\ partsOnHost si = reverse (partsAlloc si)) -> pmOk m ->
  exists m', partsMapFrom h c m = Ret m' /\ pmOk m' /\
    forall s p, match aget Z.eqb s c with
                | None => lookup m' s p = lookup m s p
                | Some si => (exists hs, aget Z.eqb p (partsAlloc si) = Some hs /\ In h hs /\ lookup m' s p = Some (mkPH s p hs)) \/
                             ((forall hs, aget Z.eqb p (partsAlloc si) = Some hs -> ~ In h hs) /\ lookup m' s p = lookup m s p)
                end.
Proof.
  induction c as [|[s0 si] c IH]; intros m N Hload Hok; cbn [partsMapFrom].
  - exists m. splits; auto. intros s p. reflexivity.
  - inversion N as [|? ? N1 N2]; subst. destruct (Hload s0 si (or_introl eq_refl)) as [Na Er].
    assert (Hall : forall p, In p (getL h (partsOnHost si)) <-> exists hs, aget Z.eqb p (partsAlloc si) = Some hs /\ In h hs).
    { intros p. rewrite Er, reverse_In. split; intros (hs & H1 & H2); exists hs; (split; [|assumption]).
      - apply (In_aget Z.eqb Z.eqb_eq); assumption.
      - apply (aget_In Z.eqb Z.eqb_eq); assumption. }
    assert (P : exists m1, (match aget hostEqb h (partsOnHost si) with Some ps => partsOf s0 (partsAlloc si) ps m | None => Ret m end) = Ret m1 /\ pmOk m1 /\
      (forall s' p', s' <> s0 -> lookup m1 s' p' = lookup m s' p') /\
      (forall p', lookup m1 s0 p' = if existsb (Z.eqb p') (getL h (partsOnHost si)) then option_map (mkPH s0 p') (aget Z.eqb p' (partsAlloc si)) else lookup m s0 p')).
    { unfold getL in *. destruct (aget hostEqb h (partsOnHost si)) as [ps|].
      - apply partsOf_spec; [|assumption]. intros p Hp. apply Hall in Hp. destruct Hp as (hs & E & _). eauto.
      - exists m. cbn. splits; auto. }
    destruct P as (m1 & E1 & O1 & L1 & L2). rewrite E1. cbn [obind].
    destruct (IH m1 N2 (fun s si' Hin => Hload s si' (or_intror Hin)) O1) as (m' & R & O' & L').
    exists m'. splits; auto. intros s p. specialize (L' s p). cbn [aget].
    destruct (Z.eqb_spec s s0) as [-> |Hne].
    + assert (aget Z.eqb s0 c = None) as En by (apply (aget_None Z.eqb Z.eqb_eq); assumption). rewrite En in L'. rewrite L', L2.
      destruct (existsb (Z.eqb p) (getL h (partsOnHost si))) eqn:Ex.
      * apply existsb_In, Hall in Ex. destruct Ex as (hs & E & Hh). left. exists hs. rewrite E. splits; auto.
      * right. split; [|reflexivity]. intros hs E Hh.
        assert (existsb (Z.eqb p) (getL h (partsOnHost si)) = true) by (apply existsb_In, Hall; eauto). congruence.
    + rewrite L1 in L' by assumption. exact L'.
Qed.

(** doGetPartsMap gives exactly the parts assigned to the host. *)
Lemma doGetPartsMap_spec h c : loaded c -> exists m, doGetPartsMap h c = Ret m /\ pmOk m /\
  forall s p ph, lookup m s p = Some ph <-> phSpace ph = s /\ phPart ph = p /\ assigned h c s p (phHosts ph).
Proof.
  intros [N H]. destruct (partsMap_spec h c [] N H) as (m & R & O & L). { split; [constructor|intros ? ? []]. }
  exists m. splits; auto. intros s p ph. specialize (L s p). unfold assigned, allocOf.
  destruct (aget Z.eqb s c) as [si|].
  - destruct L as [(hs & E & Hh & L) | [Hno L]].
    + rewrite L, E. split; [intros X; injection X as <-; cbn; auto|]. intros (<- & <- & X & _). injection X as ->. destruct ph; reflexivity.
    + rewrite L. split; [discriminate|]. intros (_ & _ & E & Hh). exfalso. eapply Hno; eassumption.
  - rewrite L. split; [discriminate|]. intros (_ & _ & X & _). discriminate X.
Qed.

(** * The notifications *)
Lemma followsAll_same a a' ns b : sameMirror a a' -> followsAll a ns b -> followsAll a' ns b.
Proof.
  intros [S1 S2]. destruct ns as [|n ns]; cbn.
  - intros [T1 T2]. split; intros; rewrite <- ?S1, <- ?S2; auto.
  - intros (m1 & F & R). exists m1. split; [|assumption]. inversion F; subst.
    + apply f_space_added; intros; rewrite <- ?S1, <- ?S2; auto.
    + apply f_space_removed; intros; rewrite <- ?S1, <- ?S2; auto.
    + apply f_part_added; intros; rewrite <- ?S1, <- ?S2; auto.
    + eapply f_part_updated; intros; rewrite <- ?S1, <- ?S2; eauto.
    + eapply f_part_removed; intros; rewrite <- ?S1, <- ?S2; eauto.
Qed.
Lemma followsAll_app l1 : forall l2 a b c, followsAll a l1 b -> followsAll b l2 c -> followsAll a (l1 ++ l2) c.
Proof.
  induction l1 as [|n l1 IH]; intros l2 a b c; cbn.
  - intros S H. eapply followsAll_same; [|exact H]. destruct S. split; auto.
  - intros (m1 & F & R) H. exists m1. split; [assumption|]. eapply IH; eassumption.
Qed.
Lemma followsAll_end ns : forall a b b', followsAll a ns b -> sameMirror b b' -> followsAll a ns b'.
Proof.
  induction ns as [|n ns IH]; intros a b b'; cbn.
  - intros [S1 S2] [T1 T2]. split; intros; rewrite ?S1, ?S2; auto.
  - intros (m1 & F & R) S. exists m1. split; [assumption|]. eapply IH; eassumption.
Qed.

Definition over (m : mirror) (s : Z) (new : Z -> option (list host)) : mirror :=
  mkM (spaces m) (fun s' p => if s' =? s then new p else parts m s' p).
Definition hostsOf (ps : list (Z * partHosts)) (p : Z) : option (list host) := option_map phHosts (aget Z.eqb p ps).
Definition psOk (s : Z) (ps : list (Z * partHosts)) : Prop := NoDup (akeys ps) /\ forall p ph, In (p, ph) ps -> phSpace ph = s /\ phPart ph = p.
Lemma psOk_tail s e ps : psOk s (e :: ps) -> psOk s ps.
Proof. intros [N H]. inversion N; subst. split; [assumption|]. intros p ph Hin. apply H. right. assumption. Qed.

Lemma add_parts s ps : forall m, psOk s ps -> spaces m s = true -> (forall p, In p (akeys ps) -> parts m s p = None) ->
  followsAll m (map (fun pe => NPartAdded (snd pe)) ps)
    (over m s (fun p => match hostsOf ps p with Some hs => Some hs | None => parts m s p end)).
Proof.
  induction ps as [|[p ph] ps IH]; intros m Hok Hs Hnone; cbn [map followsAll].
  - split; intros; cbn; auto. destruct (Z.eqb_spec s0 s) as [-> |]; auto.
  - destruct ph as [s1 p1 hs]. destruct (proj2 Hok p _ (or_introl eq_refl)) as [E1 E2]. cbn in E1, E2. subst s1 p1.
    pose proof (proj1 Hok) as N. inversion N as [|? ? N1 N2]; subst.
    exists (over m s (fun q => if q =? p then Some hs else parts m s q)). split.
    + apply f_part_added; cbn; auto; [apply Hnone; left; reflexivity|].
      intros s' p'. destruct (Z.eqb_spec s' s) as [-> |]; cbn [andb]; reflexivity.
    + eapply followsAll_end; [apply IH; [eapply psOk_tail; eassumption|exact Hs|]|].
      * intros q Hq. cbn. rewrite Z.eqb_refl. destruct (Z.eqb_spec q p) as [-> |]; [contradiction|]. apply Hnone. right. exact Hq.
      * split; intros; cbn; auto. unfold hostsOf. cbn [aget fst snd].
        destruct (Z.eqb_spec s0 s) as [-> |]; [|reflexivity]. rewrite Z.eqb_refl. destruct (Z.eqb_spec p0 p) as [-> |].
        -- assert (aget Z.eqb p ps = None) as -> by (apply (aget_None Z.eqb Z.eqb_eq); assumption). reflexivity.
        -- reflexivity.
Qed.

Lemma hostsEqb_ok a b : hostsEqb a b = true <-> a = b.
Proof.
  revert b. induction a as [|x a IH]; intros [|y b]; cbn; try (split; congruence).
  rewrite andb_true_iff, hostEqb_ok, IH. split; [intros [-> ->]; reflexivity|intros H; injection H; auto].
Qed.
Lemma phEqb_ok a b : phEqb a b = true <-> a = b.
Proof.
  destruct a, b. unfold phEqb. cbn. rewrite !andb_true_iff, !Z.eqb_eq, hostsEqb_ok.
  split; [intros [[-> ->] ->]; reflexivity|intros H; injection H; auto].
Qed.

Lemma update_parts s old ps : psOk s old -> forall m, psOk s ps -> spaces m s = true ->
  (forall p, In p (akeys ps) -> parts m s p = hostsOf old p) ->
  followsAll m (flat_map (diffNewPart old) ps)
    (over m s (fun p => match hostsOf ps p with Some hs => Some hs | None => parts m s p end)).
Proof.
  intros Hold. induction ps as [|[p ph] ps IH]; intros m Hok Hs Hp; cbn [flat_map].
  - cbn. split; intros; cbn; auto. destruct (Z.eqb_spec s0 s) as [-> |]; auto.
  - destruct ph as [s1 p1 hs]. destruct (proj2 Hok p _ (or_introl eq_refl)) as [E1 E2]. cbn in E1, E2. subst s1 p1.
    pose proof (proj1 Hok) as N. inversion N as [|? ? N1 N2]; subst.
    set (m1 := over m s (fun q => if q =? p then Some hs else parts m s q)).
    apply followsAll_app with (b := m1).
    + unfold diffNewPart. cbn [fst snd]. pose proof (Hp p (or_introl eq_refl)) as E. unfold hostsOf in E.
      destruct (aget Z.eqb p old) as [oph|] eqn:G.
      * destruct (phEqb oph (mkPH s p hs)) eqn:Q.
        -- apply phEqb_ok in Q. subst oph. cbn in E. cbn. split; intros; cbn; auto.
           destruct (Z.eqb_spec s0 s) as [-> |]; auto. destruct (Z.eqb_spec p0 p) as [-> |]; auto.
        -- cbn. exists m1. split; [|split; auto]. eapply f_part_updated; [exact E|reflexivity|].
           intros s' p'. cbn. destruct (Z.eqb_spec s' s) as [-> |]; reflexivity.
      * cbn. exists m1. split; [|split; auto]. apply f_part_added; auto. intros s' p'. cbn. destruct (Z.eqb_spec s' s) as [-> |]; reflexivity.
    + eapply followsAll_end; [apply IH; [eapply psOk_tail; eassumption|exact Hs|]|].
      * intros q Hq. cbn. rewrite Z.eqb_refl. destruct (Z.eqb_spec q p) as [-> |]; [contradiction|]. apply Hp. right. exact Hq.
      * split; intros; cbn; auto. unfold hostsOf. cbn [aget fst snd].
        destruct (Z.eqb_spec s0 s) as [-> |]; [|reflexivity]. rewrite Z.eqb_refl. destruct (Z.eqb_spec p0 p) as [-> |].
        -- assert (aget Z.eqb p ps = None) as -> by (apply (aget_None Z.eqb Z.eqb_eq); assumption). reflexivity.
        -- reflexivity.
Qed.

Definition lookHosts (m : partsMap) (s p : Z) : option (list host) := option_map phHosts (lookup m s p).
Definition isSome {A} (o : option A) : bool := match o with Some _ => true | None => false end.
Definition hasSpace (m : partsMap) (s : Z) : bool := isSome (aget Z.eqb s m).

Lemma pmOk_tail e m : pmOk (e :: m) -> pmOk m.
Proof. intros [N H]. inversion N; subst. split; [assumption|]. intros s ps Hin. apply H. right. assumption. Qed.
Lemma pmOk_get m s ps : pmOk m -> aget Z.eqb s m = Some ps -> psOk s ps /\ ps <> [].
Proof. intros [N H] E. apply (aget_In Z.eqb Z.eqb_eq) in E. destruct (H s ps E) as (A & B & C). splits; auto. split; auto. Qed.

Lemma phase1 old : pmOk old -> forall new m, pmOk new ->
  (forall s, In s (akeys new) -> spaces m s = hasSpace old s /\ forall p, parts m s p = lookHosts old s p) ->
  followsAll m (flat_map (diffNewSpace old) new)
    (mkM (fun s => hasSpace new s || spaces m s) (fun s p => match lookHosts new s p with Some hs => Some hs | None => parts m s p end)).
Proof.
  intros Hold. induction new as [|[s ps] new IH]; intros m Hnew Hm; cbn [flat_map].
  - cbn. split; reflexivity.
  - destruct (pmOk_get _ s ps Hnew) as [Hps _]; [cbn; rewrite Z.eqb_refl; reflexivity|].
    pose proof (proj1 Hnew) as N. inversion N as [|? ? N1 N2]; subst. destruct (Hm s (or_introl eq_refl)) as [Hs Hp].
    set (m1 := mkM (fun s' => (s' =? s) || spaces m s') (parts m)).
    set (m2 := over m1 s (fun p => match hostsOf ps p with Some hs => Some hs | None => parts m1 s p end)).
    apply followsAll_app with (b := m2).
    + unfold diffNewSpace. cbn [fst snd]. unfold hasSpace in Hs. destruct (aget Z.eqb s old) as [ops|] eqn:G; cbn in Hs.
      * eapply followsAll_same with (a := m1).
        { split; intros; cbn; auto. destruct (Z.eqb_spec s0 s) as [-> |]; auto. }
        apply update_parts; auto; [exact (proj1 (pmOk_get old s ops Hold G))|cbn; rewrite Z.eqb_refl; reflexivity|].
        intros p _. cbn. rewrite Hp. unfold lookHosts, lookup. rewrite G. reflexivity.
      * cbn [followsAll]. exists m1. split.
        -- apply f_space_added; auto.
        -- apply add_parts; auto; [cbn; rewrite Z.eqb_refl; reflexivity|].
           intros p _. cbn. rewrite Hp. unfold lookHosts, lookup. rewrite G. reflexivity.
    + eapply followsAll_end; [apply IH; [eapply pmOk_tail; eassumption|]|].
      * intros s' Hs'. assert (s' <> s) by (intros ->; contradiction). cbn.
        destruct (Z.eqb_spec s' s); [congruence|]. cbn. apply Hm. right. exact Hs'.
      * assert (Gn : aget Z.eqb s new = None) by (apply (aget_None Z.eqb Z.eqb_eq); assumption).
        split; intros; cbn; unfold hasSpace, lookHosts, lookup; cbn [aget]; destruct (Z.eqb_spec s0 s) as [-> |]; auto.
        -- rewrite Gn. reflexivity.
        -- rewrite Gn. cbn. reflexivity.
Qed.

Lemma remove_parts s ps : forall m, psOk s ps -> (forall p, In p (akeys ps) -> parts m s p <> None) ->
  followsAll m (map (fun pe => NPartRemoved s (fst pe)) ps)
    (over m s (fun p => if isSome (aget Z.eqb p ps) then None else parts m s p)).
Proof.
  induction ps as [|[p ph] ps IH]; intros m Hok Hp; cbn [map followsAll].
  - split; intros; cbn; auto. destruct (Z.eqb_spec s0 s) as [-> |]; auto.
  - pose proof (proj1 Hok) as N. inversion N as [|? ? N1 N2]; subst. cbn [fst].
    destruct (parts m s p) as [hs|] eqn:E; [|exfalso; apply (Hp p); [left; reflexivity|assumption]].
    exists (over m s (fun q => if q =? p then None else parts m s q)). split.
    + eapply f_part_removed; [exact E|reflexivity|]. intros s' p'. cbn. destruct (Z.eqb_spec s' s) as [-> |]; reflexivity.
    + eapply followsAll_end; [apply IH; [eapply psOk_tail; eassumption|]|].
      * intros q Hq. cbn. rewrite Z.eqb_refl. destruct (Z.eqb_spec q p) as [-> |]; [contradiction|]. apply Hp. right. exact Hq.
      * split; intros; cbn; auto. destruct (Z.eqb_spec s0 s) as [-> |]; [|reflexivity]. rewrite Z.eqb_refl.
        destruct (Z.eqb_spec p0 p) as [-> |]; [|reflexivity]. cbn.
        destruct (isSome (aget Z.eqb p ps)); reflexivity.
Qed.
Lemma remove_missing s new ps : forall m, psOk s ps -> (forall p, In p (akeys ps) -> parts m s p <> None) ->
  followsAll m (flat_map (diffOldPart s new) ps)
    (over m s (fun p => if isSome (aget Z.eqb p ps) && negb (isSome (aget Z.eqb p new)) then None else parts m s p)).
Proof.
  induction ps as [|[p ph] ps IH]; intros m Hok Hp; cbn [flat_map].
  - cbn. split; intros; cbn; auto. destruct (Z.eqb_spec s0 s) as [-> |]; auto.
  - pose proof (proj1 Hok) as N. inversion N as [|? ? N1 N2]; subst.
    set (m1 := over m s (fun q => if (q =? p) && negb (isSome (aget Z.eqb p new)) then None else parts m s q)).
    apply followsAll_app with (b := m1).
    + unfold diffOldPart. cbn [fst]. destruct (aget Z.eqb p new) eqn:G; cbn.
      * split; intros; cbn; auto. rewrite andb_false_r. destruct (Z.eqb_spec s0 s) as [-> |]; auto.
      * destruct (parts m s p) as [hs|] eqn:E; [|exfalso; apply (Hp p); [left; reflexivity|assumption]].
        exists m1. split; [|split; auto]. eapply f_part_removed; [exact E|reflexivity|].
        intros s' p'. cbn. rewrite andb_true_r. destruct (Z.eqb_spec s' s) as [-> |]; reflexivity.
    + eapply followsAll_end; [apply IH; [eapply psOk_tail; eassumption|]|].
      * intros q Hq. cbn. rewrite Z.eqb_refl. destruct (Z.eqb_spec q p) as [-> |]; [contradiction|]. cbn. apply Hp. right. exact Hq.
      * assert (Gn : aget Z.eqb p ps = None) by (apply (aget_None Z.eqb Z.eqb_eq); assumption).
        split; intros; cbn; auto. destruct (Z.eqb_spec s0 s) as [-> |]; [|reflexivity]. rewrite Z.eqb_refl.
        destruct (Z.eqb_spec p0 p) as [-> |]; [|reflexivity]. rewrite Gn. reflexivity.
Qed.

Lemma phase2 new : pmOk new -> forall old m, pmOk old ->
  (forall s, In s (akeys old) -> spaces m s = true /\ (forall p, lookup old s p <> None -> parts m s p <> None) /\
     (hasSpace new s = false -> forall p, lookup old s p = None -> parts m s p = None)) ->
  followsAll m (flat_map (diffOldSpace new) old)
    (mkM (fun s => if hasSpace old s && negb (hasSpace new s) then false else spaces m s)
         (fun s p => if isSome (lookup old s p) && negb (isSome (lookup new s p)) then None else parts m s p)).
Proof.
  intros Hnew. induction old as [|[s ps] old IH]; intros m Hold Hm; cbn [flat_map].
  - cbn. split; reflexivity.
  - assert (G0 : aget Z.eqb s ((s, ps) :: old) = Some ps) by (cbn; rewrite Z.eqb_refl; reflexivity).
    destruct (pmOk_get _ s ps Hold G0) as [Hps _].
    pose proof (proj1 Hold) as N. inversion N as [|? ? N1 N2]; subst. destruct (Hm s (or_introl eq_refl)) as (Hs & Hp & Hq).
    assert (HpP : forall p, In p (akeys ps) -> parts m s p <> None).
    { intros p Hin. apply Hp. unfold lookup. rewrite G0. intros E. apply (aget_None Z.eqb Z.eqb_eq) in E. contradiction. }
    set (m1 := over m s (fun p => if isSome (aget Z.eqb p ps) && negb (isSome (lookup new s p)) then None else parts m s p)).
    set (m2 := mkM (fun s' => if (s' =? s) && negb (hasSpace new s) then false else spaces m s') (parts m1)).
    apply followsAll_app with (b := m2).
    + unfold diffOldSpace. cbn [fst snd]. unfold hasSpace in *. destruct (aget Z.eqb s new) as [nps|] eqn:G; cbn in Hq.
      * eapply followsAll_end; [apply remove_missing; auto|]. split; intros; cbn.
        -- rewrite andb_false_r. reflexivity.
        -- unfold lookup. rewrite G. reflexivity.
      * apply followsAll_app with (b := m1).
        -- eapply followsAll_end; [apply remove_parts; auto|]. split; intros; cbn; auto. unfold lookup. rewrite G.
           cbn. rewrite andb_true_r. reflexivity.
        -- cbn. exists m2. split; [|split; auto]. apply f_space_removed; auto.
           ++ intros p. cbn. rewrite Z.eqb_refl. unfold lookup. rewrite G. cbn. rewrite andb_true_r.
              destruct (isSome (aget Z.eqb p ps)) eqn:I; [reflexivity|]. apply Hq; [reflexivity|]. unfold lookup. rewrite G0.
              destruct (aget Z.eqb p ps); [discriminate I|reflexivity].
           ++ intros s'. cbn. rewrite andb_true_r. destruct (s' =? s); reflexivity.
    + eapply followsAll_end; [apply IH; [eapply pmOk_tail; eassumption|]|].
      * intros s' Hs'. assert (Hne : s' <> s) by (intros ->; contradiction). cbn.
        destruct (Z.eqb_spec s' s); [congruence|]. cbn. destruct (Hm s' (or_intror Hs')) as (A & B & C). splits; auto.
        -- intros p Hl. apply B. unfold lookup in *. cbn [aget]. destruct (Z.eqb_spec s' s); [congruence|assumption].
        -- intros Hn p Hl. apply C; auto. unfold lookup in *. cbn [aget]. destruct (Z.eqb_spec s' s); [congruence|assumption].
      * assert (Gn : aget Z.eqb s old = None) by (apply (aget_None Z.eqb Z.eqb_eq); assumption).
        split; intros; cbn; unfold hasSpace, lookup; cbn [aget]; destruct (Z.eqb_spec s0 s) as [-> |]; auto.
        -- rewrite Gn. reflexivity.
        -- rewrite Gn. cbn. reflexivity.
Qed.

(** The mirror a parts map stands for. *)
Definition mirrorOf (m : partsMap) : mirror := mkM (hasSpace m) (lookHosts m).
Lemma diffMaps_follows old new : pmOk old -> pmOk new -> followsAll (mirrorOf old) (diffMaps old new) (mirrorOf new).
Proof.
  intros Ho Hn. unfold diffMaps. eapply followsAll_app.
  - apply phase1; auto.
  - eapply followsAll_end; [apply phase2; auto|].
    + intros s Hs. cbn. assert (hasSpace old s = true) as Es.
      { unfold hasSpace. destruct (aget Z.eqb s old) eqn:E; [reflexivity|]. apply (aget_None Z.eqb Z.eqb_eq) in E. contradiction. }
      rewrite Es, orb_true_r. splits; auto.
      * intros p Hl. unfold lookHosts. destruct (lookup new s p); cbn; [discriminate|]. destruct (lookup old s p); cbn; [discriminate|congruence].
      * intros Hns p Hl. unfold lookHosts, hasSpace in *. unfold lookup at 1. destruct (aget Z.eqb s new); [discriminate Hns|]. cbn. rewrite Hl. reflexivity.
    + split; intros; cbn.
      * destruct (hasSpace old s) eqn:Eo, (hasSpace new s) eqn:En; reflexivity.
      * unfold lookHosts. destruct (lookup old s p) eqn:Eo, (lookup new s p) eqn:En; cbn; reflexivity.
Qed.

(** * C52 *)

(** Following the notifications of a refresh turns a mirror of the old assignment into one of the new assignment,
    for every pair of caches as loadData builds them; the CHECK in doGetPartsMap never fails. *)
Theorem C52_notifications_reproduce : forall local old new mo, loaded old -> loaded new -> describes local old mo ->
  exists ns mn, diff local old new = Ret ns /\ followsAll mo ns mn /\ describes local new mn.
Proof.
  intros local old new mo Lo Ln [Do1 Do2].
  destruct (doGetPartsMap_spec local old Lo) as (pmo & Eo & Oo & So). destruct (doGetPartsMap_spec local new Ln) as (pmn & En & On & Sn).
  assert (D : forall c pm, pmOk pm -> (forall s p ph, lookup pm s p = Some ph <-> phSpace ph = s /\ phPart ph = p /\ assigned local c s p (phHosts ph)) ->
    describes local c (mirrorOf pm)).
  { clear. intros c pm O S. assert (D1 : forall s p hs, parts (mirrorOf pm) s p = Some hs <-> assigned local c s p hs).
    { intros s p hs. cbn. unfold lookHosts. split.
      - destruct (lookup pm s p) as [ph|] eqn:E; [|discriminate]. apply S in E. cbn. intros X. injection X as <-. tauto.
      - intros A. assert (lookup pm s p = Some (mkPH s p hs)) as -> by (apply S; auto). reflexivity. }
    split; [exact D1|]. intros s. cbn. unfold hasSpace. split.
    - destruct (aget Z.eqb s pm) as [ps|] eqn:E; [|discriminate]. intros _. destruct (pmOk_get pm s ps O E) as [[N _] Hne].
      destruct ps as [|[p ph] ps]; [congruence|]. exists p, (phHosts ph). apply D1. cbn. unfold lookHosts, lookup. rewrite E. cbn. rewrite Z.eqb_refl. reflexivity.
    - intros (p & hs & A). apply D1 in A. cbn in A. unfold lookHosts, lookup in A. destruct (aget Z.eqb s pm); [reflexivity|discriminate A]. }
  assert (S0 : sameMirror (mirrorOf pmo) mo).
  { destruct (D old pmo Oo So) as [D1 D2]. split.
    - intros s. apply eq_true_iff_eq. rewrite D2, Do2. reflexivity.
    - intros s p. destruct (parts mo s p) as [hs|] eqn:E.
      + apply D1, Do1, E.
      + destruct (parts (mirrorOf pmo) s p) as [hs|] eqn:E2; [|reflexivity]. apply D1, Do1 in E2. congruence. }
  exists (diffMaps pmo pmn), (mirrorOf pmn). unfold diff. rewrite En, Eo. cbn [obind]. splits; auto.
  eapply followsAll_same; [exact S0|]. apply diffMaps_follows; assumption.
Qed.

(** * Each change is reported once, and nothing else is *)
Lemma count_flat_keyed {V} (f : Z * V -> list note) (P : note -> bool) s m : NoDup (akeys m) ->
  (forall e, In e m -> fst e <> s -> count P (f e) = 0) ->
  count P (flat_map f m) = match aget Z.eqb s m with Some v => count P (f (s, v)) | None => 0 end.
Proof.
  induction m as [|[k v] m IH]; intros N H; cbn [flat_map aget]; [reflexivity|]. inversion N as [|? ? N1 N2]; subst.
  rewrite count_app, IH; auto; [|intros e He; apply H; right; assumption].
  destruct (Z.eqb_spec s k) as [<- |Hne].
  - assert (aget Z.eqb s m = None) as -> by (apply (aget_None Z.eqb Z.eqb_eq); assumption). lia.
  - rewrite H by (cbn; auto). lia.
Qed.
Lemma count_zero {A} (P : A -> bool) l : (forall x, In x l -> P x = false) -> count P l = 0.
Proof. induction l as [|x l IH]; cbn; intros H; auto. rewrite H, IH by auto. reflexivity. Qed.
Lemma count_one {A} (P : A -> bool) x : count P [x] = if P x then 1 else 0.
Proof. cbn. lia. Qed.

Definition differ (a b : option (list host)) : bool :=
  match a, b with Some x, Some y => negb (hostsEqb x y) | None, None => false | _, _ => true end.

Lemma map_flat {A B} (f : A -> B) l : map f l = flat_map (fun x => [f x]) l.
Proof. induction l; cbn; congruence. Qed.

Lemma count_parts old new s p : pmOk old -> pmOk new ->
  count (about s p) (diffMaps old new) = if differ (lookHosts old s p) (lookHosts new s p) then 1 else 0.
Proof.
  intros Ho Hn. unfold diffMaps. rewrite count_app.
  assert (Zph : forall s' p' ph, phSpace ph = s' -> phPart ph = p' -> s' <> s \/ p' <> p -> (phSpace ph =? s) && (phPart ph =? p) = false).
  { intros s' p' ph -> -> H. destruct (Z.eqb_spec s' s), (Z.eqb_spec p' p); try reflexivity. tauto. }
  assert (P1 : count (about s p) (flat_map (diffNewSpace old) new) =
     match lookup new s p with None => 0 | Some ph => match lookup old s p with None => 1 | Some oph => if phEqb oph ph then 0 else 1 end end).
  { rewrite (count_flat_keyed _ _ s); [|exact (proj1 Hn)|].
    - unfold lookup at 1. destruct (aget Z.eqb s new) as [ps|] eqn:E; [|reflexivity].
      destruct (pmOk_get new s ps Hn E) as [[Np Hps] _]. unfold diffNewSpace. cbn [fst snd]. unfold lookup.
      destruct (aget Z.eqb s old) as [ops|].
      + rewrite (count_flat_keyed _ _ p); [|exact Np|].
        * destruct (aget Z.eqb p ps) as [ph|] eqn:Ep; [|reflexivity].
          apply (aget_In Z.eqb Z.eqb_eq) in Ep. destruct (Hps p ph Ep) as [Q1 Q2]. unfold diffNewPart. cbn [fst snd].
          destruct (aget Z.eqb p ops) as [oph|]; [destruct (phEqb oph ph)|]; rewrite ?count_one; cbn [about]; rewrite ?Q1, ?Q2, ?Z.eqb_refl; reflexivity.
        * intros [q ph] He Hne. cbn in Hne. destruct (Hps q ph He) as [Q1 Q2]. unfold diffNewPart. cbn [fst snd].
          destruct (aget Z.eqb q ops) as [oph|]; [destruct (phEqb oph ph)|]; rewrite ?count_one; cbn [about]; rewrite ?(Zph s q ph) by tauto; reflexivity.
      + cbn [count about]. rewrite map_flat, (count_flat_keyed _ _ p); [|exact Np|].
        * destruct (aget Z.eqb p ps) as [ph|] eqn:Ep; [|reflexivity]. apply (aget_In Z.eqb Z.eqb_eq) in Ep. destruct (Hps p ph Ep) as [Q1 Q2].
          rewrite count_one. cbn [about snd]. rewrite Q1, Q2, !Z.eqb_refl. reflexivity.
        * intros [q ph] He Hne. cbn in Hne. destruct (Hps q ph He) as [Q1 Q2]. rewrite count_one. cbn [about snd]. rewrite (Zph s q ph) by tauto. reflexivity.
    - intros [s' ps] He Hne. cbn in Hne. destruct Hn as [_ Hn]. destruct (Hn s' ps He) as (_ & _ & Hps). apply count_zero.
      intros n Hin. unfold diffNewSpace in Hin. cbn [fst snd] in Hin. destruct (aget Z.eqb s' old) as [ops|].
      + apply in_flat_map in Hin. destruct Hin as ([q ph] & Hq & Hin). destruct (Hps q ph Hq) as [Q1 Q2]. unfold diffNewPart in Hin. cbn [fst snd] in Hin.
        destruct (aget Z.eqb q ops) as [oph|]; [destruct (phEqb oph ph)|]; cbn in Hin; destruct Hin as [<- | []] || destruct Hin; cbn; apply (Zph s' q); tauto.
      + destruct Hin as [<- | Hin]; [reflexivity|]. apply in_map_iff in Hin. destruct Hin as ([q ph] & <- & Hq). destruct (Hps q ph Hq) as [Q1 Q2].
        cbn. apply (Zph s' q); tauto. }
  assert (P2 : count (about s p) (flat_map (diffOldSpace new) old) =
     match lookup old s p with None => 0 | Some _ => match lookup new s p with None => 1 | Some _ => 0 end end).
  { rewrite (count_flat_keyed _ _ s); [|exact (proj1 Ho)|].
    - unfold lookup at 1. destruct (aget Z.eqb s old) as [ps|] eqn:E; [|reflexivity].
      destruct (pmOk_get old s ps Ho E) as [[Np Hps] _]. unfold diffOldSpace. cbn [fst snd]. unfold lookup.
      destruct (aget Z.eqb s new) as [nps|].
      + rewrite (count_flat_keyed _ _ p); [|exact Np|].
        * destruct (aget Z.eqb p ps) as [ph|] eqn:Ep; [|reflexivity]. unfold diffOldPart. cbn [fst snd].
          destruct (aget Z.eqb p nps); rewrite ?count_one; cbn [about]; rewrite ?Z.eqb_refl; reflexivity.
        * intros [q ph] He Hne. cbn in Hne. unfold diffOldPart. cbn [fst snd].
          destruct (aget Z.eqb q nps); rewrite ?count_one; cbn [about]; [reflexivity|]. destruct (Z.eqb_spec q p); [congruence|]. rewrite andb_false_r. reflexivity.
      + rewrite count_app. cbn [count about]. rewrite map_flat, (count_flat_keyed _ _ p); [|exact Np|].
        * destruct (aget Z.eqb p ps) as [ph|] eqn:Ep; [|reflexivity]. rewrite count_one. cbn [about fst]. rewrite !Z.eqb_refl. reflexivity.
        * intros [q ph] He Hne. cbn in Hne. rewrite count_one. cbn [about fst]. destruct (Z.eqb_spec q p); [congruence|]. rewrite andb_false_r. reflexivity.
    - intros [s' ps] He Hne. cbn in Hne. apply count_zero. intros n Hin. unfold diffOldSpace in Hin. cbn [fst snd] in Hin.
      assert (Zs : forall q, (s' =? s) && (q =? p) = false) by (intros q; destruct (Z.eqb_spec s' s); [congruence|reflexivity]).
      destruct (aget Z.eqb s' new) as [nps|].
      + apply in_flat_map in Hin. destruct Hin as ([q ph] & Hq & Hin). unfold diffOldPart in Hin. cbn [fst snd] in Hin.
        destruct (aget Z.eqb q nps); cbn in Hin; [destruct Hin|]. destruct Hin as [<- | []]. cbn. apply Zs.
      + apply in_app_iff in Hin. destruct Hin as [Hin | [<- | []]]; [|reflexivity]. apply in_map_iff in Hin. destruct Hin as ([q ph] & <- & Hq). cbn. apply Zs. }
  rewrite P1, P2. unfold lookHosts.
  destruct (lookup old s p) as [oph|] eqn:Eo, (lookup new s p) as [nph|] eqn:En; cbn [option_map differ]; try reflexivity.
  assert (phEqb oph nph = hostsEqb (phHosts oph) (phHosts nph)) as ->.
  { assert (K : forall m ph, pmOk m -> lookup m s p = Some ph -> phSpace ph = s /\ phPart ph = p).
    { intros m ph O L. unfold lookup in L. destruct (aget Z.eqb s m) as [ps|] eqn:E; [|discriminate L].
      destruct (pmOk_get m s ps O E) as [[_ H] _]. apply H. apply (aget_In Z.eqb Z.eqb_eq), L. }
    unfold phEqb. destruct (K old oph Ho Eo) as [-> ->], (K new nph Hn En) as [-> ->]. rewrite !Z.eqb_refl. reflexivity. }
  destruct (hostsEqb (phHosts oph) (phHosts nph)); reflexivity.
Qed.

(** A part whose assignment changes is reported exactly once; any other part is not reported at all. *)
Theorem C52_each_change_once : forall local old new ns s p, loaded old -> loaded new -> diff local old new = Ret ns ->
  ((forall hs, assigned local old s p hs <-> assigned local new s p hs) -> count (about s p) ns = 0) /\
  (~ (forall hs, assigned local old s p hs <-> assigned local new s p hs) -> count (about s p) ns = 1).
Proof.
  intros local old new ns s p Lo Ln H.
  destruct (doGetPartsMap_spec local old Lo) as (pmo & Eo & Oo & So). destruct (doGetPartsMap_spec local new Ln) as (pmn & En & On & Sn).
  unfold diff in H. rewrite Eo, En in H. cbn [obind] in H. apply Ret_inj in H. subst ns. rewrite (count_parts pmo pmn s p Oo On).
  assert (K : forall c pm, (forall s p ph, lookup pm s p = Some ph <-> phSpace ph = s /\ phPart ph = p /\ assigned local c s p (phHosts ph)) ->
    forall hs, lookHosts pm s p = Some hs <-> assigned local c s p hs).
  { clear. intros c pm S hs. unfold lookHosts. split.
    - destruct (lookup pm s p) as [ph|] eqn:E; [|discriminate]. apply S in E. cbn. intros X. injection X as <-. tauto.
    - intros A. assert (lookup pm s p = Some (mkPH s p hs)) as -> by (apply S; auto). reflexivity. }
  pose proof (K old pmo So) as Ko. pose proof (K new pmn Sn) as Kn.
  assert (E : (forall hs, assigned local old s p hs <-> assigned local new s p hs) <-> lookHosts pmo s p = lookHosts pmn s p).
  { split.
    - intros A. destruct (lookHosts pmo s p) as [hs|] eqn:E1.
      + symmetry. apply Kn, A, Ko. reflexivity.
      + destruct (lookHosts pmn s p) as [hs|] eqn:E2; [|reflexivity]. assert (None = Some hs) by (apply Ko, A, Kn; reflexivity). discriminate.
    - intros A hs. rewrite <- Ko, <- Kn, A. reflexivity. }
  split; intros A.
  - apply E in A. rewrite A. destruct (lookHosts pmn s p); cbn; [|reflexivity]. rewrite (proj2 (hostsEqb_ok _ _) eq_refl). reflexivity.
  - destruct (lookHosts pmo s p) as [a|], (lookHosts pmn s p) as [b|]; cbn; try reflexivity; [|exfalso; apply A, E; reflexivity].
    destruct (hostsEqb a b) eqn:Q; [|reflexivity]. apply hostsEqb_ok in Q. subst. exfalso. apply A, E. reflexivity.
Qed.

(** Two spaces, of which the local host serves parts before and after. *)
Definition ha : host := (B "a", 1).
Definition hb : host := (B "b", 2).
Definition mkSpace (alloc : list (Z * list host)) : spaceInfo := mkSI (reverse alloc) alloc [].
Definition exOld : localCache := [(1, mkSpace [(1, [ha; hb]); (2, [hb]); (3, [ha])]); (2, mkSpace [(1, [ha])])].
Definition exNew : localCache := [(3, mkSpace [(7, [hb; ha])]); (1, mkSpace [(1, [ha; hb]); (2, [ha]); (3, [ha; hb])])].
Example C52_ex : diff ha exOld exNew =
  Ret [NSpaceAdded 3; NPartAdded (mkPH 3 7 [hb; ha]); NPartAdded (mkPH 1 2 [ha]); NPartUpdated (mkPH 1 3 [ha; hb]); NPartRemoved 2 1; NSpaceRemoved 2].
Proof. reflexivity. Qed.
Example C52_ex_loaded : loaded exOld /\ loaded exNew.
Proof.
  split; (split; [repeat constructor; cbn; intuition congruence|]); intros s si [H | [H | []]]; injection H as <- <-; (split; [repeat constructor; cbn; intuition congruence|reflexivity]).
Qed.

Print Assumptions C52_notifications_reproduce.
Print Assumptions C52_each_change_once.
