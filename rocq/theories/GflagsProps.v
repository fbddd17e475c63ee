(** * C111-C113: flags and the meta server *)
From Coq Require Import String List Lia ZArith Bool Permutation.
From Verif Require Import Prelude ValueBase ValueModel ValueProofs DecProofs NetModel EvalModel NetProps AssocModel DynModel DynProofs ConfModel ConfProps
  FullTextModel FullTextSpec FullTextProofs GflagsModel.
Import ListNotations.
Local Open Scope Z_scope.
Local Open Scope list_scope.

(** ** What a flag holds *)
Definition intType (t : ftype) : Prop := In t [FInt32; FUInt32; FInt64; FUInt64].
(** a flag of this type with this text holds this value *)
Inductive holds (W : dynWorld) : ftype -> str -> value -> Prop :=
| h_bool b : holds W FBool (boolStr b) (VBool b)
| h_int t z : intType t -> fst (flagRange t) <= z <= snd (flagRange t) -> z <= int64_max -> holds W t (decZ z) (VInt z)
| h_str s : holds W FString s (VStr s)
| h_double s x : dwStrDouble W s = Some x -> holds W FDouble s (VFloat x).

Lemma intType_range t : intType t -> int64_min <= fst (flagRange t).
Proof. intros [<- | [<- | [<- | [<- | []]]]]; cbn; unfold int32_min, int64_min; lia. Qed.
Lemma holds_value W t s v : holds W t s v -> gflagsValueToValue W (typeText t) s = Ret v.
Proof.
  intros [b | t' z I R M | s' | s' x E]; [destruct b; reflexivity | | reflexivity |].
  - pose proof (intType_range t' I). unfold gflagsValueToValue.
    replace (startsWithB (B "int") (typeText t') || startsWithB (B "uint") (typeText t')) with true
      by (destruct I as [<- | [<- | [<- | [<- | []]]]]; reflexivity).
    rewrite toInt64_decZ by lia. reflexivity.
  - unfold gflagsValueToValue. cbn -[dwStrDouble]. rewrite E. reflexivity.
Qed.
Definition notFloat (v : value) : Prop := match v with VFloat _ => False | _ => True end.
Lemma holds_typeName W t s v : holds W t s v -> notFloat v -> gflagsValueToValue W (typeName v) s = Ret v.
Proof.
  intros [b | t' z I R M | s' | s' x E] NF; [destruct b; reflexivity | | reflexivity | destruct NF].
  pose proof (intType_range t' I). unfold gflagsValueToValue. cbn [typeName]. change (startsWithB (B "int") (B "int")) with true. cbn [orb].
  rewrite toInt64_decZ by lia. reflexivity.
Qed.
Lemma holds_text W X t s v : holds W t s v -> notFloat v -> gflagText X v = Ret s.
Proof. intros [b | t' z I R M | s' | s' x E] NF; try reflexivity. destruct NF. Qed.

(** gflags takes over the texts of values *)
Lemma strtoWhole_decZ z : strtoWhole (decZ z) = Some z.
Proof.
  assert (K : forall n, 0 <= n -> exists c r, decZ n = c :: r /\ isDigit c = true).
  { intros n H. destruct (decZ_nonneg n H) as (N & D & _). destruct (decZ n) as [|c r]; [contradiction|]. exists c, r. cbn in D. apply andb_prop in D. tauto. }
  assert (DS : forall c r, isDigit c = true -> dropSpace (c :: r) = c :: r).
  { intros c r H. cbn. assert (isSpace c = false) as -> by (unfold isDigit, isSpace in *; lia). reflexivity. }
  unfold strtoWhole. destruct (Z.leb_spec 0 z) as [H | H].
  - destruct (K z H) as (c & r & E & D). destruct (decZ_nonneg z H) as (N & _ & G). specialize (G [] eq_refl). rewrite app_nil_r in G.
    rewrite E, DS by assumption. rewrite <- E.
    assert (X : takeSign (decZ z) = (false, decZ z)).
    { rewrite E. unfold takeSign. unfold isDigit in D. destruct c as [|p|p]; try reflexivity; try lia. do 7 (destruct p as [p|p|]; try reflexivity; try lia). }
    rewrite X, G, Nat.eqb_refl. destruct (decZ z); [contradiction|reflexivity].
  - destruct (K (- z)) as (c & r & E & D); [lia|]. destruct (decZ_nonneg (- z)) as (N & _ & G); [lia|]. specialize (G [] eq_refl). rewrite app_nil_r in G.
    rewrite decZ_neg by assumption. change (dropSpace (45 :: decZ (- z))) with (45 :: decZ (- z)). cbn [takeSign]. rewrite G, Z.opp_involutive, Nat.eqb_refl. destruct (decZ (- z)); [contradiction|reflexivity].
Qed.
Lemma decZ_noNul z : ~ In 0 (decZ z).
Proof. intros H. apply decZ_chars in H. destruct H as [H | H]; [discriminate | unfold isDigit in H; lia]. Qed.
Lemma decZ_noMinus z : 0 <= z -> existsb (Z.eqb 45) (decZ z) = false.
Proof.
  intros H. destruct (decZ_nonneg z H) as (_ & D & _). induction (decZ z) as [| c r IH]; [reflexivity |]. cbn [forallb existsb] in *.
  apply andb_prop in D. destruct D as [D1 D2]. rewrite IH by exact D2. unfold isDigit in D1. lia.
Qed.
Lemma flagParse_int G t z : intType t -> fst (flagRange t) <= z <= snd (flagRange t) -> flagParse G t (decZ z) = Some (decZ z).
Proof.
  intros I R.
  assert (HX : forall (A : Type) (a b : A), match decZ z with 48 :: 120 :: _ | 48 :: 88 :: _ => a | _ => b end = b).
  { intros A a b. destruct (decZ z) as [| c [| d r]] eqn:E; try reflexivity.
    - destruct c as [| c | c]; try reflexivity. do 6 (destruct c as [c | c |]; try reflexivity).
    - assert (D : d = 45 \/ isDigit d = true) by (apply (decZ_chars z); rewrite E; right; left; reflexivity).
      assert (D' : d <> 120 /\ d <> 88) by (destruct D as [-> | D]; [lia | unfold isDigit in D; lia]). destruct D' as [D1 D2]. clear - D1 D2.
      destruct c as [| c | c]; try reflexivity. do 6 (destruct c as [c | c |]; try reflexivity).
      destruct d as [| d | d]; try reflexivity. do 7 (destruct d as [d | d |]; try reflexivity); congruence. }
  assert (Q : (if (match t with FUInt32 | FUInt64 => existsb (Z.eqb 45) (decZ z) | _ => false end) then None else
        match strtoWhole (decZ z) with
        | Some z => if (fst (flagRange t) <=? z) && (z <=? snd (flagRange t)) then Some (decZ z) else None
        | None => None
        end) = Some (decZ z)).
  { rewrite strtoWhole_decZ. replace ((fst (flagRange t) <=? z) && (z <=? snd (flagRange t))) with true by lia.
    destruct I as [<- | [<- | [<- | [<- | []]]]]; try reflexivity; rewrite decZ_noMinus by (cbn in R; lia); reflexivity. }
  etransitivity; [| exact Q]. destruct I as [<- | [<- | [<- | [<- | []]]]]; unfold flagParse; apply HX.
Qed.

(** ** C111: flags are declared with the values they hold *)
(** A flag that holds a value is read as this value, under the flag's type and under the value's, and the value is printed as the flag's text. *)
Theorem C111_round_trip : forall W X t s v, holds W t s v -> gflagsValueToValue W (typeText t) s = Ret v /\
  (notFloat v -> gflagsValueToValue W (typeName v) s = Ret v /\ gflagText X v = Ret s).
Proof.
  intros W X t s v H. split; [apply holds_value; exact H |]. intros NF. split; [eapply holds_typeName; eassumption | eapply holds_text; eassumption].
Qed.

(** The modes: what the file lists, and the names built in. [conf]: what is in the file, None if it is missing or no JSON *)
Definition listed (W : dynWorld) (conf : option (list (str * dyn))) (key n : str) : Prop :=
  exists m l, conf = Some m /\ In (key, DArr l) m /\ (forall d, In d l -> asString W d <> None) /\ exists d, In d l /\ asString W d = Some n.
Definition builtinPlain : list str := map B
  ["max_edge_returned_per_vertex"; "minloglevel"; "v"; "heartbeat_interval_secs"; "meta_client_retry_times"; "slow_op_threshhold_ms";
   "wal_ttl"; "clean_wal_interval_secs"; "custom_filter_interval_secs"; "accept_partial_success"]%string.
Definition builtinNested : list str := map B ["rocksdb_db_options"; "rocksdb_column_family_options"; "rocksdb_block_based_table_options"]%string.
Definition nestedFlag W conf n : Prop := listed W conf (B "NESTED") n \/ (In n builtinNested /\ ~ listed W conf (B "MUTABLE") n).
Definition mutableFlag W conf n : Prop := listed W conf (B "MUTABLE") n \/ listed W conf (B "NESTED") n \/ In n builtinPlain \/ In n builtinNested.
(** the file as the program sees it *)
Definition fileIs (W : dynWorld) (file : option str) (conf : option (list (str * dyn))) : Prop :=
  match conf with
  | Some m => parseFromFile W newConf file = (true, DObj m) /\ NoDup (map fst m)
  | None => fst (parseFromFile W newConf file) = false
  end.

Lemma setModes_get names x n : forall m, aget strEqb n (setModes names x m) = if existsb (strEqb n) names then Some x else aget strEqb n m.
Proof.
  induction names as [| k names IH]; intros m; [reflexivity |]. cbn [setModes fold_left existsb]. unfold setModes in IH. rewrite IH.
  rewrite (aget_aset strEqb strEqb_eq). destruct (strEqb n k); cbn [orb]; [destruct (existsb (strEqb n) names); reflexivity | reflexivity].
Qed.
Lemma existsb_in n l : existsb (strEqb n) l = true <-> In n l.
Proof.
  rewrite existsb_exists. split; [intros (x & I & E); apply strEqb_eq in E; subst x; exact I | intros I; exists n; split; [exact I | apply strEqb_eq; reflexivity]].
Qed.
Lemma fetched_listed W m key : keyOk key -> NoDup (map fst m) -> exists ok ns, fetchAsStringArray W (DObj m) key [] = Ret (ok, ns) /\
  forall n, (ok = true /\ In n ns) <-> listed W (Some m) key n.
Proof.
  intros K N. destruct (C109_entries W m key K N) as (_ & _ & _ & H). destruct (H []) as (ok & ns & E & T & F). exists ok, ns. split; [exact E |].
  intros n. split.
  - intros [O I]. destruct (proj1 T O) as (l & Il & F2). exists m, l. splits; [reflexivity | exact Il | |].
    + clear - F2. induction F2 as [| d x l xs D F2 IH]; intros e I; [destruct I |]; destruct I as [<- | I]; [congruence | exact (IH e I)].
    + clear - F2 I. induction F2 as [| d x l xs D F2 IH]; [destruct I |]. destruct I as [<- | I]; [exists d; split; [left; reflexivity | exact D] |].
      destruct (IH I) as (e & Ie & De). exists e. split; [right; exact Ie | exact De].
  - intros (m' & l & Em & Il & A & (d & Id & D)). injection Em as <-. destruct ok.
    + destruct (proj1 T eq_refl) as (l' & Il' & F2).
      assert (l' = l) as ->. { apply dget_spec in Il; [| exact N]. apply dget_spec in Il'; [| exact N]. congruence. }
      split; [reflexivity |]. clear - F2 Id D. induction F2 as [| e x l xs De F2 IH]; [destruct Id |].
      destruct Id as [-> | Id]; [left; congruence | right; exact (IH Id)].
    + exfalso. destruct (F eq_refl) as [[NA _] | (l1 & e & l2 & Il' & _ & De)]; [exact (NA l Il) |].
      assert (l1 ++ e :: l2 = l) as <-. { apply dget_spec in Il; [| exact N]. apply dget_spec in Il'; [| exact N]. congruence. }
      apply (A e); [apply in_or_app; right; left; reflexivity | exact De].
Qed.
Lemma defaultModes_get n : aget strEqb n defaultModes = if existsb (strEqb n) builtinPlain then Some (MMutable, false) else if existsb (strEqb n) builtinNested then Some (MMutable, true) else None.
Proof.
  unfold defaultModes, builtinPlain, builtinNested. cbn [map app aget existsb].
  repeat match goal with |- context [strEqb n ?x] => destruct (strEqb n x); [reflexivity |] end. reflexivity.
Qed.
Lemma builtin_disjoint n : In n builtinNested -> ~ In n builtinPlain.
Proof. intros H. cbn in H. destruct H as [<- | [<- | [<- | []]]]; cbn; intros H; repeat (destruct H as [H | H]; [discriminate |]); destruct H. Qed.
(** Which flags count as mutable, and which as nested. *)
Theorem C111_modes : forall W file conf, fileIs W file conf -> exists modes, parseConfigJson W file = Ret modes /\ forall n,
  (aget strEqb n modes = Some (MMutable, true) <-> nestedFlag W conf n) /\ (aget strEqb n modes = Some (MMutable, false) <-> mutableFlag W conf n /\ ~ nestedFlag W conf n) /\
  (aget strEqb n modes = None <-> ~ mutableFlag W conf n) /\ (forall x, aget strEqb n modes = Some x -> fst x = MMutable).
Proof.
  intros W file conf FI. unfold parseConfigJson, nestedFlag, mutableFlag.
  assert (G : forall (l1 l2 : str -> bool) (modes : list (str * (configMode * bool))),
    (forall n, l1 n = true <-> listed W conf (B "MUTABLE") n) -> (forall n, l2 n = true <-> listed W conf (B "NESTED") n) ->
    (forall n, aget strEqb n modes = if l2 n then Some (MMutable, true) else if l1 n then Some (MMutable, false) else aget strEqb n defaultModes) ->
    forall n, (aget strEqb n modes = Some (MMutable, true) <-> listed W conf (B "NESTED") n \/ (In n builtinNested /\ ~ listed W conf (B "MUTABLE") n)) /\
      (aget strEqb n modes = Some (MMutable, false) <-> (listed W conf (B "MUTABLE") n \/ listed W conf (B "NESTED") n \/ In n builtinPlain \/ In n builtinNested) /\
        ~ (listed W conf (B "NESTED") n \/ (In n builtinNested /\ ~ listed W conf (B "MUTABLE") n))) /\
      (aget strEqb n modes = None <-> ~ (listed W conf (B "MUTABLE") n \/ listed W conf (B "NESTED") n \/ In n builtinPlain \/ In n builtinNested)) /\
      (forall x, aget strEqb n modes = Some x -> fst x = MMutable)).
  { intros l1 l2 modes H1 H2 H n. specialize (H1 n). specialize (H2 n). specialize (H n). rewrite defaultModes_get in H.
    pose proof (existsb_in n builtinPlain) as P. pose proof (existsb_in n builtinNested) as Q. pose proof (builtin_disjoint n) as D.
    destruct (l2 n), (l1 n), (existsb (strEqb n) builtinPlain), (existsb (strEqb n) builtinNested); rewrite H;
      repeat match goal with
      | h : true = true <-> _ |- _ => apply proj1 in h; specialize (h eq_refl)
      | h : false = true <-> _ |- _ => apply proj2 in h
      end;
      (splits; [| | | intros x E; inversion E; reflexivity]; (split; [intros E; try discriminate E | intros E]));
      try reflexivity; intuition congruence. }
  destruct conf as [m |]; cbn [fileIs] in FI.
  - destruct FI as [-> N].
    destruct (fetched_listed W m (B "MUTABLE")) as (ok1 & ns1 & -> & L1); [unfold keyOk; cbn; intros KK; repeat (destruct KK as [KK | KK]; [discriminate |]); exact KK | exact N |].
    destruct (fetched_listed W m (B "NESTED")) as (ok2 & ns2 & E2 & L2); [unfold keyOk; cbn; intros KK; repeat (destruct KK as [KK | KK]; [discriminate |]); exact KK | exact N |].
    cbn [obind fst snd]. rewrite E2. cbn [obind fst snd]. eexists. split; [reflexivity |].
    apply (G (fun n => ok1 && existsb (strEqb n) ns1) (fun n => ok2 && existsb (strEqb n) ns2)).
    + intros n. rewrite andb_true_iff, existsb_in. apply L1.
    + intros n. rewrite andb_true_iff, existsb_in. apply L2.
    + intros n. destruct ok2; [rewrite setModes_get; destruct (existsb (strEqb n) ns2); [reflexivity |] |]; cbn [andb];
        (destruct ok1; [rewrite setModes_get; reflexivity | reflexivity]).
  - destruct (parseFromFile W newConf file) as [ok c]. cbn [fst] in FI. subst ok. exists defaultModes. split; [reflexivity |].
    apply (G (fun _ => false) (fun _ => false)); [| | reflexivity]; intros n; (split; [discriminate |]); intros (m & l & E & _); discriminate.
Qed.

(** A nested flag: the entries of the JSON object in its text, as texts, up to the first that is no scalar *)
Definition nestedValue (W : dynWorld) (s : str) (v : value) : Prop :=
  exists m m1 m2 kvs, dwParse W s = Some (DObj m) /\ m = m1 ++ m2 /\ v = VMap kvs /\
    Forall2 (fun d e => fst d = fst e /\ exists t, asString W (snd d) = Some t /\ snd e = VStr t) m1 kvs /\
    match m2 with [] => True | d :: _ => asString W (snd d) = None end.
(** flags that do not end the process *)
Definition declarable W conf (f : flag) : Prop := mutableFlag W conf (flName f) ->
  (nestedFlag W conf (flName f) -> dwParse W (flText f) = None \/ exists m, dwParse W (flText f) = Some (DObj m) /\ NoDup (map fst m)) /\
  (~ nestedFlag W conf (flName f) -> exists v, holds W (flType f) (flText f) v).
Lemma aadd_new (k : str) (v : value) m : ~ In k (map fst m) -> aadd strEqb k v m = m ++ [(k, v)].
Proof.
  intros N. unfold aadd. destruct (aget strEqb k m) as [x |] eqn:E; [| reflexivity]. destruct N. apply (aget_In strEqb strEqb_eq) in E.
  apply in_map_iff. exists (k, x). split; [reflexivity | exact E].
Qed.
Lemma forItems_map W m : forall acc, NoDup (map fst acc ++ map fst m) -> exists m1 m2 kvs, m = m1 ++ m2 /\ snd (forItems (mapItem W) m acc) = acc ++ kvs /\
    Forall2 (fun d e => fst d = fst e /\ exists t, asString W (snd d) = Some t /\ snd e = VStr t) m1 kvs /\
    match m2 with [] => True | d :: _ => asString W (snd d) = None end.
Proof.
  induction m as [| [k d] m IH]; intros acc N.
  - exists [], [], []. splits; [reflexivity | rewrite app_nil_r; reflexivity | constructor | trivial].
  - cbn [forItems mapItem]. unfold mapItem at 1. destruct (asString W d) as [t |] eqn:E.
    + cbn [map fst] in N. assert (NK : ~ In k (map fst acc)). { apply NoDup_remove_2 in N. intros I. apply N, in_or_app. left. exact I. }
      rewrite aadd_new by exact NK. destruct (IH (acc ++ [(k, VStr t)])) as (m1 & m2 & kvs & -> & S & F & M).
      { rewrite map_app, <- app_assoc. exact N. }
      exists ((k, d) :: m1), m2, ((k, VStr t) :: kvs). splits; [reflexivity | rewrite S, <- app_assoc; reflexivity | | exact M].
      constructor; [| exact F]. split; [reflexivity |]. exists t. split; [exact E | reflexivity].
    + exists [], ((k, d) :: m), []. splits; [reflexivity | rewrite app_nil_r; reflexivity | constructor | exact E].
Qed.
(** The flags that are declared are the mutable ones, each with the value it holds; nested flags whose text is no JSON are left out. *)
Theorem C111_declared : forall W file conf fs module, fileIs W file conf -> module <> 0 -> (forall f, In f fs -> declarable W conf f) ->
  exists l, declareGflags W file fs module = Ret l /\ forall it, In it l <-> exists f, In f fs /\ mutableFlag W conf (flName f) /\
    ciModule it = module /\ ciName it = flName f /\ ciMode it = MMutable /\
    (nestedFlag W conf (flName f) /\ nestedValue W (flText f) (ciValue it) \/ ~ nestedFlag W conf (flName f) /\ holds W (flType f) (flText f) (ciValue it)).
Proof.
  intros W file conf fs module FI NM. unfold declareGflags. replace (module =? 0) with false by lia.
  destruct (C111_modes W file conf FI) as (modes & -> & MS). cbn [obind].
  induction fs as [| f fs IH]; intros D.
  - exists []. split; [reflexivity |]. intros it. split; [intros [] | intros (f & [] & _)].
  - destruct IH as (l & El & Hl); [intros g I; apply D; right; exact I |]. specialize (D f (or_introl eq_refl)).
    cbn [declareAll]. rewrite El.
    assert (ONE : exists a, declareOne W modes module f = Ret a /\ forall it, In it a <-> mutableFlag W conf (flName f) /\
      ciModule it = module /\ ciName it = flName f /\ ciMode it = MMutable /\
      (nestedFlag W conf (flName f) /\ nestedValue W (flText f) (ciValue it) \/ ~ nestedFlag W conf (flName f) /\ holds W (flType f) (flText f) (ciValue it))).
    { destruct (MS (flName f)) as (M1 & M2 & M3 & M4). unfold declareOne. destruct (aget strEqb (flName f) modes) as [[md nested] |] eqn:E.
      - assert (MU : mutableFlag W conf (flName f)).
        { destruct (M4 _ eq_refl). cbn [fst] in *. destruct nested.
          - destruct (proj1 M1 eq_refl) as [L | [I _]]; [right; left; exact L | right; right; right; exact I].
          - exact (proj1 (proj1 M2 eq_refl)). }
        specialize (D MU). destruct D as [D1 D2]. specialize (M4 _ eq_refl). cbn [fst] in M4. subst md. destruct nested.
        + pose proof (proj1 M1 eq_refl) as NF. clear D2 M1 M2 M3. unfold gflagsValueToValue. cbn -[parseFromString forEachItem mapItem].
          unfold parseFromString. destruct (D1 NF) as [P | (m & P & ND)]; rewrite P.
          * exists []. split; [reflexivity |]. intros it. split; [intros [] |]. intros (_ & _ & _ & _ & [[_ (m & ? & ? & ? & P' & _)] | [X _]]); [congruence | destruct (X NF)].
          * destruct (forItems_map W m [] ND) as (m1 & m2 & kvs & Em & S & F & M). cbn [app] in S. cbn [forEachItem obind]. rewrite S.
            eexists. split; [reflexivity |]. intros it. split.
            -- intros [<- | []]. cbn. splits; try reflexivity; try exact MU. left. split; [exact NF |]. exists m, m1, m2, kvs. splits; try assumption. reflexivity.
            -- intros (_ & A1 & A2 & A3 & [[_ (m' & n1 & n2 & kvs' & P' & Em' & V & F' & M')] | [X _]]); [| destruct (X NF)]. left.
               assert (kvs' = kvs) as ->.
               { rewrite P in P'. injection P' as <-. clear - Em Em' F F' M M'. subst m. revert n1 n2 kvs kvs' Em' F F' M M'. induction m1 as [| [k d] m1 IH]; intros n1 n2 kvs kvs' E F F' M M'.
                 - inversion F; subst. destruct n1 as [| e n1]; [inversion F'; reflexivity |]. cbn [app] in E. subst m2. inversion F' as [| ? ? ? ? (_ & t & T & _) _]; subst. congruence.
                 - inversion F as [| ? [k' v'] ? ? (K & t & T & V) F2]; subst. destruct n1 as [| e n1].
                   + cbn [app] in E. destruct n2 as [| e n2]; [discriminate |]. injection E as <- _. cbn [snd] in *. congruence.
                   + injection E as <- E. inversion F' as [| ? [k2 v2] ? ? (K2 & t2 & T2 & V2) F2']; subst. cbn [fst snd] in *. subst.
                     f_equal; [congruence |]. exact (IH _ _ _ _ E F2 F2' M M'). }
               destruct it; cbn in *; subst. reflexivity.
        + destruct (proj1 M2 eq_refl) as [_ NF]. clear D1 M1 M2 M3. destruct (D2 NF) as [v Hv]. rewrite (holds_value _ _ _ _ Hv). cbn [obind].
          exists [mkConfigItem module (flName f) MMutable v]. split; [destruct Hv; reflexivity |]. intros it. split.
          * intros [<- | []]. cbn. splits; try reflexivity; try exact MU. right. split; assumption.
          * intros (_ & A1 & A2 & A3 & [[X _] | [_ H]]); [destruct (NF X) |]. left.
            pose proof (holds_value _ _ _ _ H) as H'. rewrite (holds_value _ _ _ _ Hv) in H'. apply Ret_inj in H'. destruct it; cbn in *; subst. reflexivity.
      - exists []. split; [reflexivity |]. intros it. split; [intros [] | intros (MU & _)]. destruct (proj1 M3 eq_refl MU). }
    destruct ONE as (a & -> & Ha). cbn [obind]. exists (a ++ l). split; [reflexivity |]. intros it. rewrite in_app_iff, Ha, Hl. split.
    + intros [H | (g & I & H)]; [exists f | exists g]; (split; [| exact H]); [left; reflexivity | right; exact I].
    + intros (g & [<- | I] & H); [left; exact H | right; exists g; split; [exact I | exact H]].
Qed.

(** the whole numbers that a flag of this type takes *)
Definition takes (t : ftype) (z : Z) : Prop :=
  match t with
  | FInt32 => - 2 ^ 31 <= z < 2 ^ 31 | FUInt32 => 0 <= z < 2 ^ 32 | FInt64 => - 2 ^ 63 <= z < 2 ^ 63 | FUInt64 => 0 <= z < 2 ^ 64
  | _ => False
  end.
Theorem C111_numbers : forall G W t z, intType t ->
  (flagParse G t (decZ z) = Some (decZ z) <-> takes t z) /\ (takes t z -> z < 2 ^ 63 -> holds W t (decZ z) (VInt z)).
Proof.
  intros G W t z I. assert (E : takes t z <-> fst (flagRange t) <= z <= snd (flagRange t)).
  { destruct I as [<- | [<- | [<- | [<- | []]]]]; cbn [takes flagRange fst snd]; unfold int32_min, int32_max, int64_min, int64_max; lia. }
  split; [split|].
  - intros P. apply E. unfold flagParse in P.
    assert (Q : forall o, (match decZ z with 48 :: 120 :: _ | 48 :: 88 :: _ => gwHex G t (decZ z) | _ => o end) = Some (decZ z) -> o = Some (decZ z)).
    { intros o. destruct (decZ z) as [| c [| d r]] eqn:X; auto.
      - destruct c as [| c | c]; auto. do 6 (destruct c as [c | c |]; auto).
      - assert (D : d = 45 \/ isDigit d = true) by (apply (decZ_chars z); rewrite X; right; left; reflexivity).
        assert (D' : d <> 120 /\ d <> 88) by (destruct D as [-> | D]; [lia | unfold isDigit in D; lia]). destruct D' as [D1 D2]. clear - D1 D2.
        destruct c as [| c | c]; auto. do 6 (destruct c as [c | c |]; auto).
        destruct d as [| d | d]; auto. do 7 (destruct d as [d | d |]; auto); congruence. }
    destruct I as [<- | [<- | [<- | [<- | []]]]]; apply Q in P; try (destruct (existsb (Z.eqb 45) (decZ z)); [discriminate|]); rewrite strtoWhole_decZ in P;
      match type of P with (if ?b then _ else _) = _ => destruct b eqn:R; [|discriminate] end; lia.
  - intros T. apply flagParse_int; [exact I|apply E, T].
  - intros T M. apply h_int; [exact I|apply E, T|unfold int64_max; lia].
Qed.
Print Assumptions C111_numbers.
(** A process whose module is unknown declares nothing, and does not read the file. *)
Theorem C111_unknown_module : forall W file fs, declareGflags W file fs 0 = Ret [].
Proof. reflexivity. Qed.
Print Assumptions C111_unknown_module.
(** a gflags library with no validators *)
Definition G0 : gWorld := mkGWorld (fun _ _ => None) Some (fun _ _ => true).
Definition X0 : externals := mkExt (fun _ => B "0") (fun _ => (S754_nan, 0%nat)) (fun x _ => x).
(** It is not so that every flag can be declared: a number of 2^63 or more in a mutable flag ends the process, and so does a nested flag with a JSON text
    that is no object. *)
Theorem C111_ends_refuted : declareGflags W0 (Some (B "{""MUTABLE"":[""mem""]}")) [mkFlag (B "mem") FUInt64 (B "9223372036854775808")] 2 = Fatal /\
  flagParse G0 FUInt64 (B "9223372036854775808") = Some (B "9223372036854775808") /\
  declareGflags W0 None [mkFlag (B "rocksdb_db_options") FString (B "[]")] 2 = Fatal.
Proof. splits; (vm_compute; reflexivity). Qed.
(** It is not so that a map is read back from the text made for it. *)
Theorem C111_map_refuted : exists v t, gflagText X0 v = Ret t /\ gflagsValueToValue W0 (B "map") (B "{""a"":""1""}") = Ret v /\
  gflagsValueToValue W0 (B "map") t = Ret (VNull NNull).
Proof. exists (VMap [(B "a", VStr (B "1"))]), (B "{""a"":""""1""""}"). splits; (vm_compute; reflexivity). Qed.
Example C111_ex : declareGflags W0 (Some (B "{""NESTED"":[""opts""]}# nested")) [mkFlag (B "v") FInt32 (B "-3"); mkFlag (B "other") FInt32 (B "7");
    mkFlag (B "accept_partial_success") FBool (B "true"); mkFlag (B "opts") FString (B "{""a"":1,""b"":""x""}"); mkFlag (B "rocksdb_db_options") FString (B "{")] 4 =
  Ret [mkConfigItem 4 (B "v") MMutable (VInt (-3)); mkConfigItem 4 (B "accept_partial_success") MMutable (VBool true);
       mkConfigItem 4 (B "opts") MMutable (VMap [(B "a", VStr (B "1")); (B "b", VStr (B "x"))])].
Proof. vm_compute. reflexivity. Qed.

(** ** C112: flags follow the meta server *)
Definition assign (G : gWorld) (f : flag) (text : str) : flag :=
  match flagParse G (flType f) (cstr text) with
  | Some t => if gwValid G (flName f) t then mkFlag (flName f) (flType f) t else f
  | None => f
  end.
Lemma assign_same G f t : flName (assign G f t) = flName f /\ flType (assign G f t) = flType f.
Proof. unfold assign. destruct (flagParse G (flType f) (cstr t)); [destruct (gwValid G (flName f) s) |]; split; reflexivity. Qed.
Lemma flagGet_set G fs n t n' : flagGet (flagSet G fs n t) n' =
  if strEqb (cstr n) (cstr n') then option_map (fun f => assign G f t) (flagGet fs n') else flagGet fs n'.
Proof.
  induction fs as [| f fs IH]; [destruct (strEqb (cstr n) (cstr n')); reflexivity |]. cbn [flagSet flagGet]. fold (assign G f t).
  destruct (strEqb (flName f) (cstr n)) eqn:E; cbn [flagGet].
  - apply strEqb_eq in E. rewrite (proj1 (assign_same G f t)), E. destruct (strEqb (cstr n) (cstr n')); reflexivity.
  - destruct (strEqb (flName f) (cstr n')) eqn:E'; [| exact IH]. apply strEqb_eq in E'. destruct (strEqb (cstr n) (cstr n')) eqn:C; [| reflexivity].
    apply strEqb_eq in C. rewrite E', C, (proj2 (strEqb_eq _ _) eq_refl) in E. discriminate.
Qed.

(** Flags that no mutable item names are left alone, whatever the meta server answers. *)
Theorem C112_untouched : forall G W X listener spaces order reg items s b s', (forall l, Permutation (order l) l) ->
  loadCfg X G W listener spaces order reg (Some items) s = Ret (b, s') -> forall n,
  (forall it, In it items -> ciMode it = MMutable -> cstr (ciName it) <> cstr n) -> flagGet (csFlags s') n = flagGet (csFlags s) n.
Proof.
  intros G W X listener spaces order reg items s b s' PO L n NO.
  assert (AM : forall k it, In (k, it) (answerMap items) -> In it items).
  { unfold answerMap. assert (Y : forall l m, (forall k it, In (k, it) (fold_left (fun m it => aadd cfgKeyEqb (itemKey it) it m) l m) -> In (k, it) m \/ In it l)).
    { induction l as [| x l IH]; intros m k it H; [left; exact H |]. cbn [fold_left] in H. apply IH in H. destruct H as [H | H]; [| right; right; exact H].
      unfold aadd in H. destruct (aget cfgKeyEqb (itemKey x) m); [left; exact H |]. apply in_app_or in H. destruct H as [H | [H | []]]; [left; exact H |].
      injection H as _ <-. right. left. reflexivity. }
    intros k it H. apply Y in H. destruct H as [[] | H]; exact H. }
  assert (T : forall es s s', (forall k it, In (k, it) es -> In it items) -> takeItems X G W listener spaces es s = Ret s' -> flagGet (csFlags s') n = flagGet (csFlags s) n).
  { clear s s' L. induction es as [| [k it] es IH]; intros s s' H; cbn [takeItems]; [intros E; apply Ret_inj in E; subst; reflexivity |].
    destruct (match aget cfgKeyEqb k (csCache s) with Some old => veq X (ciValue it) (ciValue old) | None => false end).
    - apply IH. intros k' it' I. apply (H k'). right. exact I.
    - destruct (updateGflagsValue X G W listener spaces (csFlags s) it) as [[fs' tl] | | |] eqn:U; cbn [obind fst snd]; try discriminate.
      intros E. apply IH in E; [| intros k' it' I; apply (H k'); right; exact I]. cbn [csFlags] in E. rewrite E.
      assert (Q : ciMode it = MMutable -> strEqb (cstr (ciName it)) (cstr n) = false).
      { intros M. apply Bool.not_true_iff_false. intros C. apply strEqb_eq in C. apply (NO it (H k it (or_introl eq_refl)) M C). }
      unfold updateGflagsValue in U. destruct (ciMode it); try (apply Ret_inj in U; injection U as <- _; reflexivity). specialize (Q eq_refl).
      destruct (flagGet (csFlags s) (ciName it)) as [f |]; [| apply Ret_inj in U; injection U as <- _; reflexivity].
      destruct (gflagsValueToValue W (typeName (ciValue it)) (flText f)) as [cur | | |]; cbn [obind] in U; try discriminate.
      destruct (veq X cur (ciValue it)); [apply Ret_inj in U; injection U as <- _; reflexivity |].
      destruct (gflagText X (ciValue it)) as [t | | |]; cbn [obind] in U; try discriminate. apply Ret_inj in U. injection U as <- _.
      rewrite flagGet_set, Q. reflexivity. }
  unfold loadCfg in L. destruct (csReady s) eqn:R; [rewrite R in L | destruct reg; cbn [csReady] in L].
  - destruct (takeItems X G W listener spaces (order (answerMap items)) s) as [s1 | | |] eqn:E; try discriminate. apply Ret_inj in L. injection L as _ <-.
    apply T in E; [exact E |]. intros k it I. apply (AM k). eapply Permutation_in; [apply PO | exact I].
  - match type of L with (let* _ := ?x in _) = _ => destruct x as [s1 | | |] eqn:E end; try discriminate. apply Ret_inj in L. injection L as _ <-.
    apply T in E; [exact E |]. intros k it I. apply (AM k). eapply Permutation_in; [apply PO | exact I].
  - apply Ret_inj in L. injection L as _ <-. reflexivity.
Qed.

(** the flag can take the value *)
Definition fits (G : gWorld) (W : dynWorld) (X : externals) (f : flag) (v : value) : Prop :=
  match v with
  | VBool b => flType f = FBool /\ gwValid G (flName f) (boolStr b) = true
  | VInt z => intType (flType f) /\ fst (flagRange (flType f)) <= z <= snd (flagRange (flType f)) /\ z <= int64_max /\ gwValid G (flName f) (decZ z) = true
  | VStr s => flType f = FString /\ ~ In 0 s /\ gwValid G (flName f) s = true
  | VFloat x => flType f = FDouble /\ exists t, flagParse G FDouble (cstr (xfmt X x)) = Some t /\ dwStrDouble W t = Some x /\ gwValid G (flName f) t = true
  | _ => False
  end.
Lemma assign_fits G W X f v : fits G W X f v -> exists t, gflagText X v = Ret t /\ holds W (flType f) (flText (assign G f t)) v.
Proof.
  unfold assign. destruct v; cbn [fits]; try contradiction.
  - intros [T V]. exists (boolStr b). split; [reflexivity |]. rewrite T.
    replace (flagParse G FBool (cstr (boolStr b))) with (Some (boolStr b)) by (destruct b; reflexivity). rewrite V. apply h_bool.
  - intros (T & R & M & V). exists (decZ z). split; [reflexivity |]. rewrite cstr_id by apply decZ_noNul. rewrite flagParse_int by assumption. rewrite V.
    apply h_int; assumption.
  - intros (T & t & P & D & V). exists (xfmt X f0). split; [reflexivity |]. rewrite T, P, V. apply h_double. exact D.
  - intros (T & N & V). exists s. split; [reflexivity |]. rewrite cstr_id by exact N. rewrite T. cbn [flagParse]. rewrite V. apply h_str.
Qed.
Lemma holds_inv W t s v : holds W t s v -> (t = FBool /\ exists b, s = boolStr b /\ v = VBool b) \/
  (intType t /\ exists z, s = decZ z /\ v = VInt z /\ fst (flagRange t) <= z <= snd (flagRange t) /\ z <= int64_max) \/ (t = FString /\ v = VStr s) \/ (t = FDouble /\ exists x, v = VFloat x).
Proof.
  intros [b | t' z I R M | s' | s' x E]; [left; split; [reflexivity | exists b; split; reflexivity] | right; left | right; right; left; split; reflexivity | right; right; right].
  - split; [exact I |]. exists z. splits; try reflexivity; lia.
  - split; [reflexivity | exists x; reflexivity].
Qed.
Lemma holds_kind W f v0 v G X : holds W (flType f) (flText f) v0 -> fits G W X f v -> exists cur, gflagsValueToValue W (typeName v) (flText f) = Ret cur /\
  (veq X cur v = true -> v0 = v).
Proof.
  intros H F. pose proof (holds_inv _ _ _ _ H) as HI.
  assert (NI : forall t, intType t -> t <> FBool /\ t <> FString /\ t <> FDouble).
  { intros t [<- | [<- | [<- | [<- | []]]]]; splits; discriminate. }
  destruct v; cbn [fits] in F; try contradiction.
  - destruct F as [T _]. destruct HI as [(_ & b0 & E & ->) | [(I & _) | [(I & _) | (I & _)]]]; [| destruct (NI _ I); contradiction | congruence | congruence].
    exists (VBool b0). rewrite E. split; [destruct b0; reflexivity |]. destruct b0, b; cbn; congruence.
  - destruct F as (T & _). destruct (NI _ T) as (N1 & N2 & N3).
    destruct HI as [(I & _) | [(_ & z0 & E & -> & R) | [(I & _) | (I & _)]]]; [contradiction | | contradiction | contradiction].
    exists (VInt z0). split; [eapply holds_typeName in H; [exact H | exact I] |]. unfold veq. cbn. intros Q. apply Z.eqb_eq in Q. congruence.
  - exists VEmpty. split; [reflexivity |]. cbn. discriminate.
  - destruct F as [T _]. destruct HI as [(I & _) | [(I & _) | [(_ & ->) | (I & _)]]]; [congruence | destruct (NI _ I) as (_ & ? & _); contradiction | | congruence].
    exists (VStr (flText f)). split; [reflexivity |]. unfold veq. cbn. intros Q. apply strEqb_eq in Q. congruence.
Qed.

Section Follow.
Context (G : gWorld) (W : dynWorld) (X : externals) (module : Z) (mode : str -> configMode) (fs0 : list flag).
(** an item of this module, with the mode its name has, whose flag, if it is there and mutable, can take the value *)
Definition itemOk (it : configItem) : Prop :=
  ciModule it = module /\ ~ In 0 (ciName it) /\ ciMode it = mode (ciName it) /\
  (ciMode it = MMutable -> forall f, flagGet fs0 (ciName it) = Some f -> fits G W X f (ciValue it)).
(** the states a client can be in *)
Inductive reached : cfgState -> Prop :=
| reached_start : reached (mkCfg false [] fs0 [])
| reached_load s listener spaces order reg answer b s' : reached s -> (forall l, Permutation (order l) l) ->
    (forall items, answer = Some items -> Forall itemOk items) -> loadCfg X G W listener spaces order reg answer s = Ret (b, s') -> reached s'.
Record inv (s : cfgState) : Prop := mkInv {
  i_flags : forall n, match flagGet (csFlags s) n, flagGet fs0 n with
    | Some f, Some f0 => flName f = flName f0 /\ flType f = flType f0 /\ exists v, holds W (flType f) (flText f) v
    | None, None => True
    | _, _ => False
    end;
  i_cache : forall k it, aget cfgKeyEqb k (csCache s) = Some it -> k = itemKey it /\ itemOk it;
  i_synced : forall k it, aget cfgKeyEqb k (csCache s) = Some it -> ciMode it = MMutable -> forall f, flagGet (csFlags s) (ciName it) = Some f -> holds W (flType f) (flText f) (ciValue it)
}.
Lemma cfgKeyEqb_eq a b : cfgKeyEqb a b = true <-> a = b.
Proof.
  destruct a as [a1 a2], b as [b1 b2]. unfold cfgKeyEqb. cbn [fst snd]. rewrite andb_true_iff, Z.eqb_eq, strEqb_eq. split; [intros [-> ->]; reflexivity | intros E; injection E as -> ->; split; reflexivity].
Qed.
Lemma fits_same f f0 v : flName f = flName f0 -> flType f = flType f0 -> fits G W X f0 v -> fits G W X f v.
Proof. intros A C. destruct v; cbn [fits]; rewrite ?A, ?C; exact (fun x => x). Qed.
(** one changed item *)
Lemma update_ok listener spaces s it : inv s -> itemOk it -> exists fs', updateGflagsValue X G W listener spaces (csFlags s) it = Ret (fs', []) /\
  inv (mkCfg (csReady s) (aset cfgKeyEqb (itemKey it) it (csCache s)) fs' (csTold s)).
Proof.
  intros V (M & NZ & MD & F).
  assert (KEEP : forall fs', (forall n, cstr n <> cstr (ciName it) -> flagGet fs' n = flagGet (csFlags s) n) ->
     (forall n, match flagGet fs' n, flagGet fs0 n with
    | Some f, Some f0 => flName f = flName f0 /\ flType f = flType f0 /\ exists v, holds W (flType f) (flText f) v
    | None, None => True
    | _, _ => False
    end) -> (ciMode it = MMutable -> forall f, flagGet fs' (ciName it) = Some f -> holds W (flType f) (flText f) (ciValue it)) ->
    inv (mkCfg (csReady s) (aset cfgKeyEqb (itemKey it) it (csCache s)) fs' (csTold s))).
  { intros fs' O FL HO. constructor; cbn [csFlags csCache].
    - exact FL.
    - intros k it' E. rewrite (aget_aset cfgKeyEqb cfgKeyEqb_eq) in E. destruct (cfgKeyEqb k (itemKey it)) eqn:K.
      + apply cfgKeyEqb_eq in K. injection E as <-. split; [exact K |]. unfold itemOk. splits; assumption.
      + exact (i_cache s V k it' E).
    - intros k it' E M' f Ef. rewrite (aget_aset cfgKeyEqb cfgKeyEqb_eq) in E. destruct (cfgKeyEqb k (itemKey it)) eqn:K.
      + injection E as <-. exact (HO M' f Ef).
      + destruct (i_cache s V k it' E) as [Kk (M1 & NZ1 & _)]. rewrite O in Ef; [exact (i_synced s V k it' E M' f Ef) |].
        rewrite !cstr_id by assumption. intros NN. apply Bool.not_true_iff_false in K. apply K. apply cfgKeyEqb_eq. rewrite Kk. unfold itemKey. congruence. }
  unfold updateGflagsValue. destruct (ciMode it) eqn:MM; try (eexists; split; [reflexivity |]; apply KEEP; [reflexivity | exact (i_flags s V) | discriminate]).
  pose proof (i_flags s V (ciName it)) as FL. destruct (flagGet (csFlags s) (ciName it)) as [f |] eqn:Ef.
  2:{ eexists. split; [reflexivity |]. apply KEEP; [reflexivity | exact (i_flags s V) | intros _ f E; congruence]. }
  destruct (flagGet fs0 (ciName it)) as [f0 |] eqn:E0; [| destruct FL]. destruct FL as (N1 & N2 & v0 & H0).
  pose proof (fits_same f f0 (ciValue it) N1 N2 (F eq_refl f0 eq_refl)) as FT.
  destruct (holds_kind W f v0 (ciValue it) G X H0 FT) as (cur & -> & HC). cbn [obind]. destruct (veq X cur (ciValue it)) eqn:EQ.
  - eexists. split; [reflexivity |]. apply KEEP; [reflexivity | exact (i_flags s V) |]. intros _ f' E'. rewrite Ef in E'. injection E' as <-.
    rewrite <- (HC eq_refl). exact H0.
  - destruct (assign_fits G W X f (ciValue it) FT) as (t & Et & HT). rewrite Et. cbn [obind].
    exists (flagSet G (csFlags s) (ciName it) t).
    assert (Q : (match ciValue it with VMap [] => B "{}" | _ => t end) = t /\ (match ciValue it with VMap m => if listener then updateNestedGflags X spaces m else [] | _ => [] end) = []).
    { destruct (ciValue it); cbn [fits] in FT; try contradiction; split; reflexivity. }
    destruct Q as [-> ->]. split; [reflexivity |]. apply KEEP.
    + intros n NN. rewrite flagGet_set. destruct (strEqb (cstr (ciName it)) (cstr n)) eqn:C; [apply strEqb_eq in C; congruence | reflexivity].
    + intros n. rewrite flagGet_set. destruct (strEqb (cstr (ciName it)) (cstr n)) eqn:C; [| exact (i_flags s V n)].
      apply strEqb_eq in C. assert (CE : forall fs, flagGet fs n = flagGet fs (ciName it)).
      { induction fs as [| g fs IH]; [reflexivity |]. cbn [flagGet]. rewrite <- C. rewrite IH. reflexivity. }
      rewrite !CE, Ef, E0. cbn [option_map]. destruct (assign_same G f t) as [-> ->]. splits; [exact N1 | exact N2 |]. exists (ciValue it). exact HT.
    + intros _ f' E'. rewrite flagGet_set, (proj2 (strEqb_eq _ _) eq_refl), Ef in E'. injection E' as <-. rewrite (proj2 (assign_same G f t)). exact HT.
Qed.
Lemma takeItems_ok listener spaces es : forall s, inv s -> Forall (fun e => fst e = itemKey (snd e) /\ itemOk (snd e)) es -> NoDup (map fst es) ->
  exists s', takeItems X G W listener spaces es s = Ret s' /\ inv s' /\ csTold s' = csTold s /\
    (forall k, ~ In k (map fst es) -> aget cfgKeyEqb k (csCache s') = aget cfgKeyEqb k (csCache s)) /\
    (forall k it, In (k, it) es -> exists old, aget cfgKeyEqb k (csCache s') = Some old /\ (old = it \/ veq X (ciValue it) (ciValue old) = true)).
Proof.
  induction es as [| [k it] es IH]; intros s V F ND.
  - exists s. splits; try reflexivity; try exact V. intros k it [].
  - inversion F as [| ? ? [K OK] F2]; subst. cbn [fst snd] in *. inversion ND as [| ? ? NK ND2]; subst. cbn [takeItems].
    destruct (match aget cfgKeyEqb (itemKey it) (csCache s) with Some old => veq X (ciValue it) (ciValue old) | None => false end) eqn:SM.
    + destruct (IH s V F2 ND2) as (s' & -> & V' & T & O & A). exists s'. splits; [reflexivity | exact V' | exact T | |].
      * intros k' N. apply O. intros I. apply N. right. exact I.
      * intros k' it' [E | I]; [| exact (A k' it' I)]. injection E as <- <-. rewrite O by exact NK.
        destruct (aget cfgKeyEqb (itemKey it) (csCache s)) as [old |]; [| discriminate]. exists old. split; [reflexivity | right; exact SM].
    + destruct (update_ok listener spaces s it V OK) as (fs' & -> & V1). cbn [obind fst snd]. rewrite app_nil_r.
      destruct (IH _ V1 F2 ND2) as (s' & -> & V' & T & O & A). cbn [csCache csTold] in *. exists s'. splits; [reflexivity | exact V' | exact T | |].
      * intros k' N. rewrite O by (intros I; apply N; right; exact I). rewrite (aget_aset cfgKeyEqb cfgKeyEqb_eq).
        destruct (cfgKeyEqb k' (itemKey it)) eqn:E; [| reflexivity]. apply cfgKeyEqb_eq in E. destruct N. left. symmetry. exact E.
      * intros k' it' [E | I]; [| exact (A k' it' I)]. injection E as <- <-. exists it. split; [| left; reflexivity]. rewrite O by exact NK.
        rewrite (aget_aset cfgKeyEqb cfgKeyEqb_eq), (proj2 (cfgKeyEqb_eq _ _) eq_refl). reflexivity.
Qed.
Lemma answerMap_ok items : Forall itemOk items -> Forall (fun e => fst e = itemKey (snd e) /\ itemOk (snd e)) (answerMap items) /\ NoDup (map fst (answerMap items)) /\
  (NoDup (map ciName items) -> forall it, In it items -> In (itemKey it, it) (answerMap items)).
Proof.
  unfold answerMap. intros F.
  assert (Y : forall l m, Forall itemOk l -> Forall (fun e => fst e = itemKey (snd e) /\ itemOk (snd e)) m -> NoDup (map fst m) ->
    let r := fold_left (fun m it => aadd cfgKeyEqb (itemKey it) it m) l m in
    Forall (fun e => fst e = itemKey (snd e) /\ itemOk (snd e)) r /\ NoDup (map fst r) /\
    (forall e, In e m -> In e r) /\ (NoDup (map ciName l) -> (forall it e, In it l -> In e m -> snd (fst e) <> ciName it) -> forall it, In it l -> In (itemKey it, it) r)).
  { induction l as [| x l IH]; intros m Fl Fm Nm; cbn [fold_left].
    - splits; try assumption; [intros e I; exact I | intros _ _ it []].
    - inversion Fl as [| ? ? OK Fl2]; subst.
      assert (Q : Forall (fun e => fst e = itemKey (snd e) /\ itemOk (snd e)) (aadd cfgKeyEqb (itemKey x) x m) /\ NoDup (map fst (aadd cfgKeyEqb (itemKey x) x m)) /\
        (forall e, In e m -> In e (aadd cfgKeyEqb (itemKey x) x m)) /\ (forall e, In e (aadd cfgKeyEqb (itemKey x) x m) -> In e m \/ e = (itemKey x, x)) /\
        (~ In (itemKey x) (map fst m) -> In (itemKey x, x) (aadd cfgKeyEqb (itemKey x) x m))).
      { unfold aadd. destruct (aget cfgKeyEqb (itemKey x) m) as [y |] eqn:E.
        - splits; try assumption; [intros e I; exact I | intros e I; left; exact I |]. intros N. destruct N. apply (aget_In cfgKeyEqb cfgKeyEqb_eq) in E. apply in_map_iff. exists (itemKey x, y). split; [reflexivity | exact E].
        - splits.
          + apply Forall_app. split; [exact Fm |]. constructor; [split; [reflexivity | exact OK] | constructor].
          + rewrite map_app. cbn [map fst]. apply NoDup_app_disj; [exact Nm | repeat constructor; intros [] |]. intros key I [<- | []]. apply in_map_iff in I. destruct I as ([k y] & K & I). cbn in K. subst k.
            clear - E I. induction m as [| [k z] m IH]; [destruct I |]. cbn [aget] in E. destruct (cfgKeyEqb (itemKey x) k) eqn:K; [discriminate |].
            destruct I as [I | I]; [injection I as -> ->; rewrite (proj2 (cfgKeyEqb_eq _ _) eq_refl) in K; discriminate | exact (IH E I)].
          + intros e I. apply in_or_app. left. exact I.
          + intros e I. apply in_app_or in I. destruct I as [I | [I | []]]; [left; exact I | right; symmetry; exact I].
          + intros _. apply in_or_app. right. left. reflexivity. }
      destruct Q as (Q1 & Q2 & Q3 & Q4 & Q5). destruct (IH _ Fl2 Q1 Q2) as (R1 & R2 & R3 & R4). splits; [exact R1 | exact R2 | intros e I; apply R3, Q3, I |].
      intros ND NM it I. cbn [map] in ND. inversion ND as [| ? ? NX ND2]; subst. destruct I as [<- | I].
      + apply R3, Q5. intros J. apply in_map_iff in J. destruct J as (e & Ke & J). apply (NM x e (or_introl eq_refl) J). rewrite Ke. reflexivity.
      + apply R4; [exact ND2 | | exact I]. intros it' e I' J. apply Q4 in J. destruct J as [J | ->]; [apply NM; [right; exact I' | exact J] |].
        cbn [fst snd itemKey]. intros E. apply NX. rewrite E. apply in_map_iff. exists it'. split; [reflexivity | exact I']. }
  destruct (Y items [] F (Forall_nil _) (NoDup_nil _)) as (R1 & R2 & _ & R4). splits; [exact R1 | exact R2 |]. intros ND. apply R4; [exact ND |]. intros it e _ [].
Qed.
Lemma load_inv s listener spaces order reg answer : inv s -> (forall l, Permutation (order l) l) -> (forall items, answer = Some items -> Forall itemOk items) ->
  exists b s', loadCfg X G W listener spaces order reg answer s = Ret (b, s') /\ inv s' /\ csTold s' = csTold s /\
    (b = true <-> (csReady s = true \/ reg = true) /\ answer <> None) /\
    (b = true -> forall items, answer = Some items -> NoDup (map ciName items) -> forall it, In it items ->
       exists old, aget cfgKeyEqb (itemKey it) (csCache s') = Some old /\ (old = it \/ veq X (ciValue it) (ciValue old) = true)).
Proof.
  intros V PO AO. unfold loadCfg.
  set (s1 := if csReady s then s else mkCfg reg (csCache s) (csFlags s) (csTold s)).
  assert (V1 : inv s1) by (unfold s1; destruct (csReady s); [exact V | destruct V; constructor; assumption]).
  assert (T1 : csTold s1 = csTold s) by (unfold s1; destruct (csReady s); reflexivity).
  assert (R1 : csReady s1 = true <-> csReady s = true \/ reg = true).
  { unfold s1. destruct (csReady s) eqn:R; [rewrite R; tauto |]. cbn [csReady]. intuition congruence. }
  destruct (csReady s1) eqn:R.
  - destruct answer as [items |].
    + destruct (answerMap_ok items (AO items eq_refl)) as (F & ND & IN).
      destruct (takeItems_ok listener spaces (order (answerMap items)) s1 V1) as (s' & -> & V' & T & _ & A).
      { rewrite Forall_forall in *. intros e I. apply F. eapply Permutation_in; [apply PO | exact I]. }
      { eapply Permutation_NoDup; [apply Permutation_map, Permutation_sym, PO | exact ND]. }
      cbn [obind]. exists true, s'. splits; [reflexivity | exact V' | congruence | |].
      * split; [intros _; split; [apply R1; reflexivity | discriminate] | reflexivity].
      * intros _ its E N it I. injection E as <-. apply A. eapply Permutation_in; [apply Permutation_sym, PO | apply IN; assumption].
    + exists false, s1. splits; [reflexivity | exact V1 | exact T1 | split; [discriminate | intros [_ N]; contradiction] | discriminate].
  - exists false, s1. splits; [reflexivity | exact V1 | exact T1 | | discriminate]. split; [discriminate |]. intros [H _]. apply R1 in H. discriminate.
Qed.
Lemma reached_inv s : (forall n f, flagGet fs0 n = Some f -> exists v, holds W (flType f) (flText f) v) -> reached s -> inv s.
Proof.
  intros H0. induction 1 as [| s listener spaces order reg answer b s' R IH PO AO L].
  - constructor; cbn [csFlags csCache aget]; try discriminate. intros n. destruct (flagGet fs0 n) as [f |] eqn:E; [| trivial].
    splits; try reflexivity. exact (H0 n f E).
  - destruct (load_inv s listener spaces order reg answer IH PO AO) as (b1 & s1 & E & V & _). rewrite E in L. apply Ret_inj in L. injection L as _ <-. exact V.
Qed.
(** the same value, or floats that count as equal *)
Definition sameOrNear (a b : value) : Prop := a = b \/ exists x y, a = VFloat x /\ b = VFloat y /\ nearEq y x = true.
End Follow.

(** However the client was used, after a load that reports success every mutable flag the meta server lists holds the server's value; no load fails because of
    its answer, and a load reports success exactly if registering and listing succeeded. *)
Theorem C112_follows : forall G W X module mode fs0, (forall n f, flagGet fs0 n = Some f -> exists v, holds W (flType f) (flText f) v) ->
  forall s listener spaces order reg answer, reached G W X module mode fs0 s -> (forall l, Permutation (order l) l) ->
  (forall items, answer = Some items -> Forall (itemOk G W X module mode fs0) items) ->
  exists b s', loadCfg X G W listener spaces order reg answer s = Ret (b, s') /\ csTold s' = csTold s /\
    (b = true <-> (csReady s = true \/ reg = true) /\ answer <> None) /\
    (b = true -> forall items it f, answer = Some items -> NoDup (map ciName items) -> In it items -> ciMode it = MMutable -> flagGet (csFlags s') (ciName it) = Some f ->
       exists v, holds W (flType f) (flText f) v /\ sameOrNear v (ciValue it)).
Proof.
  intros G W X module mode fs0 H0 s listener spaces order reg answer R PO AO.
  pose proof (reached_inv G W X module mode fs0 s H0 R) as V.
  destruct (load_inv G W X module mode fs0 s listener spaces order reg answer V PO AO) as (b & s' & E & V' & T & B & A).
  exists b, s'. splits; [exact E | exact T | exact B |]. intros Bt items it f EA ND I M Ef.
  destruct (A Bt items EA ND it I) as (old & G1 & EQ). pose proof (i_cache _ _ _ _ _ _ _ V' _ _ G1) as [K (M1 & N1 & D1 & F1)].
  assert (NM : ciName old = ciName it) by (unfold itemKey in K; congruence).
  pose proof (AO items EA) as FA. rewrite Forall_forall in FA. destruct (FA it I) as (M2 & N2 & D2 & F2).
  assert (MO : ciMode old = MMutable) by (rewrite D1, NM, <- D2; exact M).
  exists (ciValue old). split.
  - apply (i_synced _ _ _ _ _ _ _ V' _ _ G1 MO). rewrite NM. exact Ef.
  - destruct EQ as [-> | EQ]; [left; reflexivity |].
    pose proof (i_flags _ _ _ _ _ _ _ V' (ciName it)) as FL. rewrite Ef in FL. destruct (flagGet fs0 (ciName it)) as [f0 |] eqn:E0; [| destruct FL].
    specialize (F2 M f0 eq_refl). specialize (F1 MO f0). rewrite NM in F1. specialize (F1 E0).
    assert (NI : forall t, intType t -> t <> FBool /\ t <> FString /\ t <> FDouble).
    { intros t [<- | [<- | [<- | [<- | []]]]]; splits; discriminate. }
    destruct (ciValue it) as [| | b1 | z1 | x1 | s1 | | | | | | | | | |] eqn:V1; cbn [fits] in F2; try contradiction;
      destruct (ciValue old) as [| | b2 | z2 | x2 | s2 | | | | | | | | | |] eqn:V2; cbn [fits] in F1; try contradiction;
      try (exfalso; destruct F1 as [T1 _]; destruct F2 as [T2 _]; first [congruence | destruct (NI _ T1) as (? & ? & ?); congruence | destruct (NI _ T2) as (? & ? & ?); congruence]).
    + left. unfold veq in EQ. cbn in EQ. apply Bool.eqb_prop in EQ. congruence.
    + left. unfold veq in EQ. cbn in EQ. apply Z.eqb_eq in EQ. congruence.
    + right. exists x2, x1. splits; [reflexivity | reflexivity | exact EQ].
    + left. unfold veq in EQ. cbn in EQ. apply strEqb_eq in EQ. congruence.
Qed.

Definition st (fs : list flag) : cfgState := mkCfg true [] fs [].
Ltac run t := let r := eval vm_compute in t in match r with Ret (_, ?s) => exists s end.
Definition ld (items : list configItem) (s : cfgState) : outcome (bool * cfgState) := loadCfg X0 G0 W0 true [7] (fun l => l) true (Some items) s.
(** It is not so that flags hold the server's values after every successful load: a flag changed in the process stays changed, *)
Theorem C112_local_change_refuted : exists it s1 s2, ld [it] (st [mkFlag (B "v") FInt32 (B "0")]) = Ret (true, s1) /\
  flagGet (csFlags s1) (B "v") = Some (mkFlag (B "v") FInt32 (B "3")) /\ ciValue it = VInt 3 /\ ciMode it = MMutable /\
  ld [it] (mkCfg (csReady s1) (csCache s1) (flagSet G0 (csFlags s1) (B "v") (B "1")) (csTold s1)) = Ret (true, s2) /\
  flagGet (csFlags s2) (B "v") = Some (mkFlag (B "v") FInt32 (B "1")).
Proof.
  exists (mkConfigItem 2 (B "v") MMutable (VInt 3)). run (ld [mkConfigItem 2 (B "v") MMutable (VInt 3)] (st [mkFlag (B "v") FInt32 (B "0")])).
  run (ld [mkConfigItem 2 (B "v") MMutable (VInt 3)] (mkCfg true [((2, B "v"), mkConfigItem 2 (B "v") MMutable (VInt 3))] [mkFlag (B "v") FInt32 (B "1")] [])). splits; (vm_compute; reflexivity). Qed.
(** and an item that becomes mutable is not taken over. *)
Theorem C112_mode_change_refuted : exists a b s1 s2, ld [a] (st [mkFlag (B "v") FInt32 (B "0")]) = Ret (true, s1) /\ ld [b] s1 = Ret (true, s2) /\
  ciMode b = MMutable /\ ciValue b = VInt 3 /\ flagGet (csFlags s2) (B "v") = Some (mkFlag (B "v") FInt32 (B "0")).
Proof.
  exists (mkConfigItem 2 (B "v") MImmutable (VInt 3)), (mkConfigItem 2 (B "v") MMutable (VInt 3)).
  run (ld [mkConfigItem 2 (B "v") MImmutable (VInt 3)] (st [mkFlag (B "v") FInt32 (B "0")])).
  run (ld [mkConfigItem 2 (B "v") MImmutable (VInt 3)] (st [mkFlag (B "v") FInt32 (B "0")])). splits; (vm_compute; reflexivity). Qed.
(** A double changed by less than 1e-8 is not taken over either. *)
Theorem C112_small_change_refuted : exists a b s1, ciValue a = VFloat (S754_zero false) /\ ciValue b = VFloat (S754_finite false 4503599627370496 (-82)) /\
  ciMode b = MMutable /\ ciName b = B "d" /\ ld [a] (st [mkFlag (B "d") FDouble (B "1")]) = Ret (true, s1) /\ ld [b] s1 = Ret (true, s1).
Proof.
  exists (mkConfigItem 2 (B "d") MMutable (VFloat (S754_zero false))), (mkConfigItem 2 (B "d") MMutable (VFloat (S754_finite false 4503599627370496 (-82)))).
  run (ld [mkConfigItem 2 (B "d") MMutable (VFloat (S754_zero false))] (st [mkFlag (B "d") FDouble (B "1")])). splits; (vm_compute; reflexivity).
Qed.
(** Nor is it so that any answer is survived: a null, or a number for a flag that holds a text, ends the process. *)
Theorem C112_ends_refuted : ld [mkConfigItem 2 (B "v") MMutable (VNull NNull)] (st [mkFlag (B "v") FInt32 (B "0")]) = Fatal /\
  ld [mkConfigItem 2 (B "s") MMutable (VInt 3)] (st [mkFlag (B "s") FString (B "abc")]) = Fatal.
Proof. splits; (vm_compute; reflexivity). Qed.
Example C112_ex : exists s, ld [mkConfigItem 2 (B "v") MMutable (VInt 3); mkConfigItem 2 (B "b") MMutable (VBool true); mkConfigItem 2 (B "x") MMutable (VStr (B "a b"));
    mkConfigItem 2 (B "none") MMutable (VInt 1); mkConfigItem 2 (B "i") MImmutable (VInt 9)]
  (st [mkFlag (B "b") FBool (B "false"); mkFlag (B "i") FInt64 (B "1"); mkFlag (B "v") FInt32 (B "0"); mkFlag (B "x") FString (B "")]) = Ret (true, s) /\
  csFlags s = [mkFlag (B "b") FBool (B "true"); mkFlag (B "i") FInt64 (B "1"); mkFlag (B "v") FInt32 (B "3"); mkFlag (B "x") FString (B "a b")].
Proof. match goal with |- exists s, ?l = _ /\ _ => run l end. splits; (vm_compute; reflexivity). Qed.
(** the hypotheses of C112_follows can be met *)
Example C112_item : itemOk G0 W0 X0 2 (fun _ => MMutable) [mkFlag (B "v") FInt32 (B "0")] (mkConfigItem 2 (B "v") MMutable (VInt 3)).
Proof.
  unfold itemOk. cbn [ciModule ciName ciMode ciValue]. splits; try reflexivity; [intros [H | []]; discriminate |]. intros _ f E. cbn in E. injection E as <-. cbn.
  splits; [left; reflexivity | unfold int32_min; lia | unfold int32_max; lia | unfold int64_max; lia | reflexivity].
Qed.

(** ** C113: nested options *)
(** the text of an option's value: numbers and Booleans as they are, texts between double quotes *)
Definition optionIs (v : value) (t : str) : Prop :=
  match v with VInt z => t = decZ z | VBool b => t = boolStr b | VStr s => t = [34] ++ s ++ [34] | _ => True end.
Lemma options_map X m : forall acc, NoDup (map fst acc ++ map fst m) ->
  fold_left (fun o p => aadd strEqb (fst p) (vstr X (snd p)) o) m acc = acc ++ map (fun p => (fst p, vstr X (snd p))) m.
Proof.
  induction m as [| [k v] m IH]; intros acc N; cbn [fold_left map fst snd]; [rewrite app_nil_r; reflexivity |].
  cbn [map fst] in N. assert (NK : ~ In k (map fst acc)). { apply NoDup_remove_2 in N. intros I. apply N, in_or_app. left. exact I. }
  assert (A : aadd strEqb k (vstr X v) acc = acc ++ [(k, vstr X v)]).
  { unfold aadd. destruct (aget strEqb k acc) as [x |] eqn:E; [| reflexivity]. destruct NK. apply (aget_In strEqb strEqb_eq) in E.
    apply in_map_iff. exists (k, x). split; [reflexivity | exact E]. }
  rewrite A, IH, <- app_assoc; [reflexivity |]. rewrite map_app, <- app_assoc. exact N.
Qed.
(** A changed nested item is told to the listener once for every space, with every option once; an item equal to what the flag holds is not told. *)
Theorem C113_told : forall G W X listener spaces fs it f m cur, ciMode it = MMutable -> ciValue it = VMap m -> NoDup (map fst m) ->
  flagGet fs (ciName it) = Some f -> gflagsValueToValue W (B "map") (flText f) = Ret cur ->
  exists fs' tl, updateGflagsValue X G W listener spaces fs it = Ret (fs', tl) /\
    (veq X cur (VMap m) = true -> fs' = fs /\ tl = []) /\
    (veq X cur (VMap m) = false -> listener = false -> tl = []) /\
    (veq X cur (VMap m) = false -> listener = true -> map fst tl = spaces /\ forall s o, In (s, o) tl ->
       map fst o = map fst m /\ (forall k v, In (k, v) m -> exists t, In (k, t) o /\ optionIs v t)).
Proof.
  intros G W X listener spaces fs it f m cur M V ND FG C. unfold updateGflagsValue. rewrite M, FG, V. cbn [typeName]. rewrite C. cbn [obind].
  destruct (veq X cur (VMap m)) eqn:E.
  - exists fs, []. splits; [reflexivity | split; reflexivity | discriminate | discriminate].
  - cbn [gflagText obind]. do 2 eexists. splits; [reflexivity | discriminate | intros _ ->; reflexivity |].
    intros _ ->. unfold updateNestedGflags. rewrite options_map by exact ND. cbn [app]. split; [rewrite map_map; cbn [fst]; apply map_id |].
    intros s o I. apply in_map_iff in I. destruct I as (x & EQ & _). injection EQ as _ <-. split; [rewrite map_map; reflexivity |].
    intros k v I. exists (vstr X v). split; [apply in_map_iff; exists (k, v); split; [reflexivity | exact I] |]. destruct v; try exact Logic.I; reflexivity.
Qed.
(** A map whose names and printed values have no character special in JSON is read back, its values as texts. *)
Definition plainByte (c : Z) : Prop := 32 <= c <= 255 /\ c <> 34 /\ c <> 92.
Lemma quote_plain s : Forall plainByte s -> jsonQuote s = [34] ++ s ++ [34].
Proof.
  intros F. unfold jsonQuote. do 2 f_equal. induction F as [| c s (R & N1 & N2) F IH]; [reflexivity |]. cbn [flat_map]. rewrite IH.
  unfold escByte. replace ((c =? 34) || (c =? 92)) with false by lia. replace (c <? 32) with false by lia. reflexivity.
Qed.
Theorem C113_flag_text : forall W X m t, (forall j, jsonBytes j -> dwParse W (printJson j) = Some (dynOf j)) -> NoDup (map fst m) ->
  Forall (fun p => Forall plainByte (fst p) /\ Forall plainByte (vstr X (snd p))) m -> gflagText X (VMap m) = Ret t ->
  gflagsValueToValue W (B "map") t = Ret (VMap (map (fun p => (fst p, VStr (vstr X (snd p)))) m)).
Proof.
  intros W X m t WP ND F E. cbn [gflagText] in E. apply Ret_inj in E.
  set (j := JObj (map (fun p => (fst p, JStr (vstr X (snd p)))) m)).
  assert (T : t = printJson j).
  { subst t. unfold j. cbn [printJson]. change (B "{") with [123]. change (B "}") with [125]. change (B ",") with [44]. do 3 f_equal. rewrite map_map. apply map_ext_in.
    intros [k v] I. cbn [fst snd printJson]. rewrite Forall_forall in F. destruct (F _ I) as [F1 F2]. cbn [fst snd] in *. rewrite !quote_plain by assumption.
    change (B """") with [34]. change (B """:""") with [34; 58; 34]. rewrite <- !app_assoc. reflexivity. }
  assert (JB : jsonBytes j).
  { unfold j. apply jsonBytes_obj. rewrite Forall_forall in *. intros p I. apply in_map_iff in I. destruct I as ([k v] & <- & I). destruct (F _ I) as [F1 F2]. cbn [fst snd] in *.
    split; [eapply Forall_impl; [| exact F1] | eapply Forall_impl; [| exact F2]]; intros c (R & _); unfold isByte; lia. }
  unfold gflagsValueToValue. change (startsWithB (B "int") (B "map") || startsWithB (B "uint") (B "map")) with false. cbn iota.
  change (strEqb (B "map") (B "double")) with false. change (strEqb (B "map") (B "bool")) with false. change (strEqb (B "map") (B "string")) with false.
  change (strEqb (B "map") (B "map")) with true. cbn iota. unfold parseFromString. rewrite T, (WP j JB). unfold j. cbn [dynOf forEachItem obind].
  do 2 f_equal. rewrite map_map. cbn [fst snd dynOf].
  assert (Q : forall l acc, NoDup (map fst acc ++ map fst l) -> snd (forItems (mapItem W) (map (fun p => (fst p, DStr (vstr X (snd p)))) l) acc) = acc ++ map (fun p => (fst p, VStr (vstr X (snd p)))) l).
  { clear. induction l as [| [k v] l IH]; intros acc N; cbn [map forItems snd fst]; [rewrite app_nil_r; reflexivity |]. unfold mapItem at 1. cbn [asString].
    cbn [map fst] in N. assert (NK : ~ In k (map fst acc)). { apply NoDup_remove_2 in N. intros I. apply N, in_or_app. left. exact I. }
    rewrite aadd_new by exact NK. rewrite IH, <- app_assoc; [reflexivity |]. rewrite map_app, <- app_assoc. exact N. }
  exact (Q m [] ND).
Qed.
(** It is not so that options arrive as given: texts are told with quotes, and the flag gets a text that is no JSON, so that it is declared no more. *)
Theorem C113_quotes_refuted : exists s, ld [mkConfigItem 2 (B "rocksdb_db_options") MMutable (VMap [(B "max_open_files", VStr (B "100"))])]
    (st [mkFlag (B "rocksdb_db_options") FString (B "{}")]) = Ret (true, s) /\ csTold s = [(7, [(B "max_open_files", B """100""")])] /\
  declareGflags W0 None [mkFlag (B "rocksdb_db_options") FString (B "{}")] 2 = Ret [mkConfigItem 2 (B "rocksdb_db_options") MMutable (VMap [])] /\
  declareGflags W0 None (csFlags s) 2 = Ret [].
Proof. match goal with |- exists s, ?l = _ /\ _ => run l end. splits; (vm_compute; reflexivity). Qed.
(** Loading the same answer again changes and tells nothing. *)
Theorem C113_once : forall G W X listener spaces order order' reg items s s', (forall l, Permutation (order l) l) -> (forall l, Permutation (order' l) l) ->
  (forall it, In it items -> veq X (ciValue it) (ciValue it) = true) -> loadCfg X G W listener spaces order reg (Some items) s = Ret (true, s') ->
  loadCfg X G W listener spaces order' reg (Some items) s' = Ret (true, s').
Proof.
  intros G W X listener spaces order order' reg items s s' PO PO' RF L.
  assert (AM : (forall k it, In (k, it) (answerMap items) -> In it items) /\ NoDup (map fst (answerMap items))).
  { unfold answerMap. assert (Y : forall l m, NoDup (map fst m) -> (forall k it, In (k, it) (fold_left (fun m it => aadd cfgKeyEqb (itemKey it) it m) l m) -> In (k, it) m \/ In it l) /\
      NoDup (map fst (fold_left (fun m it => aadd cfgKeyEqb (itemKey it) it m) l m))).
    { induction l as [| x l IH]; intros m N; cbn [fold_left]; [split; [intros k it H; left; exact H | exact N] |].
      destruct (IH (aadd cfgKeyEqb (itemKey x) x m)) as [I1 I2].
      - unfold aadd. destruct (aget cfgKeyEqb (itemKey x) m) as [y |] eqn:E; [exact N |]. rewrite map_app. cbn [map fst]. apply NoDup_app_disj; [exact N | repeat constructor; intros [] |].
        intros key I [<- | []]. apply in_map_iff in I. destruct I as ([k z] & K & I). cbn in K. subst k. clear - E I. induction m as [| [k u] m IH]; [destruct I |]. cbn [aget] in E.
        destruct (cfgKeyEqb (itemKey x) k) eqn:K; [discriminate |]. destruct I as [I | I]; [injection I as -> ->; rewrite (proj2 (cfgKeyEqb_eq _ _) eq_refl) in K; discriminate | exact (IH E I)].
      - split; [| exact I2]. intros k it H. apply I1 in H. destruct H as [H | H]; [| right; right; exact H].
        unfold aadd in H. destruct (aget cfgKeyEqb (itemKey x) m); [left; exact H |]. apply in_app_or in H. destruct H as [H | [H | []]]; [left; exact H |].
        injection H as _ <-. right. left. reflexivity. }
    destruct (Y items [] (NoDup_nil _)) as [Y1 Y2]. split; [| exact Y2]. intros k it H. apply Y1 in H. destruct H as [[] | H]; exact H. }
  destruct AM as [AM ND].
  assert (T : forall es s s', NoDup (map fst es) -> (forall k it, In (k, it) es -> In it items) -> takeItems X G W listener spaces es s = Ret s' ->
    csReady s' = csReady s /\ (forall k, ~ In k (map fst es) -> aget cfgKeyEqb k (csCache s') = aget cfgKeyEqb k (csCache s)) /\
    (forall k it, In (k, it) es -> exists old, aget cfgKeyEqb k (csCache s') = Some old /\ veq X (ciValue it) (ciValue old) = true)).
  { clear s s' L ND. induction es as [| [k it] es IH]; intros s s' ND H; cbn [takeItems].
    - intros E. apply Ret_inj in E. subst s'. splits; [reflexivity | reflexivity | intros k it []].
    - cbn [map fst] in ND. inversion ND as [| ? ? NK ND2]; subst. assert (H2 : forall k' it', In (k', it') es -> In it' items) by (intros k' it' I; apply (H k'); right; exact I).
      destruct (match aget cfgKeyEqb k (csCache s) with Some old => veq X (ciValue it) (ciValue old) | None => false end) eqn:SM.
      + intros E. destruct (IH s s' ND2 H2 E) as (R & O & A). splits; [exact R | |].
        * intros k' N. apply O. intros I. apply N. right. exact I.
        * intros k' it' [Q | I]; [| exact (A k' it' I)]. injection Q as <- <-. rewrite O by exact NK.
          destruct (aget cfgKeyEqb k (csCache s)) as [old |]; [| discriminate]. exists old. split; [reflexivity | exact SM].
      + destruct (updateGflagsValue X G W listener spaces (csFlags s) it) as [[fs' tl] | | |]; cbn [obind fst snd]; try discriminate.
        intros E. destruct (IH _ s' ND2 H2 E) as (R & O & A). cbn [csReady csCache] in *. splits; [exact R | |].
        * intros k' N. rewrite O by (intros I; apply N; right; exact I). rewrite (aget_aset cfgKeyEqb cfgKeyEqb_eq).
          destruct (cfgKeyEqb k' k) eqn:K; [| reflexivity]. apply cfgKeyEqb_eq in K. destruct N. left. symmetry. exact K.
        * intros k' it' [Q | I]; [| exact (A k' it' I)]. injection Q as <- <-. exists it. split; [| apply RF, (H k), or_introl; reflexivity]. rewrite O by exact NK.
          rewrite (aget_aset cfgKeyEqb cfgKeyEqb_eq), (proj2 (cfgKeyEqb_eq _ _) eq_refl). reflexivity. }
  assert (ST : forall es s, (forall k it, In (k, it) es -> exists old, aget cfgKeyEqb k (csCache s) = Some old /\ veq X (ciValue it) (ciValue old) = true) ->
    takeItems X G W listener spaces es s = Ret s).
  { clear. induction es as [| [k it] es IH]; intros s H; [reflexivity |]. cbn [takeItems]. destruct (H k it (or_introl eq_refl)) as (old & -> & ->).
    apply IH. intros k' it' I. apply H. right. exact I. }
  assert (FIN : forall s1, csReady s1 = true -> takeItems X G W listener spaces (order (answerMap items)) s1 = Ret s' ->
    loadCfg X G W listener spaces order' reg (Some items) s' = Ret (true, s')).
  { intros s1 R1 E. apply T in E; [| eapply Permutation_NoDup; [apply Permutation_map, Permutation_sym, PO | exact ND] |
      intros k it I; apply (AM k); eapply Permutation_in; [apply PO | exact I]]. destruct E as (R & _ & A). rewrite R1 in R.
    unfold loadCfg. rewrite R, R. rewrite ST; [reflexivity |]. intros k it I. apply A. eapply Permutation_in; [apply Permutation_sym, PO |]. eapply Permutation_in; [apply PO' | exact I]. }
  unfold loadCfg in L. destruct (csReady s) eqn:R; [rewrite R in L | destruct reg; cbn [csReady] in L].
  - destruct (takeItems X G W listener spaces (order (answerMap items)) s) as [s1 | | |] eqn:E; try discriminate. apply Ret_inj in L. injection L as <-. exact (FIN s R E).
  - match type of L with (let* _ := ?x in _) = _ => destruct x as [s1 | | |] eqn:E end; try discriminate. apply Ret_inj in L. injection L as <-. refine (FIN _ _ E). reflexivity.
  - discriminate.
Qed.
Example C113_ex : exists s, ld [mkConfigItem 2 (B "rocksdb_db_options") MMutable (VMap [(B "max_open_files", VInt 100); (B "sync", VBool true)])]
    (st [mkFlag (B "rocksdb_db_options") FString (B "{}")]) = Ret (true, s) /\ csTold s = [(7, [(B "max_open_files", B "100"); (B "sync", B "true")])] /\
  csFlags s = [mkFlag (B "rocksdb_db_options") FString (B "{""max_open_files"":""100"",""sync"":""true""}")].
Proof. match goal with |- exists s, ?l = _ /\ _ => run l end. splits; (vm_compute; reflexivity). Qed.

Print Assumptions C111_round_trip. Print Assumptions C111_modes. Print Assumptions C111_declared. Print Assumptions C111_ends_refuted. Print Assumptions C111_map_refuted.
Print Assumptions C112_untouched. Print Assumptions C112_follows. Print Assumptions C112_local_change_refuted. Print Assumptions C112_mode_change_refuted. Print Assumptions C112_small_change_refuted. Print Assumptions C112_ends_refuted.
Print Assumptions C113_told. Print Assumptions C113_flag_text. Print Assumptions C113_quotes_refuted. Print Assumptions C113_once.
