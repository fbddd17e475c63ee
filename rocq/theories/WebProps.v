(** * C114, C115: flags over HTTP *)
From Coq Require Import String List Lia ZArith Bool.
From Verif Require Import Prelude ValueBase ValueModel ValueProofs DecProofs FuncModel StatsModel StatsProps NetModel EvalModel NetProps AssocModel DynModel DynProofs ConfModel ConfProps
  FullTextModel FullTextSpec FullTextProofs GflagsModel GflagsProps RouterModel WebModel.
Import ListNotations.
Local Open Scope Z_scope.
Local Open Scope list_scope.

(** ** C114: setting flags *)
(** the flag takes the text and then shows [v] *)
Definition takesText (G : gWorld) (f : flag) (text v : str) : Prop := flagParse G (flType f) (cstr text) = Some v /\ gwValid G (flName f) v = true.
Definition accepted (G : gWorld) (rs : list reg) (n text : str) : Prop := exists r v, In r rs /\ flName (rgFlag r) = n /\ takesText G (rgFlag r) text v.
Definition nowShows (r r' : reg) (v : str) : Prop :=
  r' = mkReg (mkFlag (flName (rgFlag r)) (flType (rgFlag r)) v) (rgDefault r) (rgDescription r) (rgFile r) true.
Definition regNames (rs : list reg) : list str := map (fun r => flName (rgFlag r)) rs.
Definition scalar (W : dynWorld) (d : dyn) : Prop := asString W d <> None.

Lemma takesText_dec G f text : (exists v, takesText G f text v) \/ (forall v, ~ takesText G f text v).
Proof.
  unfold takesText. destruct (flagParse G (flType f) (cstr text)) as [v |]; [| right; intros v [E _]; discriminate].
  destruct (gwValid G (flName f) v) eqn:V; [left; exists v; split; [reflexivity | exact V] | right; intros w [E C]; injection E as <-; congruence].
Qed.
(** what one assignment does *)
Lemma regSet_spec G n text : ~ In 0 n -> forall rs, NoDup (regNames rs) -> exists rs' ok, regSet G rs n text = (rs', ok) /\
  (ok = true <-> accepted G rs n text) /\
  Forall2 (fun r r' => (flName (rgFlag r) = n /\ exists v, takesText G (rgFlag r) text v /\ nowShows r r' v) \/
     ((flName (rgFlag r) <> n \/ forall v, ~ takesText G (rgFlag r) text v) /\ r' = r)) rs rs'.
Proof.
  intros NZ. induction rs as [| r rs IH]; intros ND.
  - exists [], false. splits; [reflexivity | split; [discriminate | intros (r & v & [] & _)] | constructor].
  - cbn [regNames map] in ND. inversion ND as [| ? ? NI ND']; subst. destruct (IH ND') as (rs' & ok & E & A & F). cbn [regSet]. rewrite cstr_id by exact NZ.
    assert (SAME : flName (rgFlag r) = n -> Forall2 (fun r r' => (flName (rgFlag r) = n /\ exists v, takesText G (rgFlag r) text v /\ nowShows r r' v) \/
     ((flName (rgFlag r) <> n \/ forall v, ~ takesText G (rgFlag r) text v) /\ r' = r)) rs rs).
    { intros EN. clear - NI EN. assert (H : forall x, In x rs -> flName (rgFlag x) <> n).
      { intros x I C. apply NI. unfold regNames. apply in_map_iff. exists x. split; [congruence | exact I]. }
      clear NI. induction rs as [| x rs IH]; [constructor |]. constructor; [| apply IH; intros y I; apply H; right; exact I].
      right. split; [left; apply H; left; reflexivity | reflexivity]. }
    assert (NO : flName (rgFlag r) = n -> (forall v, ~ takesText G (rgFlag r) text v) -> ~ accepted G (r :: rs) n text).
    { intros EN NT (x & v & [<- | I] & Ex & T); [exact (NT v T) |]. apply NI. unfold regNames. apply in_map_iff. exists x. split; [congruence | exact I]. }
    destruct (strEqb (flName (rgFlag r)) n) eqn:EQ.
    + apply strEqb_eq in EQ. destruct (takesText_dec G (rgFlag r) text) as [[v [P V]] | NT].
      * rewrite P, V. eexists _, true. splits; [reflexivity | | constructor; [| apply SAME; exact EQ]].
        -- split; [intros _ | reflexivity]. exists r, v. splits; [left; reflexivity | exact EQ | split; assumption].
        -- left. split; [exact EQ |]. exists v. split; [split; assumption | reflexivity].
      * exists (r :: rs), false. splits.
        -- unfold takesText in NT. destruct (flagParse G (flType (rgFlag r)) (cstr text)) as [v |]; [| reflexivity].
           destruct (gwValid G (flName (rgFlag r)) v) eqn:V; [destruct (NT v); split; [reflexivity | exact V] | reflexivity].
        -- split; [discriminate |]. intros AC. destruct (NO EQ NT AC).
        -- constructor; [right; split; [right; exact NT | reflexivity] | apply SAME; exact EQ].
    + assert (NE : flName (rgFlag r) <> n). { intros C. apply strEqb_eq in C. congruence. }
      rewrite E. exists (r :: rs'), ok. splits; [reflexivity | | constructor; [right; split; [left; exact NE | reflexivity] | exact F]].
      rewrite A. split; intros (x & v & I & Ex & T); exists x, v; (splits; [| exact Ex | exact T]); [right; exact I |].
      destruct I as [<- | I]; [contradiction | exact I].
Qed.
Lemma kept_names G n text rs rs' : Forall2 (fun r r' => (flName (rgFlag r) = n /\ exists v, takesText G (rgFlag r) text v /\ nowShows r r' v) \/
     ((flName (rgFlag r) <> n \/ forall v, ~ takesText G (rgFlag r) text v) /\ r' = r)) rs rs' -> regNames rs' = regNames rs.
Proof.
  induction 1 as [| r r' rs rs' H F IH]; [reflexivity |]. unfold regNames in *. cbn [map]. rewrite IH. f_equal.
  destruct H as [(_ & v & _ & ->) | [_ ->]]; reflexivity.
Qed.

(** what becomes of the flags when a JSON object with these members is sent *)
Definition assigned (G : gWorld) (W : dynWorld) (m : list (str * dyn)) (r r' : reg) : Prop :=
  (exists d text v, In (flName (rgFlag r), d) m /\ asString W d = Some text /\ takesText G (rgFlag r) text v /\ nowShows r r' v) \/
  ((forall d text v, In (flName (rgFlag r), d) m -> asString W d = Some text -> ~ takesText G (rgFlag r) text v) /\ r' = r).
Lemma setItems_spec G W m : NoDup (map fst m) -> (forall n d, In (n, d) m -> ~ In 0 n /\ scalar W d) -> forall rs, NoDup (regNames rs) ->
  exists rs' failed, setItems G W m rs = Ret (rs', failed) /\ Forall2 (assigned G W m) rs rs' /\
    NoDup failed /\ (forall n, In n failed <-> exists d text, In (n, d) m /\ asString W d = Some text /\ ~ accepted G rs n text) /\
    (exists keep, failed = map fst (filter keep m)).
Proof.
  induction m as [| [n d] m IH]; intros ND OK rs NR.
  - exists rs, []. splits; [reflexivity | | constructor | | exists (fun _ => true); reflexivity].
    + clear NR. induction rs as [| r rs IHr]; constructor; [right; split; [intros ? ? ? [] | reflexivity] | exact IHr].
    + intros n. split; [intros [] | intros (d & t & [] & _)].
  - cbn [map fst] in ND. inversion ND as [| ? ? NI ND']; subst. cbn [setItems].
    destruct (OK n d (or_introl eq_refl)) as [NZ SC]. unfold scalar in SC. destruct (asString W d) as [text |] eqn:AS; [| contradiction]. cbn [throwing obind].
    destruct (regSet_spec G n text NZ rs NR) as (rs1 & ok & E1 & A1 & F1). rewrite E1.
    pose proof (kept_names _ _ _ _ _ F1) as KN.
    destruct (IH ND' (fun n' d' I => OK n' d' (or_intror I)) rs1) as (rs2 & failed & E2 & F2 & NF & FA & (keep & FK)); [rewrite KN; exact NR |].
    rewrite E2. cbn [obind fst snd].
    (* the other members meet the same flags as before *)
    assert (AC : forall n' t', n' <> n -> (accepted G rs1 n' t' <-> accepted G rs n' t')).
    { intros n' t' NE. unfold accepted. clear - F1 NE. induction F1 as [| r r' rs rs' H F IH].
      - split; intros (r & v & [] & _).
      - assert (SAMEr : flName (rgFlag r) = n' -> r' = r). { intros C. destruct H as [[C' _] | [_ ->]]; [congruence | reflexivity]. }
        assert (NMr : flName (rgFlag r') = flName (rgFlag r)). { destruct H as [(_ & v & _ & ->) | [_ ->]]; reflexivity. }
        split; intros (x & v & [<- | I] & Ex & T).
        + rewrite NMr in Ex. specialize (SAMEr Ex). subst r'. exists r, v. splits; [left; reflexivity | exact Ex | exact T].
        + destruct (proj1 IH) as (y & w & Iy & Ey & Ty); [exists x, v; splits; assumption |]. exists y, w. splits; [right; exact Iy | exact Ey | exact Ty].
        + specialize (SAMEr Ex). subst r'. exists r, v. splits; [left; reflexivity | exact Ex | exact T].
        + destruct (proj2 IH) as (y & w & Iy & Ey & Ty); [exists x, v; splits; assumption |]. exists y, w. splits; [right; exact Iy | exact Ey | exact Ty]. }
    assert (DIFF : forall n' d', In (n', d') m -> n' <> n). { intros n' d' I ->. apply NI. apply in_map_iff. exists (n, d'). split; [reflexivity | exact I]. }
    exists rs2, (if ok then failed else n :: failed). splits.
    + reflexivity.
    + clear - F1 F2 AS DIFF. revert rs2 F2. induction F1 as [| r r1 rs rs1 H F IH]; intros rs2 F2; inversion F2 as [| ? r2 ? ? H2 F2']; subst; constructor; [| apply IH; exact F2'].
      destruct H as [(EN & v & T & ->) | [NO ->]].
      * (* this member names the flag *)
        destruct H2 as [(d' & t' & v' & I' & _) | [_ ->]]; [destruct (DIFF _ _ I' EN) |].
        left. exists d, text, v. splits; [left; rewrite EN; reflexivity | exact AS | exact T | reflexivity].
      * destruct H2 as [(d' & t' & v' & I' & A' & T' & S') | [N' ->]].
        -- left. exists d', t', v'. splits; [right; exact I' | exact A' | exact T' | exact S'].
        -- right. split; [| reflexivity]. intros d' t' v' [X | I'] A' T'; [| exact (N' d' t' v' I' A' T')]. injection X as X1 X2. subst d'.
           rewrite AS in A'. injection A' as <-. destruct NO as [C | NT]; [congruence | exact (NT v' T')].
    + destruct ok; [exact NF |]. constructor; [| exact NF]. intros C. apply FA in C. destruct C as (d' & t' & I & _). destruct (DIFF _ _ I eq_refl).
    + intros n'. assert (REST : In n' failed <-> exists d' t', In (n', d') m /\ asString W d' = Some t' /\ ~ accepted G rs n' t').
      { rewrite FA. split; intros (d' & t' & I & A & NA); exists d', t'; (splits; [exact I | exact A |]); intros C; apply NA; apply (AC n' t' (DIFF _ _ I)); exact C. }
      destruct ok.
      * rewrite REST. split; [intros (d' & t' & I & A & NA); exists d', t'; splits; [right; exact I | exact A | exact NA] |].
        intros (d' & t' & [X | I] & A & NA); [| exists d', t'; splits; assumption]. injection X as -> ->. destruct NA. rewrite AS in A. injection A as <-. apply A1. reflexivity.
      * cbn [In]. rewrite REST. split.
        -- intros [<- | (d' & t' & I & A & NA)]; [| exists d', t'; splits; [right; exact I | exact A | exact NA]].
           exists d, text. splits; [left; reflexivity | exact AS |]. intros C. apply A1 in C. discriminate.
        -- intros (d' & t' & [X | I] & A & NA); [left; congruence | right; exists d', t'; splits; assumption].
    + assert (KX : forall b k, (forall x, In x m -> k x = keep x) -> k (n, d) = b -> (if b then [n] else []) ++ failed = map fst (filter k ((n, d) :: m))).
      { intros b k HK Hn. cbn [filter]. rewrite Hn. assert (filter k m = filter keep m) as -> by (apply filter_ext_in; exact HK). rewrite FK. destruct b; reflexivity. }
      exists (fun x => if strEqb (fst x) n then negb ok else keep x). rewrite <- (KX (negb ok)).
      * destruct ok; reflexivity.
      * intros [n' d'] I. cbn [fst]. destruct (strEqb n' n) eqn:Q; [apply strEqb_eq in Q; destruct (DIFF _ _ I Q) | reflexivity].
      * cbn [fst]. rewrite (proj2 (strEqb_eq n n) eq_refl). reflexivity.
Qed.

(** the answer for these refused members *)
Definition answer (failed : list str) : response :=
  match failed with [] => OkJson (DObj [(B "errCode", DInt 0)]) | _ => OkJson (DObj [(B "failedOptions", DArr (map DStr failed))]) end.
(** A JSON object with scalar members: every flag that one of them names and that takes its text shows it afterwards, all others are as before, and the
    answer names exactly the members for which there is no flag or whose flag refuses the text. *)
Theorem C114_sets_flags : forall G W b m rs, dwParse W b = Some (DObj m) -> m <> [] -> NoDup (map fst m) -> (forall n d, In (n, d) m -> ~ In 0 n /\ scalar W d) ->
  NoDup (regNames rs) -> exists rs' failed, setFlags G W true (Some b) rs = Ret (answer failed, rs') /\ Forall2 (assigned G W m) rs rs' /\
    NoDup failed /\ (forall n, In n failed <-> exists d text, In (n, d) m /\ asString W d = Some text /\ ~ accepted G rs n text) /\
    (exists keep, failed = map fst (filter keep m)).
Proof.
  intros G W b m rs P NE ND OK NR. destruct (setItems_spec G W m ND OK rs NR) as (rs' & failed & E & R). exists rs', failed. split; [| exact R].
  unfold setFlags. rewrite P. destruct m as [| x m]; [contradiction |]. cbn [dynEmpty]. rewrite E. cbn [obind fst snd]. destruct failed; reflexivity.
Qed.
(** Requests that are refused change nothing: no JSON, JSON that is empty or a number or a Boolean; another method. *)
Definition nothingAsked (d : dyn) : Prop := In d [DNull; DStr []; DArr []; DObj []] \/ (exists b, d = DBool b) \/ (exists z, d = DInt z) \/ exists x, d = DDouble x.
Theorem C114_refused : forall G W put b rs, (dwParse W b = None \/ exists d, dwParse W b = Some d /\ nothingAsked d) ->
  setFlags G W put (Some b) rs = Ret (BadRequest, rs).
Proof.
  intros G W put b rs [P | (d & P & N)]; unfold setFlags; rewrite P; [reflexivity |].
  destruct N as [I | [[x ->] | [[x ->] | [x ->]]]]; try reflexivity. destruct I as [<- | [<- | [<- | [<- | []]]]]; reflexivity.
Qed.
Theorem C114_other_method : forall G W b rs, exists r, setFlags G W false (Some b) rs = Ret (r, rs) /\ (r = BadRequest \/ r = NotAllowed) /\
  (r = BadRequest <-> dwParse W b = None \/ exists d, dwParse W b = Some d /\ nothingAsked d).
Proof.
  intros G W b rs. unfold setFlags. destruct (dwParse W b) as [d |].
  2:{ eexists. splits; [reflexivity | left; reflexivity | split; auto]. }
  assert (N : nothingAsked d \/ dynEmpty d = Some false /\ ~ nothingAsked d).
  { unfold nothingAsked. destruct d as [| x | x | x | [| c s] | [| c l] | [| c m]]; cbn [In dynEmpty]; eauto 8; right; (split; [reflexivity|]); intros [X | [[? X] | [[? X] | [? X]]]]; try discriminate;
      repeat (destruct X as [X | X]; [discriminate|]); exact X. }
  destruct N as [N | [E N]].
  - exists BadRequest. splits; [|left; reflexivity|split; [intros _; right; exists d; split; [reflexivity|exact N]|reflexivity]].
    destruct N as [X | [[x ->] | [[x ->] | [x ->]]]]; try reflexivity. repeat (destruct X as [<- | X]; [reflexivity|]). destruct X.
  - exists NotAllowed. rewrite E. splits; [reflexivity|right; reflexivity|]. split; [discriminate|]. intros [X | (d' & X & Y)]; [discriminate|]. injection X as <-. contradiction.
Qed.
(** When the process ends or is undefined: exactly when there is no body, and when the body is a JSON string or array that is not empty, or an object
    with a member that is null, an array or an object. *)
Definition ends (W : dynWorld) (d : dyn) : Prop :=
  match d with DStr s => s <> [] | DArr l => l <> [] | DObj m => exists n x, In (n, x) m /\ ~ scalar W x | _ => False end.
Theorem C114_ends : forall G W body rs,
  (setFlags G W true body rs = UB <-> body = None) /\
  (setFlags G W true body rs = Fatal <-> exists b d, body = Some b /\ dwParse W b = Some d /\ ends W d) /\
  setFlags G W true body rs <> Diverge.
Proof.
  intros G W body rs. destruct body as [b |].
  2:{ splits; [split; reflexivity | split; [discriminate | intros (b & d & E & _); discriminate] | discriminate]. }
  assert (SI : forall m rs, (exists r, setItems G W m rs = Ret r /\ forall n x, In (n, x) m -> scalar W x) \/
     (setItems G W m rs = Fatal /\ exists n x, In (n, x) m /\ ~ scalar W x)).
  { induction m as [| [n d] m IH]; intros rs1; [left; eexists; split; [reflexivity | intros ? ? []] |]. cbn [setItems].
    destruct (asString W d) as [t |] eqn:A; cbn [throwing obind].
    - destruct (regSet G rs1 n t) as [rs2 ok]. destruct (IH rs2) as [(r & E & S) | (E & n' & x & I & S)]; rewrite E; cbn [obind].
      + left. eexists. split; [reflexivity |]. intros n' x [X | I]; [injection X as <- <-; unfold scalar; congruence | exact (S n' x I)].
      + right. split; [reflexivity |]. exists n', x. split; [right; exact I | exact S].
    - right. split; [reflexivity |]. exists n, d. split; [left; reflexivity | unfold scalar; rewrite A; tauto]. }
  unfold setFlags. destruct (dwParse W b) as [d |] eqn:P.
  2:{ splits; [split; discriminate | split; [discriminate | intros (b' & d & E & E' & _); congruence] | discriminate]. }
  assert (NOT : forall r, ~ ends W d -> r <> UB -> r <> Fatal -> r <> Diverge -> (r = UB <-> Some b = None) /\
     (r = Fatal <-> exists b' d', Some b = Some b' /\ dwParse W b' = Some d' /\ ends W d') /\ r <> (Diverge : outcome (response * list reg))).
  { intros r NE N1 N2 N3. splits; [split; [contradiction | discriminate] | split; [contradiction |] | exact N3]. intros (b' & d' & E & E' & H). injection E as <-. congruence. }
  assert (YES : ends W d -> ((Fatal : outcome (response * list reg)) = UB <-> Some b = None) /\
     ((Fatal : outcome (response * list reg)) = Fatal <-> exists b' d', Some b = Some b' /\ dwParse W b' = Some d' /\ ends W d') /\ (Fatal : outcome (response * list reg)) <> Diverge).
  { intros H. splits; [split; discriminate | split; [intros _; exists b, d; splits; [reflexivity | exact P | exact H] | reflexivity] | discriminate]. }
  destruct d as [| x | x | x | s | l | m]; cbn [dynEmpty]; try (apply NOT; [exact (fun x => x) | discriminate | discriminate | discriminate]).
  - destruct s; [apply NOT; [cbn; congruence | discriminate | discriminate | discriminate] | apply YES; cbn; discriminate].
  - destruct l; [apply NOT; [cbn; congruence | discriminate | discriminate | discriminate] | apply YES; cbn; discriminate].
  - destruct m as [| x m]; [apply NOT; [intros (n & y & [] & _) | discriminate | discriminate | discriminate] |].
    destruct (SI (x :: m) rs) as [(r & -> & S) | (-> & n & y & I & S)]; cbn [obind].
    + apply NOT; [intros (n & y & I & C); exact (C (S n y I)) | discriminate | discriminate | discriminate].
    + apply YES. exists n, y. split; assumption.
Qed.
(** It is not so that every request is answered. *)
Definition flag1 : reg := mkReg (mkFlag (B "v") FInt32 (B "0")) (B "0") (B "log level") (B "vlog.cc") false.
Definition flag2 : reg := mkReg (mkFlag (B "local_config") FBool (B "true")) (B "true") (B "from file") (B "a.cpp") false.
Definition flag3 : reg := mkReg (mkFlag (B "log_dir") FString (B "logs")) (B "") (B "directory") (B "b.cpp") true.
Theorem C114_ends_refuted : setFlags G0 W0 true None [flag1] = UB /\ setFlags G0 W0 true (Some (B "[1]")) [flag1] = Fatal /\
  setFlags G0 W0 true (Some (B """v""")) [flag1] = Fatal /\ setFlags G0 W0 true (Some (B "{""v"":null}")) [flag1] = Fatal.
Proof. splits; (vm_compute; reflexivity). Qed.
(** It is not so that a flag shows the text it was given when the answer reports no failure: a text is cut at its first byte 0. *)
Theorem C114_cut_refuted : forall W b, dwParse W b = Some (DObj [(B "log_dir", DStr (B "/tmp" ++ [0] ++ B "/x"))]) ->
  exists rs', setFlags G0 W true (Some b) [flag3] = Ret (answer [], rs') /\ option_map (fun r => flText (rgFlag r)) (regGet rs' (B "log_dir")) = Some (B "/tmp").
Proof. intros W b P. unfold setFlags. rewrite P. eexists. split; [reflexivity |]. reflexivity. Qed.
Example C114_ex : setFlags G0 W0 true (Some (B "{""v"":""x"",""log_dir"":""/tmp"",""nosuch"":1,""local_config"":false}")) [flag1; flag2; flag3] =
  Ret (OkJson (DObj [(B "failedOptions", DArr [DStr (B "v"); DStr (B "nosuch")])]),
       [flag1; mkReg (mkFlag (B "local_config") FBool (B "false")) (B "true") (B "from file") (B "a.cpp") true;
        mkReg (mkFlag (B "log_dir") FString (B "/tmp")) (B "") (B "directory") (B "b.cpp") true]).
Proof. vm_compute. reflexivity. Qed.

(** ** C115: reading flags *)
Definition dynVal (v : value) : dyn :=
  match v with VBool b => DBool b | VInt z => DInt z | VFloat x => DDouble x | VStr s => DStr s | _ => DNull end.
Lemma toUInt_decZ hi z : 0 <= z <= hi -> toUInt hi (decZ z) = Some z.
Proof.
  intros R. destruct (decZ_nonneg z) as (N & D & G); [lia |]. specialize (G [] eq_refl). rewrite app_nil_r in G. unfold toUInt.
  assert (dropSpace (decZ z) = decZ z) as ->.
  { destruct (decZ z) as [| c r]; [contradiction |]. cbn in D. apply andb_prop in D. destruct D as [D _]. cbn.
    assert (isSpace c = false) as -> by (unfold isDigit, isSpace in *; lia). reflexivity. }
  rewrite G. rewrite skipn_all. cbn [forallb]. replace (z <=? hi) with true by lia. destruct (decZ z); [contradiction | reflexivity].
Qed.
Lemma flagDyn_holds W t s v : holds W t s v -> flagDyn W t s = Ret (dynVal v).
Proof.
  intros [b | t' z I R M | s' | s' x E]; [destruct b; reflexivity | | reflexivity | cbn; rewrite E; reflexivity].
  destruct I as [<- | [<- | [<- | [<- | []]]]]; cbn [flagRange fst snd] in R; unfold int32_min, int32_max, int64_min, int64_max in *; cbn [flagDyn].
  - rewrite toInt32_decZ by (unfold in_int32, int32_min, int32_max; lia). reflexivity.
  - rewrite toUInt_decZ by lia. reflexivity.
  - rewrite toInt64_decZ by (unfold int64_min, int64_max; lia). reflexivity.
  - rewrite toUInt_decZ by lia. cbn [throwing obind dynVal]. do 2 f_equal. unfold wrap64, two64. lia.
Qed.

(** which flags are asked for: the names between the commas, or all flags if there are none *)
Definition nameOk (n : str) : Prop := n <> [] /\ ~ In 44 n /\ ~ In 0 n.
Definition asks (q : request) (rs : list reg) (names : list str) : Prop :=
  (names <> [] /\ Forall nameOk names /\ rqNames q = Some (joinStr (B ",") names)) \/
  (names = regNames rs /\ forall s, rqNames q = Some s -> Forall (eq 44) s).
(** a flag whose texts are those of values, as gflags leaves them *)
Definition finiteV (v : value) : Prop := match v with VFloat x => finiteF x = true | _ => True end.
Definition readable (W : dynWorld) (r : reg) : Prop :=
  (exists v, holds W (flType (rgFlag r)) (flText (rgFlag r)) v /\ finiteV v) /\ (exists v, holds W (flType (rgFlag r)) (rgDefault r) v /\ finiteV v).
(** what an entry says *)
Definition about (W : dynWorld) (verbose : bool) (r : reg) (e : list (str * dyn)) : Prop :=
  let t := flType (rgFlag r) in
  (exists v, holds W t (flText (rgFlag r)) v /\ dget (B "value") e = Some (dynVal v)) /\
  if verbose then
    (exists d, holds W t (rgDefault r) d /\ dget (B "default") e = Some (dynVal d)) /\ dget (B "type") e = Some (DStr (typeText t)) /\
    dget (B "description") e = Some (DStr (rgDescription r)) /\ dget (B "file") e = Some (DStr (rgFile r)) /\
    dget (B "is_default") e = Some (DBool (negb (rgModified r))) /\ List.length e = 7%nat
  else List.length e = 2%nat.
Definition describes (W : dynWorld) (verbose : bool) (rs : list reg) (n : str) (e : list (str * dyn)) : Prop :=
  dget (B "name") e = Some (DStr n) /\
  ((exists r, In r rs /\ flName (rgFlag r) = n /\ about W verbose r e) \/ (~ In n (regNames rs) /\ dget (B "value") e = Some DNull /\ List.length e = 2%nat)).

Lemma split_names names : names <> [] -> Forall nameOk names -> splitNonEmpty (B ",") (joinStr (B ",") names) = names.
Proof.
  intros NE F. unfold splitNonEmpty, follySplit. change (B ",") with [44].
  assert (Q : forall names fuel, names <> [] -> Forall nameOk names -> (List.length (joinStr ([44] : str)%Z names) < fuel)%nat -> splitFrom fuel [44] (joinStr [44] names) [] = names).
  { clear. induction names as [| n names IH]; intros fuel NE F L; [contradiction |]. inversion F as [| ? ? (N1 & N2 & _) F']; subst.
    destruct names as [| n2 names].
    - cbn [joinStr] in *. rewrite split_tok by assumption. reflexivity.
    - change (joinStr [44] (n :: n2 :: names)) with (n ++ 44 :: joinStr [44] (n2 :: names)) in *.
      destruct (split_piece 44 n (joinStr [44] (n2 :: names)) fuel []) as (f & E & Lf); [exact N2 | rewrite app_length in L; cbn [List.length] in L; lia |].
      rewrite E. cbn [app]. f_equal. apply IH; [discriminate | exact F' |]. exact Lf. }
  rewrite Q; [| exact NE | exact F | lia].
  clear NE Q. induction F as [| n names (N & _) F IH]; [reflexivity |]. cbn [filter]. rewrite IH. destruct n; [contradiction | reflexivity].
Qed.
Lemma split_blank s : Forall (eq 44) s -> splitNonEmpty (B ",") s = [].
Proof.
  intros F. unfold splitNonEmpty, follySplit. change (B ",") with [44].
  assert (Q : forall fuel s, (List.length s < fuel)%nat -> Forall (eq 44) s -> Forall (eq []) (splitFrom fuel [44] s [])).
  { clear. induction fuel as [| fuel IH]; intros s L F; [lia |]. destruct s as [| c s]; [repeat constructor |].
    inversion F as [| ? ? E F']; subst. cbn [List.length] in L. cbn. constructor; [reflexivity | apply IH; [lia | exact F']]. }
  specialize (Q (S (List.length s)) s ltac:(lia) F). induction Q as [| x l <- Q IH]; [reflexivity | exact IH].
Qed.
Lemma regGet_spec rs n : ~ In 0 n -> match regGet rs n with Some r => In r rs /\ flName (rgFlag r) = n | None => ~ In n (regNames rs) end.
Proof.
  intros NZ. induction rs as [| r rs IH]; [exact (fun x => x) |]. cbn [regGet]. rewrite cstr_id by exact NZ. destruct (strEqb (flName (rgFlag r)) n) eqn:E.
  - apply strEqb_eq in E. split; [left; reflexivity | exact E].
  - destruct (regGet rs n) as [x |]; [destruct IH; split; [right; assumption | assumption] |].
    intros [C | I]; [apply strEqb_eq in C; congruence | exact (IH I)].
Qed.
Lemma addOne_spec W verbose rs n r : readable W r -> In r rs -> flName (rgFlag r) = n -> exists e, addOneFlag W verbose n (Some r) = Ret e /\ describes W verbose rs n e /\ printable (DObj e) = true.
Proof.
  intros [(v & H & FV) (d & H2 & FD)] I N. unfold addOneFlag. rewrite (flagDyn_holds _ _ _ _ H). cbn [obind].
  assert (PV : forall w, finiteV w -> printable (dynVal w) = true) by (intros []; cbn; trivial).
  destruct verbose.
  - rewrite (flagDyn_holds _ _ _ _ H2). cbn [obind]. eexists. split; [reflexivity |]. split; [split; [reflexivity |] |].
    + left. exists r. splits; try assumption. split; [exists v; split; [exact H | reflexivity] |]. splits; try reflexivity. exists d. split; [exact H2 | reflexivity].
    + cbn -[printable]. cbn [printable]. fold printable. rewrite (PV v FV), (PV d FD). reflexivity.
  - eexists. split; [reflexivity |]. split; [split; [reflexivity |] |].
    + left. exists r. splits; try assumption. split; [exists v; split; [exact H | reflexivity] | reflexivity].
    + cbn [printable]. fold printable. rewrite (PV v FV). reflexivity.
Qed.
Lemma get_spec W verbose q rs names : Forall (readable W) rs -> asks q rs names -> exists es, getFlags W verbose (askedNames (rqNames q)) rs = Ret es /\
  Forall2 (describes W verbose rs) names es /\ Forall (fun e => printable (DObj e) = true) es.
Proof.
  intros RD A. destruct A as [(NE & F & ->) | (-> & BL)].
  - cbn [askedNames]. rewrite split_names by assumption. unfold getFlags.
    assert (Q : exists es, addFlags W verbose (map (fun n => (n, regGet rs n)) names) = Ret es /\ Forall2 (describes W verbose rs) names es /\ Forall (fun e => printable (DObj e) = true) es).
    { clear NE. induction F as [| n names (_ & _ & NZ) F (es & E & F2 & P)]; [exists []; splits; [reflexivity | constructor | constructor] |].
      cbn [map addFlags]. pose proof (regGet_spec rs n NZ) as S. destruct (regGet rs n) as [r |].
      - destruct S as [I N]. rewrite Forall_forall in RD. destruct (addOne_spec W verbose rs n r (RD r I) I N) as (e & -> & D & PE). cbn [obind]. rewrite E. cbn [obind].
        exists (e :: es). splits; [reflexivity | constructor; assumption | constructor; assumption].
      - cbn [addOneFlag obind]. rewrite E. cbn [obind]. eexists. splits; [reflexivity | constructor; [| exact F2] | constructor; [reflexivity | exact P]].
        split; [reflexivity |]. right. splits; [exact S | reflexivity | reflexivity]. }
    destruct names as [| n names]; [contradiction | exact Q].
  - assert (askedNames (rqNames q) = []) as ->. { destruct (rqNames q) as [s |]; [apply split_blank, BL; reflexivity | reflexivity]. }
    cbn [getFlags]. assert (Q : forall l, incl l rs -> exists es, addFlags W verbose (map (fun r => (flName (rgFlag r), Some r)) l) = Ret es /\ Forall2 (describes W verbose rs) (regNames l) es /\ Forall (fun e => printable (DObj e) = true) es).
    { induction l as [| r l IH]; intros IN; [exists []; splits; [reflexivity | constructor | constructor] |].
      destruct IH as (es & E & F2 & P); [intros x I; apply IN; right; exact I |]. rewrite Forall_forall in RD. pose proof (IN r (or_introl eq_refl)) as I.
      destruct (addOne_spec W verbose rs _ r (RD r I) I eq_refl) as (e & E1 & D & PE). cbn [map addFlags]. rewrite E1. cbn [obind]. rewrite E. cbn [obind].
      exists (e :: es). splits; [reflexivity | constructor; assumption | constructor; assumption]. }
    apply Q. intros x I; exact I.
Qed.
(** The JSON answer has one entry for each name asked for, in this order, with the flag's value in the flag's own type, or null if there is no such flag. *)
Theorem C115_json : forall W q rs names, rqGet q = true -> rqFormat q = Some (B "json") -> Forall (readable W) rs -> asks q rs names ->
  exists es, getFlagsHandler W q rs = Ret (OkJson (DObj [(B "flags", DArr (map DObj es))])) /\
    Forall2 (describes W (isParam (rqVerbose q) (B "true")) rs) names es.
Proof.
  intros W q rs names GQ FQ RD A. destruct (get_spec W (isParam (rqVerbose q) (B "true")) q rs names RD A) as (es & E & F2 & P).
  exists es. split; [| exact F2]. unfold getFlagsHandler. rewrite GQ, E, FQ. cbn [obind isParam]. rewrite (proj2 (strEqb_eq (B "json") (B "json")) eq_refl). unfold asJson.
  replace (printable (DObj [(B "flags", DArr (map DObj es))])) with true; [reflexivity |]. symmetry. clear - P.
  change (printable (DArr (map DObj es)) && true = true). rewrite andb_true_r. induction P as [| e es PE P IH]; [reflexivity |].
  change (printable (DObj e) && printable (DArr (map DObj es)) = true). rewrite PE. exact IH.
Qed.
(** the text of a value *)
Definition shown (W : dynWorld) (v : value) : str :=
  match v with VBool b => if b then B "1" else B "0" | VInt z => decZ z | VFloat x => dwDoubleStr W x | VStr s => B """" ++ s ++ B """" | _ => [] end.
Lemma valToString_holds W t s v : holds W t s v -> valToString W (dynVal v) = Ret (shown W v).
Proof. intros [b | t' z I R M | s' | s' x E]; reflexivity. Qed.
(** The plain answer has one line for each name asked for. *)
Theorem C115_text : forall W q rs names, rqGet q = true -> rqFormat q <> Some (B "json") -> rqVerbose q <> Some (B "true") -> Forall (readable W) rs -> asks q rs names ->
  exists lines, getFlagsHandler W q rs = Ret (OkText (concat lines)) /\
    Forall2 (fun n line => (exists r v, In r rs /\ flName (rgFlag r) = n /\ holds W (flType (rgFlag r)) (flText (rgFlag r)) v /\ line = n ++ B "=" ++ shown W v ++ [10]) \/
      (~ In n (regNames rs) /\ line = n ++ B "=nullptr" ++ [10])) names lines.
Proof.
  intros W q rs names GQ FQ VQ RD A.
  assert (PAR : forall o s, o <> Some s -> isParam o s = false). { intros [x |] s N; [| reflexivity]. cbn. apply not_true_iff_false. intros C. apply strEqb_eq in C. congruence. }
  destruct (get_spec W false q rs names RD A) as (es & E & F2 & P). unfold getFlagsHandler. rewrite GQ, (PAR _ _ FQ), (PAR _ _ VQ), E. cbn [obind].
  clear - F2. assert (Q : exists lines, flagLines W false es = Ret (concat lines) /\
    Forall2 (fun n line => (exists r v, In r rs /\ flName (rgFlag r) = n /\ holds W (flType (rgFlag r)) (flText (rgFlag r)) v /\ line = n ++ B "=" ++ shown W v ++ [10]) \/
      (~ In n (regNames rs) /\ line = n ++ B "=nullptr" ++ [10])) names lines).
  { induction F2 as [| n e names es (DN & D) F2 (lines & E & FL)]; [exists []; split; [reflexivity | constructor] |].
    cbn [flagLines]. unfold flagLine, memberText, memberShown, member. rewrite DN. cbn [throwing obind asString].
    destruct D as [(r & I & N & (v & H & DV) & _) | (NI & DV & _)]; rewrite DV; cbn [throwing obind].
    - rewrite (valToString_holds _ _ _ _ H). cbn [obind]. rewrite E. cbn [obind]. exists ((n ++ B "=" ++ shown W v ++ [10]) :: lines). split; [reflexivity |].
      constructor; [| exact FL]. left. exists r, v. splits; try assumption. reflexivity.
    - cbn [valToString obind]. rewrite E. cbn [obind]. exists ((n ++ B "=nullptr" ++ [10]) :: lines). split; [reflexivity |].
      constructor; [| exact FL]. right. split; [exact NI | reflexivity]. }
  destruct Q as (lines & -> & FL). exists lines. split; [reflexivity | exact FL].
Qed.
(** The long text, when all names are those of flags *)
Definition longLine (W : dynWorld) (r : reg) (v d : value) : str :=
  B "--" ++ flName (rgFlag r) ++ B ": " ++ rgDescription r ++ [10] ++ B "  file: " ++ rgFile r ++ B ", type: " ++ typeText (flType (rgFlag r)) ++
  B ", default: " ++ shown W d ++ B ", current: " ++ shown W v ++ (if rgModified r then [] else B "(default)") ++ [10].
Theorem C115_long_text : forall W q rs names, rqGet q = true -> rqFormat q <> Some (B "json") -> rqVerbose q = Some (B "true") -> Forall (readable W) rs -> asks q rs names ->
  incl names (regNames rs) -> exists lines, getFlagsHandler W q rs = Ret (OkText (concat lines)) /\
    Forall2 (fun n line => exists r v d, In r rs /\ flName (rgFlag r) = n /\ holds W (flType (rgFlag r)) (flText (rgFlag r)) v /\ holds W (flType (rgFlag r)) (rgDefault r) d /\
      line = longLine W r v d) names lines.
Proof.
  intros W q rs names GQ FQ VQ RD A IN.
  assert (PAR : forall o s, o <> Some s -> isParam o s = false). { intros [x |] s N; [| reflexivity]. cbn. apply not_true_iff_false. intros C. apply strEqb_eq in C. congruence. }
  destruct (get_spec W true q rs names RD A) as (es & E & F2 & P). unfold getFlagsHandler. rewrite GQ, (PAR _ _ FQ), VQ. cbn [isParam].
  rewrite (proj2 (strEqb_eq (B "true") (B "true")) eq_refl), E. cbn [obind]. clear - F2 IN.
  assert (Q : exists lines, flagLines W true es = Ret (concat lines) /\
    Forall2 (fun n line => exists r v d, In r rs /\ flName (rgFlag r) = n /\ holds W (flType (rgFlag r)) (flText (rgFlag r)) v /\ holds W (flType (rgFlag r)) (rgDefault r) d /\
      line = longLine W r v d) names lines).
  { induction F2 as [| n e names es (DN & D) F2 IH]; [exists []; split; [reflexivity | constructor] |].
    destruct IH as (lines & E & FL); [intros x I; apply IN; right; exact I |].
    destruct D as [(r & I & N & (v & H & DV) & ((d & H2 & DD) & DT & DE & DF & DI & _)) | (NI & _)]; [| destruct (NI (IN n (or_introl eq_refl)))].
    cbn [flagLines]. unfold flagLine, memberText, memberShown, member. rewrite DN, DV, DD, DT, DE, DF, DI. cbn [throwing obind asString asBool].
    rewrite (valToString_holds _ _ _ _ H), (valToString_holds _ _ _ _ H2). cbn [obind]. rewrite E. cbn [obind].
    exists (longLine W r v d :: lines). split.
    - cbn [concat]. unfold longLine. rewrite N. destruct (rgModified r); reflexivity.
    - constructor; [| exact FL]. exists r, v, d. splits; try assumption. reflexivity. }
  destruct Q as (lines & -> & FL). exists lines. split; [reflexivity | exact FL].
Qed.

(** A flag that was set to a value its type can hold shows this value. *)
Definition sendable (f : flag) (v : value) : Prop :=
  match v with
  | VBool _ => flType f = FBool
  | VInt z => intType (flType f) /\ fst (flagRange (flType f)) <= z <= snd (flagRange (flType f)) /\ z <= int64_max
  | VStr s => flType f = FString /\ ~ In 0 s
  | _ => False
  end.
Theorem C115_shows_what_was_set : forall G W b rs r v, (forall n t, gwValid G n t = true) -> NoDup (regNames rs) -> In r rs -> nameOk (flName (rgFlag r)) -> sendable (rgFlag r) v ->
  dwParse W b = Some (DObj [(flName (rgFlag r), dynVal v)]) ->
  exists rs', setFlags G W true (Some b) rs = Ret (OkJson (DObj [(B "errCode", DInt 0)]), rs') /\
    getFlagsHandler W (mkRequest true None (Some (B "json")) (Some (flName (rgFlag r)))) rs' =
    Ret (OkJson (DObj [(B "flags", DArr [DObj [(B "name", DStr (flName (rgFlag r))); (B "value", dynVal v)]])])).
Proof.
  intros G W b rs r v GV ND I (N1 & N2 & N3) SD P. set (n := flName (rgFlag r)) in *.
  assert (T : exists text t, asString W (dynVal v) = Some text /\ takesText G (rgFlag r) text t /\ holds W (flType (rgFlag r)) t v).
  { unfold takesText. destruct v; cbn [sendable] in SD; try contradiction.
    - exists (if b0 then B "1" else B "0"), (boolStr b0). rewrite SD. splits; [reflexivity | destruct b0; reflexivity | apply GV | apply h_bool].
    - destruct SD as (IT & R & M). exists (decZ z), (decZ z). splits; [reflexivity | | apply GV | apply h_int; assumption].
      rewrite cstr_id by apply decZ_noNul. apply flagParse_int; assumption.
    - destruct SD as [FT NZ]. exists s, s. rewrite FT. splits; [reflexivity | rewrite cstr_id by exact NZ; reflexivity | apply GV | apply h_str]. }
  destruct T as (text & t & AS & TT & H).
  destruct (C114_sets_flags G W b [(n, dynVal v)] rs P) as (rs' & failed & E & F & _ & FA & _).
  - discriminate.
  - repeat constructor. intros [].
  - intros n' d [X | []]. injection X as <- <-. split; [exact N3 | unfold scalar; rewrite AS; discriminate].
  - exact ND.
  - assert (failed = []) as ->.
    { destruct failed as [| x failed]; [reflexivity |]. destruct (proj1 (FA x) (or_introl eq_refl)) as (d & tx & [X | []] & A & NA). injection X as X1 X2. subst x d.
      rewrite AS in A. injection A as <-. destruct NA. exists r, t. splits; [exact I | reflexivity | exact TT]. }
    exists rs'. split; [exact E |].
    assert (Q : exists r', regGet rs' n = Some r' /\ holds W (flType (rgFlag r')) (flText (rgFlag r')) v).
    { clear - F ND I N3 AS TT H n. subst n. revert r rs' AS TT H I N3 F. induction rs as [| x rs IH]; intros r rs' AS TT H I N3 F; [destruct I |].
      inversion F as [| ? x' ? rs2 Hx F']; subst. cbn [regNames map] in ND. inversion ND as [| ? ? NI ND']; subst. cbn [regGet]. rewrite cstr_id by exact N3.
      destruct I as [-> | I].
      - destruct Hx as [(d & tx & w & [X | []] & A & T' & S) | [NO _]].
        + injection X as <-. rewrite AS in A. injection A as <-. destruct TT as [T1 _], T' as [T2 _]. rewrite T1 in T2. injection T2 as <-. rewrite S. cbn [rgFlag flName].
          rewrite (proj2 (strEqb_eq _ _) eq_refl). eexists. split; [reflexivity |]. exact H.
        + destruct (NO (dynVal v) text t (or_introl eq_refl) AS TT).
      - assert (NE : flName (rgFlag x) <> flName (rgFlag r)). { intros C. apply NI. rewrite C. apply in_map_iff. exists r. split; [reflexivity | exact I]. }
        assert (x' = x) as ->. { destruct Hx as [(d & tx & w & [X | []] & _) | [_ E]]; [injection X as X _; congruence | exact E]. }
        destruct (strEqb (flName (rgFlag x)) (flName (rgFlag r))) eqn:EQ; [apply strEqb_eq in EQ; contradiction |]. apply (IH ND' r rs2 AS TT H I N3 F'). }
    destruct Q as (r' & Er & Hr). unfold getFlagsHandler. cbn [rqGet rqNames rqVerbose rqFormat isParam askedNames].
    replace (splitNonEmpty (B ",") n) with [n] by (symmetry; apply (split_names [n]); [discriminate | repeat constructor; assumption]).
    cbn [getFlags map addFlags addOneFlag]. rewrite Er. cbn [addOneFlag]. rewrite (flagDyn_holds _ _ _ _ Hr). cbn [obind]. change (strEqb (B "json") (B "json")) with true. cbn iota.
    unfold asJson. replace (printable _) with true; [reflexivity |]. destruct v; try destruct SD; reflexivity.
Qed.

(** It is not so that every request is answered: the long text of a name that is no flag ends the process, and so does JSON with a double that is not finite. *)
Theorem C115_unknown_refuted : forall W rs n, nameOk n -> ~ In n (regNames rs) ->
  getFlagsHandler W (mkRequest true (Some (B "true")) None (Some n)) rs = Fatal.
Proof.
  intros W rs n N NI. unfold getFlagsHandler. cbn [rqGet rqNames rqVerbose rqFormat isParam askedNames].
  replace (splitNonEmpty (B ",") n) with [n] by (symmetry; apply (split_names [n]); [discriminate | repeat constructor; apply N]).
  cbn [getFlags map addFlags]. pose proof (regGet_spec rs n (proj2 (proj2 N))) as S. destruct (regGet rs n) as [r |]; [| reflexivity].
  destruct S as [I <-]. destruct NI. apply in_map_iff. exists r. split; [reflexivity | exact I].
Qed.
Theorem C115_not_finite_refuted : forall W r x, flType (rgFlag r) = FDouble -> dwStrDouble W (flText (rgFlag r)) = Some x -> finiteF x = false ->
  getFlagsHandler W (mkRequest true None (Some (B "json")) None) [r] = Fatal.
Proof.
  intros W r x T D F. unfold getFlagsHandler. cbn [rqGet rqNames rqVerbose rqFormat isParam askedNames getFlags map addFlags addOneFlag]. rewrite T.
  cbn [flagDyn]. rewrite D. cbn [throwing obind]. change (strEqb (B "json") (B "json")) with true. cbn iota.
  unfold asJson. cbn [map printable]. rewrite F. reflexivity.
Qed.
(** It is not so that a number is shown as it is: one of 2^63 or more turns negative. *)
Theorem C115_negative_refuted : getFlagsHandler W0 (mkRequest true None None None) [mkReg (mkFlag (B "mem") FUInt64 (B "18446744073709551615")) (B "0") [] [] true] =
  Ret (OkText (B "mem=-1" ++ [10])).
Proof. vm_compute. reflexivity. Qed.
(** It is not so that the plain text determines the flags: a string may look like further flags. *)
Theorem C115_text_refuted : exists rs1 rs2, rs1 <> rs2 /\ Forall (readable W0) rs1 /\ Forall (readable W0) rs2 /\ List.length rs1 <> List.length rs2 /\
  getFlagsHandler W0 (mkRequest true None None None) rs1 = getFlagsHandler W0 (mkRequest true None None None) rs2.
Proof.
  exists [mkReg (mkFlag (B "a") FString (B "x""" ++ [10] ++ B "b=""y")) [] [] [] true].
  exists [mkReg (mkFlag (B "a") FString (B "x")) [] [] [] true; mkReg (mkFlag (B "b") FString (B "y")) [] [] [] true].
  assert (RD : forall n s, readable W0 (mkReg (mkFlag n FString s) [] [] [] true)). { intros n s. split; eexists; (split; [apply h_str | exact Logic.I]). }
  splits; [discriminate | repeat constructor; apply RD | repeat constructor; apply RD | discriminate |].
  vm_compute. reflexivity.
Qed.
Example C115_ex : getFlagsHandler W0 (mkRequest true None None (Some (B "v,,nosuch,log_dir"))) [flag1; flag2; flag3] =
    Ret (OkText (B "v=0" ++ [10] ++ B "nosuch=nullptr" ++ [10] ++ B "log_dir=""logs""" ++ [10])) /\
  getFlagsHandler W0 (mkRequest true (Some (B "true")) None (Some (B ","))) [flag2; flag3] =
    Ret (OkText (B "--local_config: from file" ++ [10] ++ B "  file: a.cpp, type: bool, default: 1, current: 1(default)" ++ [10] ++
                 B "--log_dir: directory" ++ [10] ++ B "  file: b.cpp, type: string, default: """", current: ""logs""" ++ [10])) /\
  Forall (readable W0) [flag1; flag2; flag3].
Proof.
  splits; [vm_compute; reflexivity | vm_compute; reflexivity |].
  repeat constructor.
  - exists (VInt 0). split; [apply (h_int W0 FInt32 0); [left; reflexivity | cbn; unfold int32_min, int32_max; lia | unfold int64_max; lia] | exact Logic.I].
  - exists (VInt 0). split; [apply (h_int W0 FInt32 0); [left; reflexivity | cbn; unfold int32_min, int32_max; lia | unfold int64_max; lia] | exact Logic.I].
  - exists (VBool true). split; [apply (h_bool W0 true) | exact Logic.I].
  - exists (VBool true). split; [apply (h_bool W0 true) | exact Logic.I].
  - eexists. split; [apply h_str | exact Logic.I].
  - eexists. split; [apply h_str | exact Logic.I].
Qed.

Print Assumptions C114_sets_flags.
Print Assumptions C114_refused.
Print Assumptions C114_other_method.
Print Assumptions C114_ends.
Print Assumptions C114_ends_refuted.
Print Assumptions C114_cut_refuted.
Print Assumptions C115_json.
Print Assumptions C115_text.
Print Assumptions C115_long_text.
Print Assumptions C115_shows_what_was_set.
Print Assumptions C115_unknown_refuted.
Print Assumptions C115_not_finite_refuted.
Print Assumptions C115_negative_refuted.
Print Assumptions C115_text_refuted.
(** Only GET is answered; reading changes nothing and another method reads nothing. *)
Theorem C115_other_method : forall W verbose format names rs, getFlagsHandler W (mkRequest false verbose format names) rs = Ret NotAllowed.
Proof. reflexivity. Qed.
Print Assumptions C115_other_method.
