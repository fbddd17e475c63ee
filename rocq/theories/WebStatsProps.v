(** * C116, C117: statistics over HTTP, and which handler serves what *)
From Coq Require Import String List Lia ZArith Bool.
From Verif Require Import Prelude ValueBase ValueModel ValueProofs FuncModel StatsModel StatsProps NetModel EvalModel AssocModel DynModel ConfModel ConfProps GflagsModel GflagsProps
  RouterModel RouterSpec RouterProofs RouterProps WebModel WebProps.
Import ListNotations.
Local Open Scope Z_scope.
Local Open Scope list_scope.

(** ** C116: statistics *)
Section Stats.
Context (toDouble : str -> option f64) (yields : list Z -> timeRange -> query -> Z) (debug : bool).
(** the values of a counter that a query is about: any counter has sums, counts, averages and rates, only histograms (their ids are negative) have percentiles *)
Definition measured (s : statsMgr) (i : counterInfo) (q : query) (l : list Z) : Prop :=
  readById s (ciId i) = Some l /\ match q with QMethod _ => True | QPct _ => ciId i < 0 end.
(** the metric stands for a counter, a range and a query, and this is their value *)
Definition metricValue (s : statsMgr) (metric : str) (z : Z) : Prop :=
  exists name r q i l, parseMetric toDouble metric = Some (name, r, q) /\ findName name (nameMap s) = Some i /\ measured s i q l /\ z = yields l r q.
(** the states of a manager *)
Definition reachable (s : statsMgr) : Prop := exists ops rs, Z.of_nat (List.length ops) < 2 ^ 31 /\ statsRun toDouble debug mgrInit ops = Ret (s, rs).

Lemma reachable_ids s n i : reachable s -> findName n (nameMap s) = Some i -> exists l, readById s (ciId i) = Some l.
Proof.
  intros (ops & rs & L & E) F. destruct (inv_run toDouble debug ops s rs L E) as [_ R _ _ _ _ _]. apply R in F. apply (read_range toDouble) in F.
  destruct (readById s (ciId i)) as [l |]; [exists l; reflexivity | contradiction].
Qed.
Lemma findName_in {A} n (x : A) l : findName n l = Some x -> In (n, x) l.
Proof.
  induction l as [| [m y] l IH]; [discriminate |]. cbn. destruct (strEqb n m) eqn:E; [intros X; injection X as ->; apply strEqb_eq in E; subst; left; reflexivity | right; auto].
Qed.
Lemma findName_none {A} n (l : list (str * A)) : findName n l = None -> ~ In n (map fst l).
Proof.
  induction l as [| [m y] l IH]; [intros _ [] |]. cbn. destruct (strEqb n m) eqn:E; [discriminate |]. intros F [C | I]; [| exact (IH F I)].
  cbn in C. subst m. rewrite (proj2 (strEqb_eq n n) eq_refl) in E. discriminate.
Qed.
Lemma findName_iff {A} (l : list (str * A)) : NoDup (map fst l) -> forall n x, findName n l = Some x <-> In (n, x) l.
Proof.
  intros ND n x. split; [apply findName_in |]. induction l as [| [m y] l IH]; [intros [] |]. cbn [map fst] in ND. inversion ND as [| ? ? NI ND']; subst. cbn [findName].
  intros [E | I]; [injection E as -> ->; rewrite (proj2 (strEqb_eq n n) eq_refl); reflexivity |].
  destruct (strEqb n m) eqn:E; [| exact (IH ND' I)]. apply strEqb_eq in E. subst m. destruct NI. apply in_map_iff. exists (n, x). split; [reflexivity | exact I].
Qed.
Lemma setName_names {A} n (x : A) l : map fst (setName n x l) = map fst l.
Proof. induction l as [| [m y] l IH]; [reflexivity |]. cbn. destruct (strEqb n m); cbn; [reflexivity | rewrite IH; reflexivity]. Qed.
Lemma reachable_names s : reachable s -> NoDup (map fst (nameMap s)).
Proof.
  intros (ops & rs & _ & E). revert s rs E. induction ops as [| o ops IH] using rev_ind; intros s rs E.
  - apply Ret_inj in E. injection E as <- _. constructor.
  - rewrite run_snoc in E. destruct (statsRun toDouble debug mgrInit ops) as [[s1 rs1] | | |]; try discriminate E. cbn [obind] in E.
    destruct (statsStep toDouble debug s1 o) as [[s2 r] | | |] eqn:E2; try discriminate E. apply Ret_inj in E. injection E as <- _.
    specialize (IH s1 rs1 eq_refl).
    assert (SN : forall n x, findName n (nameMap s1) = None -> NoDup (map fst (nameMap s1 ++ [(n, x)]))).
    { intros n x F. apply findName_none in F. rewrite map_app. cbn [map fst]. clear - IH F. induction (map fst (nameMap s1)) as [| a l IHl]; [repeat constructor; intros [] |].
      inversion IH; subst. cbn [app]. constructor; [| apply IHl; [assumption | intros C; apply F; right; exact C]].
      intros C. apply in_app_or in C. destruct C as [C | [C | []]]; [contradiction |]. apply F. left. congruence. }
    destruct o as [n st | n b mn mx st | id v]; cbn [statsStep] in E2.
    + unfold registerStats in E2. destruct (parseStats toDouble st) as [ms ps]. destruct (findName n (nameMap s1)) as [i |] eqn:F.
      * destruct (debug && negb (0 <? ciId i)); [discriminate E2 |]. cbn [obind] in E2. apply Ret_inj in E2. injection E2 as <- _. cbn [nameMap]. rewrite setName_names. exact IH.
      * cbn [obind] in E2. apply Ret_inj in E2. injection E2 as <- _. cbn [nameMap]. apply SN. exact F.
    + unfold registerHisto in E2. destruct (parseStats toDouble st) as [ms ps]. destruct (findName n (nameMap s1)) as [i |] eqn:F.
      * destruct (debug && negb (ciId i <? 0)); [discriminate E2 |]. cbn [obind] in E2. apply Ret_inj in E2. injection E2 as <- _. cbn [nameMap]. rewrite setName_names. exact IH.
      * cbn [obind] in E2. apply Ret_inj in E2. injection E2 as <- _. cbn [nameMap]. apply SN. exact F.
    + unfold addValue in E2. destruct (0 <? id).
      * destruct (nth_error (series s1) (Z.to_nat (id - 1))); [| destruct debug; discriminate E2]. cbn [obind] in E2. apply Ret_inj in E2. injection E2 as <- _. exact IH.
      * destruct (id <? 0); [| discriminate E2]. destruct (nth_error (histos s1) (Z.to_nat (- (id + 1)))) as [[p l] |]; [| destruct debug; discriminate E2].
        cbn [obind] in E2. apply Ret_inj in E2. injection E2 as <- _. exact IH.
Qed.

(** one read *)
Lemma readId_spec s n i r q : reachable s -> findName n (nameMap s) = Some i ->
  (exists l, measured s i q l /\ readId yields s (ciId i) r q = Ret (inl (yields l r q))) \/
  ((forall l, ~ measured s i q l) /\ (exists p, q = QPct p) /\ readId yields s (ciId i) r q = Ret (inr (B "Invalid stats"))).
Proof.
  intros R F. destruct (reachable_ids s n i R F) as [l E]. unfold readId, measured. rewrite E. destruct q as [m | p].
  - left. exists l. split; [split; [reflexivity | exact Logic.I] |]. destruct (Z.eqb_spec (ciId i) 0) as [Z0 | _]; [| reflexivity].
    rewrite Z0 in E. discriminate E.
  - destruct (Z.leb_spec 0 (ciId i)); [right | left; exists l; split; [split; [reflexivity | assumption] | reflexivity]].
    splits; [intros l' [_ C]; lia | exists p; reflexivity | reflexivity].
Qed.
Lemma readMetric_spec s metric : reachable s ->
  (exists z, metricValue s metric z /\ readMetric toDouble yields s metric = Ret (inl z)) \/
  ((forall z, ~ metricValue s metric z) /\ exists e, e <> [] /\ readMetric toDouble yields s metric = Ret (inr e)).
Proof.
  intros R.
  assert (NAMED : forall name r q, parseMetric toDouble metric = Some (name, r, q) ->
    (exists z, metricValue s metric z /\ readNamed yields s name r q = Ret (inl z)) \/
    ((forall z, ~ metricValue s metric z) /\ exists e, e <> [] /\ readNamed yields s name r q = Ret (inr e))).
  { intros name r q P. unfold readNamed. destruct (findName name (nameMap s)) as [i |] eqn:F.
    - destruct (readId_spec s name i r q R F) as [(l & M & E) | (NM & _ & E)].
      + left. exists (yields l r q). split; [| exact E]. exists name, r, q, i, l. splits; [exact P | exact F | exact M | reflexivity].
      + right. split; [| eexists; split; [| exact E]; discriminate]. intros z (n' & r' & q' & i' & l' & P' & F' & M' & _). rewrite P in P'. injection P' as <- <- <-.
        rewrite F in F'. injection F' as <-. exact (NM l' M').
    - right. split; [| eexists; split; [| reflexivity]; discriminate]. intros z (n' & r' & q' & i' & l' & P' & F' & _). rewrite P in P'. injection P' as <- <- <-. congruence. }
  assert (BAD : parseMetric toDouble metric = None -> forall z, ~ metricValue s metric z). { intros P z (n' & r' & q' & i' & l' & P' & _). congruence. }
  unfold readMetric, parseMetric in *. destruct (splitNonEmpty (B ".") metric) as [| name [| what [| rng [| x l]]]];
    try (right; split; [apply BAD; reflexivity | eexists; split; [| reflexivity]; discriminate]).
  destruct (rangeOf rng) as [r |]; [| right; split; [apply BAD; reflexivity | eexists; split; [| reflexivity]; discriminate]].
  destruct (methodOf (lower what)) as [m |]; [apply NAMED; reflexivity |].
  destruct (startsP (lower what)); [| right; split; [apply BAD; reflexivity | eexists; split; [| reflexivity]; discriminate]].
  destruct (strToPct toDouble (lower what)) as [d |]; [apply NAMED; reflexivity |].
  right. split; [apply BAD; reflexivity | eexists; split; [| reflexivity]; discriminate].
Qed.

(** the answer for these names and values *)
Definition statText (v : Z + str) : str := match v with inl z => decZ z | inr e => e end.
Definition statAnswer (q : request) (vals : list (str * (Z + str))) (a : response) : Prop :=
  (rqFormat q = Some (B "json") -> a = OkJson (DArr (map (fun p => DObj [(fst p, match snd p with inl z => DInt z | inr e => DStr e end)]) vals))) /\
  (rqFormat q <> Some (B "json") -> a = OkText (concat (map (fun p => fst p ++ B "=" ++ statText (snd p) ++ [10]) vals))).
Lemma handler_answer q s vals : rqGet q = true -> getStats toDouble yields s (askedNames (rqNames q)) = Ret vals -> exists a, getStatsHandler toDouble yields q s = Ret a /\ statAnswer q vals a.
Proof.
  intros GQ E. unfold getStatsHandler. rewrite GQ, E. cbn [obind]. unfold statAnswer. destruct (isParam (rqFormat q) (B "json")) eqn:J.
  - unfold asJson. replace (printable _) with true.
    + eexists. split; [reflexivity |]. split; [intros _; reflexivity |]. intros N. destruct (rqFormat q) as [x |]; [| discriminate J]. cbn [isParam] in J. apply strEqb_eq in J. congruence.
    + symmetry. clear. induction vals as [| [n [z | e]] vals IH]; [reflexivity | exact IH | exact IH].
  - eexists. split; [reflexivity |]. split; [| intros _].
    + intros C. rewrite C in J. cbn [isParam] in J. rewrite (proj2 (strEqb_eq (B "json") (B "json")) eq_refl) in J. discriminate.
    + rewrite flat_map_concat_map. reflexivity.
Qed.
Definition metricOk (n : str) : Prop := n <> [] /\ ~ In 44 n /\ ~ In 0 n.

(** Every metric asked for is answered, in the order asked, with its value, or with the text of an error if it has none. *)
Theorem C116_asked : forall s q names, reachable s -> rqGet q = true -> names <> [] -> Forall metricOk names -> rqNames q = Some (joinStr (B ",") names) ->
  exists vals a, getStatsHandler toDouble yields q s = Ret a /\ statAnswer q vals a /\
    Forall2 (fun n v => fst v = n /\ ((exists z, metricValue s n z /\ snd v = inl z) \/ ((forall z, ~ metricValue s n z) /\ exists e, e <> [] /\ snd v = inr e))) names vals.
Proof.
  intros s q names R GQ NE F NQ.
  assert (Q : forall l, exists vals, readEach toDouble yields s l = Ret vals /\
    Forall2 (fun n v => fst v = n /\ ((exists z, metricValue s n z /\ snd v = inl z) \/ ((forall z, ~ metricValue s n z) /\ exists e, e <> [] /\ snd v = inr e))) l vals).
  { induction l as [| n l (vals & E & F2)]; [exists []; split; [reflexivity | constructor] |]. cbn [readEach].
    destruct (readMetric_spec s n R) as [(z & M & ->) | (NM & e & NEe & ->)]; cbn [obind]; rewrite E; cbn [obind]; eexists; (split; [reflexivity |]); (constructor; [| exact F2]); (split; [reflexivity |]).
    - left. exists z. split; [exact M | reflexivity].
    - right. split; [exact NM |]. exists e. split; [exact NEe | reflexivity]. }
  destruct (Q names) as (vals & E & F2). destruct (handler_answer q s vals GQ) as (a & Ea & SA).
  { rewrite NQ. cbn [askedNames]. rewrite split_names by assumption. destruct names; [contradiction | exact E]. }
  exists vals, a. splits; assumption.
Qed.
Lemma all_spec s : reachable s -> exists vals, readAll yields s (nameMap s) = Ret vals /\
    forall metric v, In (metric, v) vals <-> exists name i r k l, findName name (nameMap s) = Some i /\ In (metric, (r, k)) (published name i) /\ measured s i k l /\ v = inl (yields l r k).
Proof.
  intros R. pose proof (reachable_names s R) as ND.
  assert (P : forall name i pub, findName name (nameMap s) = Some i -> exists vals, readPublished yields s (ciId i) pub = Ret vals /\
    forall metric v, In (metric, v) vals <-> exists r k l, In (metric, (r, k)) pub /\ measured s i k l /\ v = inl (yields l r k)).
  { intros name i pub F. induction pub as [| [metric [r k]] pub (vals & E & H)]; [exists []; split; [reflexivity | intros m v; split; [intros [] | intros (r & k & l & [] & _)]] |].
    cbn [readPublished]. destruct (readId_spec s name i r k R F) as [(l & M & ->) | (NM & (p & ->) & ->)]; cbn [obind].
    - rewrite E. cbn [obind]. eexists. split; [reflexivity |]. intros m v. cbn [In]. rewrite H. split.
      + intros [X | (r' & k' & l' & I & M' & Ev)]; [injection X as <- <-; exists r, k, l; splits; [left; reflexivity | exact M | reflexivity] | exists r', k', l'; splits; [right; exact I | exact M' | exact Ev]].
      + intros (r' & k' & l' & [X | I] & M' & Ev); [left | right; exists r', k', l'; splits; assumption]. injection X as <- <- <-. destruct M as [M _], M' as [M' _]. rewrite M in M'. injection M' as <-. congruence.
    - rewrite E. eexists. split; [reflexivity |]. intros m v. rewrite H. split; intros (r' & k' & l' & I & M' & Ev).
      + exists r', k', l'. splits; [right; exact I | exact M' | exact Ev].
      + destruct I as [X | I]; [injection X as <- <- <-; destruct (NM l' M') | exists r', k', l'; splits; assumption]. }
  assert (A : forall nm, incl nm (nameMap s) -> exists vals, readAll yields s nm = Ret vals /\ forall metric v, In (metric, v) vals <->
     exists name i r k l, In (name, i) nm /\ In (metric, (r, k)) (published name i) /\ measured s i k l /\ v = inl (yields l r k)).
  { induction nm as [| [name i] nm IH]; intros IN; [exists []; split; [reflexivity | intros m v; split; [intros [] | intros (n & i & r & k & l & [] & _)]] |].
    destruct IH as (vals & E & H); [intros x I; apply IN; right; exact I |].
    destruct (P name i (published name i)) as (v1 & E1 & H1); [apply findName_iff; [exact ND | apply IN; left; reflexivity] |].
    cbn [readAll]. rewrite E1. cbn [obind]. rewrite E. cbn [obind]. eexists. split; [reflexivity |]. intros m v. rewrite in_app_iff, H1, H. split.
    - intros [(r & k & l & I & M & Ev) | (n & j & r & k & l & I & I2 & M & Ev)]; [exists name, i, r, k, l; splits; [left; reflexivity | exact I | exact M | exact Ev] | exists n, j, r, k, l; splits; [right; exact I | exact I2 | exact M | exact Ev]].
    - intros (n & j & r & k & l & [X | I] & I2 & M & Ev); [left; injection X as <- <-; exists r, k, l; splits; assumption | right; exists n, j, r, k, l; splits; assumption]. }
  destruct (A (nameMap s) (fun x I => I)) as (vals & E & H).
  exists vals. split; [exact E |]. intros metric v. rewrite H. split; intros (n & i & r & k & l & I & rest); exists n, i, r, k, l; (split; [| exact rest]); [apply findName_iff; assumption | apply findName_in in I; exact I].
Qed.
(** Without names the answer has what is published for every counter and has a value. *)
Theorem C116_all : forall s q, reachable s -> rqGet q = true -> (forall x, rqNames q = Some x -> Forall (eq 44) x) ->
  exists vals a, getStatsHandler toDouble yields q s = Ret a /\ statAnswer q vals a /\
    forall metric v, In (metric, v) vals <-> exists name i r k l, findName name (nameMap s) = Some i /\ In (metric, (r, k)) (published name i) /\ measured s i k l /\ v = inl (yields l r k).
Proof.
  intros s q R GQ BL. destruct (all_spec s R) as (vals & E & H). destruct (handler_answer q s vals GQ) as (a & Ea & SA).
  { assert (askedNames (rqNames q) = []) as -> by (destruct (rqNames q) as [x |]; [apply split_blank, BL; reflexivity | reflexivity]). exact E. }
  exists vals, a. splits; [exact Ea | exact SA | exact H].
Qed.
(** What is shown when all is asked for is what is shown when it is asked for by name (counter names without dots, percentile names as parseStats leaves
    them and without dots). *)
Theorem C116_all_as_asked : forall s vals metric v, reachable s -> (forall name i, findName name (nameMap s) = Some i -> plain name /\ forall p, In p (ciPcts i) -> pctOk toDouble p) ->
  getStats toDouble yields s [] = Ret vals -> In (metric, v) vals -> getStats toDouble yields s [metric] = Ret [(metric, v)].
Proof.
  intros s vals metric v R OK E I. destruct (all_spec s R) as (vals' & E' & H). cbn [getStats] in E. rewrite E in E'. apply Ret_inj in E'. subst vals'.
  apply H in I. destruct I as (name & i & r & k & l & F & IP & M & ->). destruct (OK name i F) as [PN PP].
  pose proof (C69_published_readable toDouble name i metric r k PN PP IP) as PM.
  assert (MV : metricValue s metric (yields l r k)) by (exists name, r, k, i, l; splits; [exact PM | exact F | exact M | reflexivity]).
  cbn [getStats readEach]. destruct (readMetric_spec s metric R) as [(z & (n' & r' & k' & i' & l' & P' & F' & M' & ->) & ->) | (NM & _)]; [| destruct (NM _ MV)].
  rewrite PM in P'. injection P' as <- <- <-. rewrite F in F'. injection F' as <-. destruct M as [M _], M' as [M' _]. rewrite M in M'. injection M' as <-. reflexivity.
Qed.
End Stats.

Definition D0 (s : str) : option f64 := if strEqb s (B "99") then Some (f64ofZ 99) else None.
Definition Y0 (l : list Z) (r : timeRange) (q : query) : Z := match q with QMethod MSum => fold_right Z.add 0 l | QMethod MCount => Z.of_nat (List.length l) | _ => 7 end.
(** It is not so that everything shown can be asked for by its name: counters with a dot in their name cannot. *)
Theorem C116_dotted_refuted : exists s, reachable D0 true s /\ getStats D0 Y0 s [] = Ret (map (fun r => (B "rpc.get.sum." ++ B r, inl 5)) ["5"; "60"; "600"; "3600"]%string) /\
  getStats D0 Y0 s [B "rpc.get.sum.60"] = Ret [(B "rpc.get.sum.60", inr (B """rpc.get.sum.60"" is not a valid metric name"))].
Proof.
  exists (mkMgr [(B "rpc.get", mkInfo 1 [MSum] [])] [[2; 3]] []). splits; [| vm_compute; reflexivity | vm_compute; reflexivity].
  exists [RegS (B "rpc.get") (B "sum"); Add 1 2; Add 1 3], [Some 1; None; None]. split; [vm_compute; reflexivity | vm_compute; reflexivity].
Qed.
(** It is not so that an error names what was asked for: its text is cut after 255 bytes. *)
Theorem C116_cut_refuted : exists e, getStats D0 Y0 mgrInit [repeat 97 300] = Ret [(repeat 97 300, inr e)] /\ e = B """" ++ repeat 97 254.
Proof. eexists. split; vm_compute; reflexivity. Qed.
Example C116_ex : exists s, reachable D0 true s /\
  getStatsHandler D0 Y0 (mkRequest true None None (Some (B "qps.SUM.60,lat.p99.5,qps.p99.5,nosuch.sum.5,lat.max.5,lat.sum.7,lat"))) s =
    Ret (OkText (B "qps.SUM.60=5" ++ [10] ++ B "lat.p99.5=7" ++ [10] ++ B "qps.p99.5=Invalid stats" ++ [10] ++ B "nosuch.sum.5=Stats not found ""nosuch""" ++ [10] ++
      B "lat.max.5=Unsupported statistic method ""max""" ++ [10] ++ B "lat.sum.7=Unsupported time range ""7""" ++ [10] ++ B "lat=""lat"" is not a valid metric name" ++ [10])) /\
  getStatsHandler D0 Y0 (mkRequest true None None (Some (B ","))) s = Ret (OkText (concat (map (fun l => B l ++ [10])
    ["qps.sum.5=5"; "qps.sum.60=5"; "qps.sum.600=5"; "qps.sum.3600=5"; "lat.p99.5=7"; "lat.p99.60=7"; "lat.p99.600=7"; "lat.p99.3600=7"]%string))) /\
  getStatsHandler D0 Y0 (mkRequest true None (Some (B "json")) (Some (B "qps.count.5"))) s = Ret (OkJson (DArr [DObj [(B "qps.count.5", DInt 2)]])) /\
  (forall name i, findName name (nameMap s) = Some i -> plain name /\ forall p, In p (ciPcts i) -> pctOk D0 p).
Proof.
  exists (mkMgr [(B "qps", mkInfo 1 [MSum] []); (B "lat", mkInfo (-1) [] (snd (parseStats D0 (B "p99"))))] [[2; 3]] [(1, 0, 100, [])]).
  splits; [| vm_compute; reflexivity | vm_compute; reflexivity | vm_compute; reflexivity |].
  - exists [RegS (B "qps") (B "sum"); RegH (B "lat") 1 0 100 (B "p99"); Add 1 2; Add 1 3], [Some 1; Some (-1); None; None]. split; [vm_compute; reflexivity | vm_compute; reflexivity].
  - intros name i F. apply findName_in in F. destruct F as [E | [E | []]]; injection E as <- <-.
    + split; [split; [discriminate |] | intros p []]. cbn. intros H; repeat (destruct H as [H | H]; [discriminate |]); contradiction.
    + split; [split; [discriminate |] |]; [cbn; intros H; repeat (destruct H as [H | H]; [discriminate |]); contradiction |].
      intros p I. apply (C69_parsed_percentiles D0 (B "p99") p I). assert (E : p = hd p (snd (parseStats D0 (B "p99")))) by (destruct I as [<- | []]; reflexivity).
      assert (E1 : fst p = B "p99") by (destruct I as [<- | []]; reflexivity). rewrite E1. cbn. intros H; repeat (destruct H as [H | H]; [discriminate |]); contradiction.
Qed.

(** ** C117: which handler serves what *)
(** the handlers: 1 reads flags, 2 sets flags, 3 reads statistics, 4 and 5 tell the status *)
Definition served : list (Z * str * Z) := [(GET, B "/flags", 1); (PUT, B "/flags", 2); (GET, B "/stats", 3); (GET, B "/status", 4); (GET, B "/", 5)].
Definition webPath (name path : str) : str := match name with [] => path | _ => B "/" ++ name ++ path end.
Theorem C117_routes : forall name, ~ In 58 name -> exists ro, webRoutes name = Ret ro /\
  (forall m path h p, In (m, path, h) served -> samePath (webPath name path) p -> dispatch ro m p = Ret (Handler h [])) /\
  (forall m p, (forall path h, In (m, path, h) served -> ~ samePath (webPath name path) p) -> dispatch ro m p = Ret NotFound) /\
  (forall m p h params, dispatch ro m p = Ret (Handler h params) -> params = [] /\ exists path, In (m, path, h) served /\ samePath (webPath name path) p).
Proof.
  intros name NC.
  assert (SP : forall a b, samePath a b <-> trimPath a = trimPath b).
  { intros a b. unfold samePath. split; [intros (c & C1 & C2); apply bare_trim in C1, C2; congruence | intros E; exists (trimPath a); split; apply bare_trim; congruence]. }
  assert (ADD : forall rs m path h, In path (map B ["/flags"; "/stats"; "/status"; "/"]%string) -> addRoute (mkRouter name rs) m path h =
    Ret (mkRouter name (rs ++ [mkRoute m (trimPath (webPath name path)) None (Some h)]))).
  { intros rs m path h I. assert (W : exists x, routePath name path = 47 :: x /\ webPath name path = 47 :: x /\ ~ In 58 (47 :: x)).
    { assert (PC : ~ In 58 path /\ exists y, path = 47 :: y).
      { destruct I as [<- | [<- | [<- | [<- | []]]]]; (split; [cbn; intros H; repeat (destruct H as [H | H]; [discriminate |]); contradiction | eexists; reflexivity]). }
      destruct PC as [PC [y ->]]. unfold routePath, webPath. change (B "/") with [47]. destruct name as [| c nm]; cbn [app].
      - exists y. splits; try reflexivity. exact PC.
      - eexists. splits; try reflexivity. intros [C | C]; [discriminate |]. apply (in_app_or (c :: nm)) in C. destruct C; contradiction. }
    destruct W as (x & W1 & W2 & W3). unfold addRoute. cbn [roPrefix roRoutes]. rewrite W1, W2, newRoute_exact by exact W3. reflexivity. }
  unfold webRoutes. rewrite ADD by (cbn; tauto). cbn [obind]. rewrite ADD by (cbn; tauto). cbn [obind]. rewrite ADD by (cbn; tauto). cbn [obind]. rewrite ADD by (cbn; tauto). cbn [obind].
  rewrite ADD by (cbn; tauto). cbn [app].
  eexists. split; [reflexivity |].
  set (T1 := trimPath (webPath name (B "/flags"))). set (T3 := trimPath (webPath name (B "/stats"))). set (T4 := trimPath (webPath name (B "/status"))). set (T5 := trimPath (webPath name (B "/"))).
  assert (DIFF : NoDup [T1; T3; T4; T5]).
  { assert (TR : forall a c, c <> 47 -> trimPath (a ++ [c]) = a ++ [c]). { intros a c N. symmetry. apply bare_trim. apply bare_other. exact N. }
    assert (E : exists b, T1 = b ++ B "/flags" /\ T3 = b ++ B "/stats" /\ T4 = b ++ B "/status" /\ T5 = match b with [] => B "/" | _ => b end).
    { destruct name as [| c nm].
      - exists []. splits; reflexivity.
      - exists (B "/" ++ c :: nm). unfold T1, T3, T4, T5, webPath.
        assert (X : forall p z, z <> 47 -> trimPath (B "/" ++ (c :: nm) ++ p ++ [z]) = (B "/" ++ c :: nm) ++ p ++ [z]).
        { intros p z N. replace (B "/" ++ (c :: nm) ++ p ++ [z]) with (((B "/" ++ c :: nm) ++ p) ++ [z]) by (rewrite <- !app_assoc; reflexivity).
          rewrite TR by exact N. rewrite <- !app_assoc. reflexivity. }
        splits; [apply (X (B "/flag") 115); lia | apply (X (B "/stat") 115); lia | apply (X (B "/statu") 115); lia |].
        symmetry. apply bare_trim. rewrite app_assoc. change (B "/") with [47] at 2. apply bare_slash. discriminate. }
    destruct E as (b & -> & -> & -> & ->).
    assert (LEN : forall x, (1 <= List.length x)%nat -> b ++ x = match b with [] => B "/" | _ => b end -> x = B "/").
    { intros x L E. destruct b as [| c b]; [exact E |]. apply (f_equal (@List.length Z)) in E. rewrite app_length in E. lia. }
    repeat constructor; cbn [In]; intros H; repeat (destruct H as [H | H]; [symmetry in H; first [apply app_inv_head in H; discriminate H | apply LEN in H; [discriminate H | cbn; lia]] |]); contradiction. }
  inversion DIFF as [| ? ? N1 D1]; subst. inversion D1 as [| ? ? N3 D3]; subst. inversion D3 as [| ? ? N4 _]; subst. cbn [In] in N1, N3, N4. clear DIFF D1 D3.
  unfold dispatch. cbn [roRoutes dispatchGo]. unfold matches, generateHandler. cbn [rtMethod rtPattern rtPath rtHandler].
  splits.
  - intros m path h p I S. apply SP in S. rewrite <- S.
    destruct I as [E | [E | [E | [E | [E | []]]]]]; injection E as <- <- <-; fold T1; fold T3; fold T4; fold T5;
      repeat match goal with |- context [strEqb ?a ?a] => rewrite (proj2 (strEqb_eq a a) eq_refl) end;
      repeat match goal with |- context [strEqb ?a ?b] => destruct (strEqb a b) eqn:?; [match goal with h : strEqb a b = true |- _ => apply strEqb_eq in h; exfalso; tauto || (symmetry in h; tauto) end |] end;
      rewrite ?andb_false_r; reflexivity.
  - intros m p NO.
    assert (NX : forall k path h, In (k, path, h) served -> (k =? m) && strEqb (trimPath (webPath name path)) (trimPath p) = false).
    { intros k path h I. apply not_true_iff_false. intros C. apply andb_prop in C. destruct C as [C1 C2]. apply Z.eqb_eq in C1. apply strEqb_eq in C2. subst k. apply (NO path h I). apply SP. exact C2. }
    pose proof (NX GET (B "/flags") 1 ltac:(cbn; tauto)) as X1. pose proof (NX PUT (B "/flags") 2 ltac:(cbn; tauto)) as X2. pose proof (NX GET (B "/stats") 3 ltac:(cbn; tauto)) as X3.
    pose proof (NX GET (B "/status") 4 ltac:(cbn; tauto)) as X4. pose proof (NX GET (B "/") 5 ltac:(cbn; tauto)) as X5. fold T1 in X1, X2. fold T3 in X3. fold T4 in X4. fold T5 in X5.
    rewrite X1, X2, X3, X4, X5. reflexivity.
  - intros m p h params.
    assert (YES : forall k path i T, In (k, path, i) served -> T = trimPath (webPath name path) -> (k =? m) && strEqb T (trimPath p) = true -> Ret (Handler i []) = Ret (Handler h params) ->
      params = [] /\ exists path, In (m, path, h) served /\ samePath (webPath name path) p).
    { intros k path i T I -> C E. apply andb_prop in C. destruct C as [C1 C2]. apply Z.eqb_eq in C1. apply strEqb_eq in C2. subst k. apply Ret_inj in E. injection E as <- <-.
      split; [reflexivity |]. exists path. split; [exact I | apply SP; exact C2]. }
    destruct ((GET =? m) && strEqb T1 (trimPath p)) eqn:X1; [apply (YES GET (B "/flags") 1 T1 ltac:(cbn; tauto) eq_refl X1) |].
    destruct ((PUT =? m) && strEqb T1 (trimPath p)) eqn:X2; [apply (YES PUT (B "/flags") 2 T1 ltac:(cbn; tauto) eq_refl X2) |].
    destruct ((GET =? m) && strEqb T3 (trimPath p)) eqn:X3; [apply (YES GET (B "/stats") 3 T3 ltac:(cbn; tauto) eq_refl X3) |].
    destruct ((GET =? m) && strEqb T4 (trimPath p)) eqn:X4; [apply (YES GET (B "/status") 4 T4 ltac:(cbn; tauto) eq_refl X4) |].
    destruct ((GET =? m) && strEqb T5 (trimPath p)) eqn:X5; [apply (YES GET (B "/") 5 T5 ltac:(cbn; tauto) eq_refl X5) | discriminate].
Qed.
(** A handler is only given requests with its own method, so that none of them answers 405: other methods on the same paths are not found. *)
Theorem C117_own_method : forall name ro m p h params, ~ In 58 name -> webRoutes name = Ret ro -> dispatch ro m p = Ret (Handler h params) ->
  (h = 2 /\ m = PUT) \/ (In h [1; 3; 4; 5] /\ m = GET).
Proof.
  intros name ro m p h params NC E D. destruct (C117_routes name NC) as (ro' & E' & _ & _ & H). rewrite E in E'. apply Ret_inj in E'. subst ro'.
  destruct (H m p h params D) as (_ & path & I & _). cbn [served In] in I. unfold GET, PUT in *.
  destruct I as [I | [I | [I | [I | [I | []]]]]]; injection I as <- <- <-; cbn; tauto.
Qed.
Example C117_ex : exists ro, webRoutes (B "meta") = Ret ro /\ dispatch ro PUT (B "/meta/flags/") = Ret (Handler 2 []) /\ dispatch ro GET (B "/meta") = Ret (Handler 5 []) /\
  dispatch ro 1 (B "/meta/flags") = Ret NotFound /\ dispatch ro GET (B "/flags") = Ret NotFound /\ ~ In 58 (B "meta").
Proof.
  eexists. splits; [vm_compute; reflexivity | vm_compute; reflexivity | vm_compute; reflexivity | vm_compute; reflexivity | vm_compute; reflexivity |].
  cbn. intros H; repeat (destruct H as [H | H]; [discriminate |]); contradiction.
Qed.

Print Assumptions C116_asked.
Print Assumptions C116_all.
Print Assumptions C116_all_as_asked.
Print Assumptions C116_dotted_refuted.
Print Assumptions C116_cut_refuted.
Print Assumptions C117_routes.
Print Assumptions C117_own_method.
(** Another method reads nothing. *)
Theorem C116_other_method : forall D Y verbose format names s, getStatsHandler D Y (mkRequest false verbose format names) s = Ret NotAllowed.
Proof. reflexivity. Qed.
Print Assumptions C116_other_method.
