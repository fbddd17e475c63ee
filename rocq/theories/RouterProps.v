(** * C105-C107: routing of web requests *)
From Coq Require Import String List Lia ZArith Bool.
From Verif Require Import Prelude ValueBase ValueProofs RouterModel RouterSpec RouterProofs.
Import ListNotations.
Local Open Scope Z_scope.
Local Open Scope list_scope.

Lemma existsb_colon p : existsb (Z.eqb 58) p = true <-> In 58 p.
Proof. rewrite existsb_exists. split; [intros (x & I & E); apply Z.eqb_eq in E; subst; exact I | intros I; exists 58; split; [exact I | reflexivity]]. Qed.
Lemma distinct_spec l : distinct l = true <-> NoDup l.
Proof.
  induction l as [| x l IH]; cbn [distinct]; [split; [constructor | reflexivity] |].
  rewrite andb_true_iff, IH, negb_true_iff. split.
  - intros [E N]. constructor; [| exact N]. intros I. apply Bool.not_true_iff_false in E. apply E. apply existsb_exists.
    exists x. split; [exact I | apply strEqb_eq; reflexivity].
  - intros N. inversion N as [| ? ? H1 H2]; subst. split; [| exact H2]. apply Bool.not_true_iff_false. intros E. apply H1.
    apply existsb_exists in E. destruct E as (y & I & E). apply strEqb_eq in E. subst; exact I.
Qed.
Lemma template_colon ss : Forall segOk ss -> parNames ss <> [] -> In 58 (templateText ss).
Proof.
  induction ss as [| [t | n] ss IH]; intros W N; [contradiction | |]; inversion W as [| ? ? W1 W2]; subst;
    cbn [templateText flat_map segText].
  - apply in_or_app. right. apply IH; [exact W2 | exact N].
  - right. left. reflexivity.
Qed.
Lemma template_noregex ss : Forall segOk ss -> existsb regexChar (templateText ss) = false.
Proof.
  intros W. apply Bool.not_true_iff_false. intros E. apply existsb_exists in E. destruct E as (c & I & R). revert I.
  assert (RC : In c (B "^$\*+?()[]{}|")) by (unfold regexChar in R; apply existsb_exists in R; destruct R as (x & I & E); apply Z.eqb_eq in E; subst; exact I).
  clear R. induction ss as [| s ss IH]; [intros [] |]. cbn [templateText flat_map]. fold (templateText ss). intros I.
  inversion W as [| ? ? W1 W2]; subst. apply in_app_or in I. destruct I as [I | I]; [| exact (IH W2 I)].
  apply in_app_or in I. destruct I as [I | I].
  - cbn in I, RC. destruct I as [<- | []]. repeat (destruct RC as [RC | RC]; [discriminate |]). exact RC.
  - destruct s as [t | n]; cbn [segText] in I.
    + revert I. eapply plainText_no; [exact W1 |]. cbn in RC |- *. tauto.
    + destruct W1 as (d & w & -> & Ld & Ww). unfold letter in Ld.
      assert (RR : 36 <= c <= 43 \/ c = 63 \/ 91 <= c <= 94 \/ 123 <= c) by (cbn in RC; repeat (destruct RC as [<- | RC]; [lia |]); destruct RC).
      cbn in I. destruct I as [<- | [<- | I]]; [lia | lia |]. rewrite Forall_forall in Ww. specialize (Ww c I). unfold wordChar, letter in Ww. lia.
Qed.
Lemma newRoute_template m ss : templateOk ss -> newRoute m (templateText ss) = Ret (mkRoute m (templateText ss) (Some (tpieces ss)) None).
Proof.
  intros (W & N & P). unfold newRoute.
  destruct (templateText_head ss) as [E | [r E]]; [destruct ss as [| [t | n] ss]; [contradiction | discriminate | discriminate] |].
  rewrite E at 1. rewrite (proj2 (existsb_colon _) (template_colon ss W P)), template_noregex by exact W.
  rewrite pieces_template by exact W. rewrite groups_tpieces, (proj2 (distinct_spec _) N). reflexivity.
Qed.
Lemma newRoute_exact m r : ~ In 58 (47 :: r) -> newRoute m (47 :: r) = Ret (mkRoute m (trimPath (47 :: r)) None None).
Proof.
  intros N. unfold newRoute. destruct (existsb (Z.eqb 58) (47 :: r)) eqn:E; [apply existsb_colon in E; contradiction |]. reflexivity.
Qed.
Lemma newRoute_head m c x : c <> 47 -> newRoute m (c :: x) = Fatal.
Proof.
  intros C. unfold newRoute. destruct c as [| q | q]; try reflexivity. do 6 (destruct q as [q | q |]; try reflexivity).
  exfalso. apply C. reflexivity.
Qed.
Lemma newRoute_ok m t : targetOk t -> exists r, newRoute m (targetText t) = Ret r /\ rtMethod r = m /\ rtHandler r = None.
Proof.
  destruct t as [p | ss]; cbn [targetOk targetText].
  - intros [[r ->] N]. eexists. split; [apply newRoute_exact; exact N | split; reflexivity].
  - intros W. eexists. split; [apply newRoute_template; exact W | split; reflexivity].
Qed.
Lemma matches_target m t r h : targetOk t -> newRoute m (targetText t) = Ret r -> forall m' p,
  matches (mkRoute (rtMethod r) (rtPath r) (rtPattern r) h) m' p = true <-> m' = m /\ servesPath t p.
Proof.
  destruct t as [q | ss]; cbn [targetOk targetText]; intros W E m' p.
  - destruct W as [[x ->] N]. rewrite newRoute_exact in E by exact N. apply Ret_inj in E. subst r.
    unfold matches. cbn [rtMethod rtPattern rtPath servesPath]. rewrite andb_true_iff, Z.eqb_eq, strEqb_eq. unfold samePath. split.
    + intros [-> E]. split; [reflexivity |]. exists (trimPath p). split; apply bare_trim; congruence.
    + intros [-> (c & B1 & B2)]. apply bare_trim in B1, B2. split; congruence.
  - rewrite newRoute_template in E by exact W. apply Ret_inj in E. subst r.
    unfold matches. cbn [rtMethod rtPattern rtPath servesPath]. rewrite andb_true_iff, Z.eqb_eq. destruct W as [W _]. split.
    + intros [-> E]. split; [reflexivity |]. destruct (regexSearch (tpieces ss) (trimPath p)) as [cs |] eqn:S; [| discriminate].
      destruct (regexSearch_sound _ _ _ S) as (pre & u & post & EQ & D). apply derives_instance in D; [| exact W].
      exists (trimPath p), pre, cs, u, post. splits; [apply bare_trim; reflexivity | exact EQ | exact D].
    + intros [-> (b & pre & vs & mid & post & Bb & EQ & D)]. split; [reflexivity |]. apply bare_trim in Bb. rewrite Bb in EQ.
      apply derives_instance in D; [| exact W]. destruct (regexSearch_complete _ pre _ post _ D) as [cs' S].
      rewrite <- EQ in S. rewrite S. reflexivity.
Qed.

(** ** C105: which route serves a request *)
(** registering a list of routes on a router without prefix *)
Fixpoint register (ro : router) (l : list (Z * str * Z)) : outcome router :=
  match l with [] => Ret ro | (m, path, h) :: l' => let* ro' := addRoute ro m path h in register ro' l' end.
Definition emptyRouter : router := mkRouter [] [].
Definition texts (l : list (Z * target * Z)) : list (Z * str * Z) := map (fun x => let '(m, t, h) := x in (m, targetText t, h)) l.
Definition builtRoute (x : Z * target * Z) (r : route) : Prop :=
  let '(m, t, h) := x in exists r0, newRoute m (targetText t) = Ret r0 /\ r = mkRoute (rtMethod r0) (rtPath r0) (rtPattern r0) (Some h).

Lemma targetText_nonempty t : targetOk t -> targetText t <> [].
Proof.
  destruct t as [p | ss]; cbn [targetOk targetText]; [intros [[r ->] _]; discriminate |]. intros (_ & _ & P).
  destruct ss as [| [t | n] ss]; [contradiction | discriminate | discriminate].
Qed.
Lemma register_built l : forall ro, roPrefix ro = [] -> Forall (fun x => let '(_, t, _) := x in targetOk t) l ->
  exists rs, register ro (texts l) = Ret (mkRouter [] (roRoutes ro ++ rs)) /\ Forall2 builtRoute l rs.
Proof.
  induction l as [| [[m t] h] l IH]; intros ro P W.
  - exists []. rewrite app_nil_r. destruct ro as [pr rs]; cbn in *; subst. split; [reflexivity | constructor].
  - inversion W as [| ? ? W1 W2]; subst. destruct (newRoute_ok m t W1) as (r & N & M & H).
    cbn [texts map register]. fold (texts l). unfold addRoute. rewrite P. unfold routePath.
    pose proof (targetText_nonempty t W1) as NE.
    replace (match targetText t with [] => [47] | _ :: _ => targetText t end) with (targetText t) by (destruct (targetText t); [contradiction | reflexivity]).
    rewrite N. cbn [obind]. unfold setHandler. rewrite H. cbn [obind].
    destruct (IH (mkRouter [] (roRoutes ro ++ [mkRoute (rtMethod r) (rtPath r) (rtPattern r) (Some h)])) eq_refl W2) as (rs & E & F).
    rewrite E. cbn [roRoutes]. rewrite <- app_assoc. eexists. split; [reflexivity |]. constructor; [| exact F].
    exists r. split; [exact N | reflexivity].
Qed.

Lemma templ_derives_minlen ps cs u : derives ps cs u -> (List.length ps <= List.length u)%nat.
Proof.
  induction 1 as [| | n v ps cs u V D IH]; cbn [List.length] in *; rewrite ?app_length; try lia.
  destruct V as [V _]. destruct v; [contradiction | cbn [List.length]; lia].
Qed.
Lemma tpieces_len ss : Forall segOk ss -> parNames ss <> [] -> (2 <= List.length (tpieces ss))%nat.
Proof.
  intros W P. destruct ss as [| [t | n] ss]; [contradiction | |]; cbn [tpieces List.length]; [| lia].
  rewrite app_length, map_length. inversion W as [| ? ? W1 W2]; subst. destruct W1 as [W1 _]. destruct t; [contradiction | cbn [List.length]; lia].
Qed.
(** a pattern found in the path without its last slash is found in the path as it came *)
Lemma search_original ss p cs : templateOk ss -> regexSearch (tpieces ss) (trimPath p) = Some cs ->
  exists cs' pre u post, regexSearch (tpieces ss) p = Some cs' /\ p = pre ++ u ++ post /\ instance ss cs' u.
Proof.
  intros (W & _ & P) S. destruct (regexSearch_sound _ _ _ S) as (pre & u & post & EQ & D).
  assert (X : exists cs', regexSearch (tpieces ss) p = Some cs').
  { pose proof (proj2 (bare_trim p (trimPath p)) eq_refl) as Bp. revert Bp S EQ. generalize (trimPath p). intros b Bp S EQ.
    destruct Bp as [| | a N | a c N].
    - exfalso. pose proof (templ_derives_minlen _ _ _ D). pose proof (tpieces_len ss W P).
      assert (L : (List.length (pre ++ u ++ post) = 1)%nat) by (rewrite <- EQ; reflexivity). rewrite !app_length in L. lia.
    - exists cs. exact S.
    - destruct (regexSearch_complete _ pre u (post ++ [47]) _ D) as [cs' S'].
      exists cs'. rewrite EQ. rewrite <- !app_assoc. exact S'.
    - exists cs. exact S. }
  destruct X as [cs' S']. destruct (regexSearch_sound _ _ _ S') as (pre' & u' & post' & EQ' & D').
  exists cs', pre', u', post'. splits; [exact S' | exact EQ' |]. apply derives_instance; assumption.
Qed.
(** what a route hands to its generator *)
Definition paramsFor (t : target) (p : str) (ps : list (str * str)) : Prop :=
  match t with
  | Exact _ => ps = []
  | Template ss => exists pre vs mid post, p = pre ++ mid ++ post /\ instance ss vs mid /\ ps = combine (parNames ss) vs /\
                   List.length vs = List.length (parNames ss)
  end.
Lemma generate_target m t r h p : targetOk t -> newRoute m (targetText t) = Ret r -> servesPath t p ->
  exists ps, generateHandler (mkRoute (rtMethod r) (rtPath r) (rtPattern r) (Some h)) p = Ret (Handler h ps) /\ paramsFor t p ps.
Proof.
  intros W N S. pose proof (proj2 (matches_target m t r (Some h) W N m p) (conj eq_refl S)) as M. destruct t as [q | ss]; cbn [targetOk targetText] in *.
  - destruct W as [[x ->] NC]. rewrite newRoute_exact in N by exact NC. apply Ret_inj in N. subst r. exists []. split; reflexivity.
  - rewrite newRoute_template in N by exact W. apply Ret_inj in N. subst r. unfold matches in M. cbn [rtMethod rtPattern rtPath] in M.
    apply andb_true_iff in M. destruct M as [_ M]. destruct (regexSearch (tpieces ss) (trimPath p)) as [cs |] eqn:R; [| discriminate].
    destruct (search_original ss p cs W R) as (cs' & pre & u & post & E & EQ & D).
    assert (LC : List.length cs' = List.length (parNames ss)).
    { rewrite <- groups_tpieces. eapply derives_length. apply derives_instance; [exact (proj1 W) | exact D]. }
    unfold generateHandler. cbn [rtPattern rtHandler]. rewrite E, groups_tpieces, LC, Nat.eqb_refl. eexists. split; [reflexivity |].
    exists pre, cs', u, post. splits; [exact EQ | exact D | reflexivity | exact LC].
Qed.

(** Registering well-formed routes succeeds, and a request gets the handler of the first route registered for its method that
    serves its path, with the values the path has for that route's parameters; without such a route it gets the not-found handler.
    In no case does the router fail. *)
Theorem C105_first_route_wins : forall l, Forall (fun x => let '(_, t, _) := x in targetOk t) l ->
  exists ro, register emptyRouter (texts l) = Ret ro /\ forall m p,
    (exists before t h after ps, l = before ++ (m, t, h) :: after /\ servesPath t p /\
        (forall t' h', In (m, t', h') before -> ~ servesPath t' p) /\ dispatch ro m p = Ret (Handler h ps) /\ paramsFor t p ps) \/
    ((forall t h, In (m, t, h) l -> ~ servesPath t p) /\ dispatch ro m p = Ret NotFound).
Proof.
  intros l W. destruct (register_built l emptyRouter eq_refl W) as (rs & E & F). eexists. split; [exact E |].
  intros m p. unfold dispatch. cbn [roRoutes emptyRouter app]. clear E. induction F as [| [[m' t] h] r l rs Hb F IH].
  - right. split; [intros t h [] | reflexivity].
  - inversion W as [| ? ? W1 W2]; subst. destruct Hb as (r0 & N & ->). cbn [dispatchGo].
    destruct (matches _ m p) eqn:M.
    + apply (matches_target m' t r0 (Some h) W1 N) in M. destruct M as [-> S]. left.
      destruct (generate_target m' t r0 h p W1 N S) as (ps & G & PF).
      exists [], t, h, l, ps. splits; [reflexivity | exact S | intros t' h' [] | exact G | exact PF].
    + assert (NS : m' = m -> ~ servesPath t p).
      { intros -> S. rewrite (proj2 (matches_target m t r0 (Some h) W1 N m p) (conj eq_refl S)) in M. discriminate. }
      destruct (IH W2) as [(be & t1 & h1 & af & ps & -> & S & NB & D & PF) | [NB D]].
      * left. exists ((m', t, h) :: be), t1, h1, af, ps. splits; [reflexivity | exact S | | exact D | exact PF].
        intros t' h' [X | X]; [injection X as X1 X2 X3; subst; apply NS; reflexivity | exact (NB t' h' X)].
      * right. split; [| exact D]. intros t' h' [X | X]; [injection X as X1 X2 X3; subst; apply NS; reflexivity | exact (NB t' h' X)].
Qed.

(** A route without parameters is met by exactly the requests with its method whose path names the same resource. *)
Theorem C105_exact_route : forall m path r, newRoute m path = Ret r -> ~ In 58 path -> forall m' p,
  matches r m' p = true <-> m' = m /\ samePath path p.
Proof.
  intros m path r N NC m' p. assert (P : exists x, path = 47 :: x).
  { destruct path as [| c x]; [discriminate |]. exists x.
    destruct (Z.eq_dec c 47) as [-> | C]; [reflexivity |]. rewrite newRoute_head in N by exact C. discriminate. }
  pose proof (matches_target m (Exact path) r None (conj P NC) N m' p) as H. cbn [servesPath] in H.
  destruct r as [rm rp rpat rh]. cbn [rtMethod rtPath rtPattern] in H.
  assert (rh = None) as ->; [| exact H]. destruct P as [x ->]. rewrite newRoute_exact in N by exact NC. apply Ret_inj in N. congruence.
Qed.
(** A path is refused with a failure exactly when it does not start with a slash (routes without parameters). *)
Theorem C105_refused : forall m path, ~ In 58 path -> (newRoute m path = Fatal <-> ~ exists r, path = 47 :: r).
Proof.
  intros m path NC. split.
  - intros F [r ->]. rewrite newRoute_exact in F by exact NC. discriminate.
  - intros H. destruct path as [| c x]; [reflexivity |].
    destruct (Z.eq_dec c 47) as [-> | C]; [destruct H; eexists; reflexivity |]. apply newRoute_head. exact C.
Qed.
(** With a prefix every path stands behind the prefix as its first segment. *)
Theorem C105_prefix : forall pre rs m path h, pre <> [] ->
  addRoute (mkRouter pre rs) m path h =
  (let* ro := addRoute (mkRouter [] rs) m (B "/" ++ pre ++ match path with [] => B "/" | _ => path end) h in Ret (mkRouter pre (roRoutes ro))).
Proof.
  intros pre rs m path h NP. unfold addRoute. cbn [roPrefix roRoutes]. unfold routePath.
  destruct pre as [| c pre]; [contradiction |]. change (B "/") with [47]. cbn [app].
  destruct (newRoute m (47 :: c :: pre ++ match path with [] => [47] | _ :: _ => path end)) as [r | | |]; cbn [obind]; try reflexivity.
  destruct (setHandler r h); reflexivity.
Qed.

Definition G := 1. Definition P := 2.
Example C105_ex : exists ro, register emptyRouter [(G, B "/status", 10); (P, B "/status/", 11); (G, B "/flags/:name", 12); (G, B "/flags/all", 13)] = Ret ro /\
  dispatch ro G (B "/status/") = Ret (Handler 10 []) /\ dispatch ro P (B "/status") = Ret (Handler 11 []) /\
  dispatch ro G (B "/status//") = Ret NotFound /\ dispatch ro G (B "") = Ret NotFound /\
  dispatch ro G (B "/flags/all") = Ret (Handler 12 [(B "name", B "all")]).
Proof. eexists. split; [vm_compute; reflexivity |]. splits; (vm_compute; reflexivity). Qed.

(** ** C106: which paths a template serves *)
(** A template serves a path iff an instance of it stands somewhere in the path. *)
Theorem C106_serves_when_inside : forall m ss r, templateOk ss -> newRoute m (templateText ss) = Ret r -> forall m' p,
  matches r m' p = true <-> m' = m /\ exists b pre vs mid post, bare p b /\ b = pre ++ mid ++ post /\ instance ss vs mid.
Proof.
  intros m ss r W N m' p. pose proof (matches_target m (Template ss) r None W N m' p) as H. cbn [servesPath] in H.
  rewrite <- H. cbn [targetText] in N. rewrite newRoute_template in N by exact W. apply Ret_inj in N. subst r. reflexivity.
Qed.
(** Every instance is served, with a slash behind it or without. *)
Theorem C106_instances_served : forall m ss vs p, templateOk ss -> instance ss vs p -> exists r, newRoute m (templateText ss) = Ret r /\
  matches r m p = true /\ matches r m (p ++ B "/") = true.
Proof.
  intros m ss vs p W D. pose proof (newRoute_template m ss W) as N. eexists. split; [exact N |].
  assert (NE : p <> []).
  { destruct W as (_ & _ & NP). destruct D; [destruct NP; reflexivity | discriminate | discriminate]. }
  assert (L : exists a c, p = a ++ [c] /\ c <> 47).
  { destruct W as (W & _ & _). clear N. induction D as [| t ss vs p D IH | n v ss vs p V D IH]; [contradiction | |]; inversion W as [| ? ? W1 W2]; subst.
    - destruct p as [| x p].
      + destruct W1 as [T1 T2]. destruct t as [| y t] using rev_ind; [contradiction |]. exists (B "/" ++ t), y. split; [rewrite app_nil_r, app_assoc; reflexivity |].
        intros ->. assert (X : ~ In 47 (t ++ [47])) by (eapply plainText_no; [split; [exact T1 | exact T2] | cbn; tauto]). apply X, in_or_app. right. left. reflexivity.
      + destruct (IH W2 ltac:(discriminate)) as (a & c & E & C). exists (B "/" ++ t ++ a), c. split; [rewrite E, <- !app_assoc; reflexivity | exact C].
    - destruct p as [| x p].
      + destruct V as [T1 T2]. destruct v as [| y v] using rev_ind; [contradiction |]. exists (B "/" ++ v), y. split; [rewrite app_nil_r, app_assoc; reflexivity |].
        intros ->. apply T2, in_or_app. right. left. reflexivity.
      + destruct (IH W2 ltac:(discriminate)) as (a & c & E & C). exists (B "/" ++ v ++ a), c. split; [rewrite E, <- !app_assoc; reflexivity | exact C]. }
  split; apply (C106_serves_when_inside m ss _ W N); (split; [reflexivity |]); exists p, [], vs, p, []; rewrite app_nil_r.
  - splits; [| reflexivity | exact D]. destruct L as (a & c & -> & C). apply bare_other. exact C.
  - splits; [| reflexivity | exact D]. apply bare_slash. exact NE.
Qed.
Lemma ex_user : templateOk [Fixed (B "user"); Par (B "id")].
Proof.
  unfold templateOk. splits.
  - constructor; [| constructor; [| constructor]].
    + split; [discriminate |]. repeat constructor; intros F; cbn in F; repeat (destruct F as [F | F]; [discriminate |]); exact F.
    + exists 105, [100]. splits; [reflexivity | right; lia | constructor; [left; right; lia | constructor]].
  - constructor; [intros [] | constructor].
  - discriminate.
Qed.
(** It is not so that only instances are served: the search is not tied to the ends of the path. *)
Theorem C106_only_instances_refuted : ~ (forall m ss r, templateOk ss -> newRoute m (templateText ss) = Ret r -> forall p,
  matches r m p = true -> exists vs q, samePath p q /\ instance ss vs q).
Proof.
  intros H. specialize (H G _ _ ex_user eq_refl (B "/admin/user/7/delete") eq_refl).
  destruct H as (vs & q & (c & B1 & B2) & D). apply bare_trim in B1. subst c. change (trimPath (B "/admin/user/7/delete")) with (B "/admin/user/7/delete") in B2.
  assert (Q : q = B "/admin/user/7/delete" \/ q = B "/admin/user/7/delete" ++ [47]).
  { revert B2. generalize (eq_refl (B "/admin/user/7/delete")). generalize (B "/admin/user/7/delete") at 1 3 4 5. intros b Eb Bq.
    destruct Bq as [| | a N | a c N]; [discriminate | discriminate | right; reflexivity | left; reflexivity]. }
  inversion D as [| t ss0 vs0 p0 D0 |]; subst. destruct Q as [Q | Q]; discriminate Q.
Qed.
(** A template that ends in a slash serves none of its own instances, with the slash or without. *)
Theorem C106_slash_template_refuted : forall m ss vs p, templateOk ss -> instance ss vs p ->
  exists r, newRoute m (templateText ss ++ B "/") = Ret r /\ matches r m p = false /\ matches r m (p ++ B "/") = false.
Proof.
  intros m ss vs p W D. change (B "/") with [47]. destruct (C106_instances_served m ss vs p W D) as (r0 & N0 & M1 & M2).
  destruct W as (W & ND & NP).
  assert (N : newRoute m (templateText ss ++ [47]) = Ret (mkRoute m (templateText ss ++ [47]) (Some (tpieces ss ++ [Lit 47])) None)).
  { unfold newRoute. destruct (templateText_head ss) as [E | [r E]]; [destruct ss as [| [t | n] ss]; [contradiction | discriminate | discriminate] |].
    rewrite E at 1. cbn [app]. rewrite !existsb_app, (proj2 (existsb_colon _) (template_colon ss W NP)), template_noregex by exact W.
    unfold pieces. rewrite piecesGo_template; [| exact W | right; eexists; reflexivity]. cbn [orb existsb piecesGo Z.eqb Pos.eqb andb].
    change (regexChar 47 || false) with false. cbn iota.
    replace (groupsOf (tpieces ss ++ [Lit 47])) with (parNames ss).
    - rewrite (proj2 (distinct_spec _) ND). reflexivity.
    - rewrite <- groups_tpieces. induction (tpieces ss) as [| [c | n] l IH]; cbn [app groupsOf]; [reflexivity | exact IH | congruence]. }
  eexists. split; [exact N |].
  assert (K : forall q, slashes (trimPath q) = List.length ss -> matches (mkRoute m (templateText ss ++ [47]) (Some (tpieces ss ++ [Lit 47])) None) m q = false).
  { intros q SQ. unfold matches. cbn [rtMethod rtPattern]. rewrite Z.eqb_refl. cbn [andb].
    destruct (regexSearch (tpieces ss ++ [Lit 47]) (trimPath q)) as [cs |] eqn:S; [| reflexivity]. exfalso.
    destruct (regexSearch_sound _ _ _ S) as (pre & u & post & EQ & DD). destruct (derives_app _ _ _ _ DD) as (c1 & u1 & c2 & u2 & -> & -> & D1 & D2).
    apply derives_instance in D1; [| exact W]. pose proof (instance_slashes _ _ _ W D1). apply derives_slash in D2. destruct D2 as (u' & -> & D2).
    rewrite EQ, !slashes_app in SQ. cbn [slashes Z.eqb Pos.eqb] in SQ. lia. }
  assert (NE : p <> []) by (destruct D; [destruct NP; reflexivity | discriminate | discriminate]).
  assert (B2 : trimPath (p ++ [47]) = p) by (symmetry; apply bare_trim, bare_slash, NE).
  split; apply K.
  - assert (X : slashes p = slashes (trimPath p)).
    { apply (C106_serves_when_inside m ss r0 (conj W (conj ND NP)) N0) in M1. destruct M1 as (_ & b & pre & vs' & mid & post & Bp & EQ & DI).
      apply bare_trim in Bp. rewrite Bp in EQ. pose proof (instance_slashes _ _ _ W DI) as S1. pose proof (instance_slashes _ _ _ W D) as S2.
      assert (S3 : (List.length ss <= slashes (trimPath p))%nat) by (rewrite EQ, !slashes_app; lia).
      assert (S4 : (slashes (trimPath p) <= slashes p)%nat).
      { clear -NE. pose proof (proj2 (bare_trim p (trimPath p)) eq_refl) as H. revert H. generalize (trimPath p). intros b H.
        destruct H as [| | a N | a c N]; [contradiction | lia | rewrite slashes_app; lia | lia]. }
      lia. }
    rewrite <- X. apply instance_slashes with (vs := vs); assumption.
  - rewrite B2. apply instance_slashes with (vs := vs); assumption.
Qed.
(** Text of a template is taken for a regular expression: a dot stands for any character. *)
Theorem C106_dot_refuted : exists r, newRoute G (B "/v1.0/:id") = Ret r /\ matches r G (B "/v1x0/7") = true.
Proof. eexists. split; (vm_compute; reflexivity). Qed.
Example C106_ex : exists r, newRoute G (B "/space/:name/part/:id") = Ret r /\ matches r G (B "/space/nba/part/7/") = true /\
  matches r G (B "/space//part/7") = false /\ matches r P (B "/space/nba/part/7") = false /\ matches r G (B "/space/a/b/part/7") = false.
Proof. eexists. split; [vm_compute; reflexivity |]. splits; (vm_compute; reflexivity). Qed.

(** ** C107: the parameters of a request *)
(** A request whose path is an instance of a template, and that no earlier route serves, gives each parameter its own value. *)
Theorem C107_values : forall before m ss h after vs p q,
  Forall (fun x => let '(_, t, _) := x in targetOk t) (before ++ (m, Template ss, h) :: after) ->
  instance ss vs p -> q = p \/ q = p ++ B "/" -> (forall t h', In (m, t, h') before -> ~ servesPath t q) ->
  exists ro, register emptyRouter (texts (before ++ (m, Template ss, h) :: after)) = Ret ro /\
    dispatch ro m q = Ret (Handler h (combine (parNames ss) vs)).
Proof.
  intros before m ss h after vs p q W D Q NB. destruct (register_built _ emptyRouter eq_refl W) as (rs & E & F).
  eexists. split; [exact E |]. unfold dispatch. cbn [roRoutes emptyRouter app]. clear E. revert rs F W.
  induction before as [| [[m' t] h'] before IH]; intros rs F W; cbn [app] in *.
  - inversion F as [| ? r ? rs' Hb F']; subst. inversion W as [| ? ? W1 W2]; subst. cbn [targetOk] in W1. destruct Hb as (r0 & N & ->).
    cbn [targetText] in N. pose proof N as N'. rewrite newRoute_template in N' by exact W1. apply Ret_inj in N'. subst r0. cbn [dispatchGo].
    destruct (C106_instances_served m ss vs p W1 D) as (r1 & N1 & M1 & M2). rewrite newRoute_template in N1 by exact W1. apply Ret_inj in N1. subst r1.
    assert (M : matches (mkRoute m (templateText ss) (Some (tpieces ss)) (Some h)) m q = true) by (destruct Q; subst q; [exact M1 | exact M2]).
    cbn [rtMethod rtPath rtPattern]. rewrite M. unfold generateHandler. cbn [rtPattern rtHandler].
    assert (S : regexSearch (tpieces ss) q = Some vs).
    { apply regexSearch_here. destruct Q as [-> | ->].
      - rewrite <- (app_nil_r p). apply matchHere_exact; [exact (proj1 W1) | exact D | left; reflexivity].
      - apply matchHere_exact; [exact (proj1 W1) | exact D | right; eexists; reflexivity]. }
    rewrite S, groups_tpieces.
    assert (LC : List.length vs = List.length (parNames ss)).
    { rewrite <- groups_tpieces. eapply derives_length. apply derives_instance; [exact (proj1 W1) | exact D]. }
    rewrite LC, Nat.eqb_refl. reflexivity.
  - inversion F as [| ? r ? rs' Hb F']; subst. inversion W as [| ? ? W1 W2]; subst. destruct Hb as (r0 & N & ->). cbn [dispatchGo].
    destruct (matches _ m q) eqn:M.
    + apply (matches_target m' t r0 (Some h') W1 N) in M. destruct M as [-> S]. exfalso. exact (NB t h' (or_introl eq_refl) S).
    + apply IH; [intros t' h'' I; apply (NB t' h''); right; exact I | exact F' | exact W2].
Qed.
(** Names used twice are refused when the route is registered. *)
Theorem C107_names_once : forall m ss, Forall segOk ss -> parNames ss <> [] -> ~ NoDup (parNames ss) -> newRoute m (templateText ss) = Fatal.
Proof.
  intros m ss W NP ND. unfold newRoute.
  destruct (templateText_head ss) as [E | [r E]]; [destruct ss as [| [t | n] ss]; [contradiction | discriminate | discriminate] |].
  rewrite E at 1. rewrite (proj2 (existsb_colon _) (template_colon ss W NP)), template_noregex by exact W.
  rewrite pieces_template by exact W. rewrite groups_tpieces. destruct (distinct (parNames ss)) eqn:X; [apply distinct_spec in X; contradiction | reflexivity].
Qed.
(** A path that is no instance gets parameters too. *)
Theorem C107_other_paths_refuted : exists ro, register emptyRouter [(G, B "/user/:id", 1)] = Ret ro /\
  dispatch ro G (B "/admin/user/7/delete") = Ret (Handler 1 [(B "id", B "7")]).
Proof. eexists. split; (vm_compute; reflexivity). Qed.
Example C107_ex : exists ro, register emptyRouter [(G, B "/space/:name/part/:id", 1)] = Ret ro /\
  dispatch ro G (B "/space/nba/part/7/") = Ret (Handler 1 [(B "name", B "nba"); (B "id", B "7")]).
Proof. eexists. split; (vm_compute; reflexivity). Qed.
Example C107_twice : newRoute G (B "/:a/:a") = Fatal.
Proof. vm_compute. reflexivity. Qed.

(** A route takes one handler: the one it was given first is kept, and a second one ends the process. *)
Theorem C105_one_handler : forall m path r h, newRoute m path = Ret r -> exists r1, setHandler r h = Ret r1 /\ rtHandler r1 = Some h /\
  rtMethod r1 = m /\ rtPattern r1 = rtPattern r /\ forall h', setHandler r1 h' = Fatal.
Proof.
  intros m path r h N. assert (X : rtHandler r = None /\ rtMethod r = m).
  { unfold newRoute in N. destruct path as [|c path]; [discriminate|]. repeat match type of N with (if ?b then _ else _) = _ => destruct b | match ?x with _ => _ end = _ => destruct x end; try discriminate; apply Ret_inj in N; subst r; split; reflexivity. }
  destruct X as [X1 X2]. unfold setHandler. rewrite X1. eexists. splits; [reflexivity..|exact X2|reflexivity|reflexivity].
Qed.
Print Assumptions C105_one_handler.
Print Assumptions C105_first_route_wins. Print Assumptions C105_exact_route. Print Assumptions C105_refused. Print Assumptions C105_prefix.
Print Assumptions C106_serves_when_inside. Print Assumptions C106_instances_served. Print Assumptions C106_only_instances_refuted.
Print Assumptions C106_slash_template_refuted. Print Assumptions C106_dot_refuted.
Print Assumptions C107_values. Print Assumptions C107_names_once. Print Assumptions C107_other_paths_refuted.
