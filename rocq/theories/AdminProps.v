(** Properties C152 (what the calls of the meta client ask for), C153 (what they answer), C154 (download and ingest). *)
From Coq Require Import String List.
From Verif Require CommandProps NetProps.
From Verif Require Import Prelude ValueBase ValueProofs CloneProofs AssocModel LeaderModel ProcModel DecProofs RetryModel RetryProps AdminModel AdminSpec.
Import ListNotations.
Local Open Scope Z_scope.
Local Open Scope list_scope.

(** * C152 *)
Lemma each_map {A} (u : tv -> option A) (w : A -> tv) l : (forall x, u (w x) = Some x) -> each u (map w l) = Some l.
Proof. intros H. induction l as [|x l IH]; cbn; [reflexivity|]. rewrite H, IH. reflexivity. Qed.
Lemma unKills_ok l : unKills (TMap (map (fun p => (TI64 (fst p), TSet (map TI64 (snd p)))) l)) = Some l.
Proof.
  cbn. induction l as [|[s ps] l IH]; cbn [map fst snd]; [reflexivity|]. rewrite (each_map unI64 TI64) by reflexivity. rewrite IH. reflexivity.
Qed.

Ltac lists := repeat first
  [ rewrite (each_map unBin TBin) by reflexivity | rewrite (each_map unAddr TAddr) by reflexivity | rewrite (each_map unI32 TI32) by reflexivity
  | rewrite each_map by reflexivity ].
(** The server that reads a request by the interface gets the function that was called and its arguments, none lost and none exchanged. *)
Theorem C152_understood c : serverReads (requestOf c) = Some c.
Proof.
  destruct c; try reflexivity; unfold serverReads, requestOf; cbn -[each map unKills];
    try (change (unList ?u (TList ?l)) with (each u l)); lists; try reflexivity;
    try (destruct comment; reflexivity); try (destruct statis; reflexivity).
  - destruct hostDel as [|h l], isStop, isReset; cbn -[each map]; lists; reflexivity.
  - rewrite unKills_ok. reflexivity.
Qed.
Example C152_understood_ex : requestOf (CChangePassword (B "ann") (B "new") (B "old")) =
  ("changePassword"%string, [("account"%string, TBin (B "ann")); ("new_encoded_pwd"%string, TBin (B "new")); ("old_encoded_pwd"%string, TBin (B "old"))]).
Proof. reflexivity. Qed.
(** Different calls send different requests. *)
Theorem C152_different a b ready rq : send ready a = Some rq -> send ready b = Some rq -> a = b.
Proof.
  assert (H : forall c, send ready c = Some rq -> serverReads rq = Some c).
  { intros c E. rewrite <- (C152_understood c). f_equal. unfold send in E. destruct c; try (injection E as <-; reflexivity).
    destruct ready; [injection E as <-; reflexivity|discriminate]. }
  intros A Bb. apply H in A, Bb. congruence.
Qed.
(** Only getConfig may send nothing: before the configuration is ready. *)
Theorem C152_sent ready c : send ready c = None <-> ready = false /\ exists m n, c = CGetConfig m n.
Proof.
  split.
  - destruct c; cbn; try discriminate. destruct ready; [discriminate|]. intros _. split; [reflexivity|]. eexists _, _. reflexivity.
  - intros [-> (m & n & ->)]. reflexivity.
Qed.

(** booleans for [conforms] *)
Fixpoint declTy (f : string) (d : list decl) : option typ :=
  match d with [] => None | (g, t, _) :: d' => if String.eqb f g then Some t else declTy f d' end.
Definition conformsb (d : list decl) (fs : fields) : bool :=
  forallb (fun p => match declTy (fst p) d with Some t => hasTy t (snd p) | None => false end) fs &&
  forallb (fun q => snd q || existsb (fun p => String.eqb (fst (fst q)) (fst p)) fs) d.
Lemma declTy_in f d t : declTy f d = Some t -> exists o, In (f, t, o) d.
Proof.
  induction d as [|[[g y] o] l IH]; cbn; [discriminate|]. destruct (String.eqb_spec f g) as [-> |N].
  - intros E. injection E as ->. eauto.
  - intros E. destruct (IH E) as [o' Ho]. eauto.
Qed.
Lemma conformsb_ok d fs : NoDup (map fst fs) -> conformsb d fs = true -> conforms d fs.
Proof.
  unfold conformsb, conforms. intros N E. apply andb_true_iff in E. destruct E as [E1 E2]. rewrite forallb_forall in E1, E2. splits; [exact N| |].
  - intros f v H. specialize (E1 _ H). cbn [fst snd] in E1. destruct (declTy f d) as [t|] eqn:Ef; [|discriminate].
    apply declTy_in in Ef. destruct Ef as [o Ho]. exists t, o. auto.
  - intros f t H. specialize (E2 _ H). cbn [fst snd] in E2. cbn [orb] in E2. apply existsb_exists in E2. destruct E2 as ([g v] & Hi & Eg).
    cbn in Eg. apply String.eqb_eq in Eg. subst g. apply in_map_iff. exists (f, v). auto.
Qed.
Lemma all_map {A} t (w : A -> tv) l : (forall x, hasTy t (w x) = true) -> forallb (hasTy t) (map w l) = true.
Proof. intros H. rewrite forallb_forall. intros x Hx. apply in_map_iff in Hx. destruct Hx as (y & <- & _). apply H. Qed.
Lemma listTy {A} t (w : A -> tv) l : (forall x, hasTy t (w x) = true) -> hasTy (YList t) (TList (map w l)) = true.
Proof. apply all_map. Qed.
Lemma killsTy (l : list (Z * list Z)) : hasTy (YMap YI64 (YSet YI64)) (TMap (map (fun p => (TI64 (fst p), TSet (map TI64 (snd p)))) l)) = true.
Proof.
  cbn [hasTy]. rewrite forallb_forall. intros x Hx. apply in_map_iff in Hx. destruct Hx as ([s ps] & <- & _). exact (all_map YI64 TI64 ps (fun _ => eq_refl)).
Qed.
Ltac typed := unfold conformsb; cbn -[hasTy map]; rewrite ?killsTy; repeat (rewrite listTy by reflexivity); reflexivity.
Ltac distinct := cbn; repeat constructor; cbn; intuition discriminate.
(** Every request has the fields of its struct with their types, and all those that are not optional, but for that of listConfigs. *)
Theorem C152_conforms c : (forall m, c <> CListConfigs m) ->
  exists d, requestDecl (fst (requestOf c)) = Some d /\ conforms d (snd (requestOf c)).
Proof.
  intros Hc. destruct c; try (eexists; split; [reflexivity|]; apply conformsb_ok; [distinct|]; typed).
  - eexists; split; [reflexivity|]. destruct comment; (apply conformsb_ok; [distinct|]); typed.
  - eexists; split; [reflexivity|]. destruct comment; (apply conformsb_ok; [distinct|]); typed.
  - eexists; split; [reflexivity|]. destruct hostDel, isStop, isReset; (apply conformsb_ok; [distinct|]); typed.
  - destruct (Hc module eq_refl).
  - eexists; split; [reflexivity|]. destruct statis; (apply conformsb_ok; [distinct|]); typed.
Qed.
(** listConfigs leaves out the field space, which is not optional. *)
Theorem C152_list_configs_refuted m : exists d, requestDecl (fst (requestOf (CListConfigs m))) = Some d /\ ~ conforms d (snd (requestOf (CListConfigs m))).
Proof.
  eexists. split; [reflexivity|]. intros (_ & _ & H). specialize (H "space"%string YBin). cbn in H. destruct (H (or_introl eq_refl)) as [E | []]. discriminate.
Qed.
(** A flag of balance that is not given and a host list that is empty are not sent; the number of a plan is sent by showBalance only. *)
Theorem C152_balance hosts stop reset :
  (forall b, In ("stop"%string, TBool b) (snd (requestOf (CBalance hosts stop reset))) <-> stop = true /\ b = true) /\
  (forall b, In ("reset"%string, TBool b) (snd (requestOf (CBalance hosts stop reset))) <-> reset = true /\ b = true) /\
  (forall v, In ("host_del"%string, v) (snd (requestOf (CBalance hosts stop reset))) <-> hosts <> [] /\ v = TList (map TAddr hosts)) /\
  (forall v, ~ In ("id"%string, v) (snd (requestOf (CBalance hosts stop reset)))).
Proof.
  destruct hosts as [|h l], stop, reset; cbn; splits; intros; try split; intros;
    repeat match goal with H : _ \/ _ |- _ => destruct H | H : _ /\ _ |- _ => destruct H | H : False |- _ => destruct H end;
    try discriminate; try congruence; subst; auto 6; try intuition congruence.
Qed.
Example C152_balance_ex : requestOf (CBalance [] true false) = ("balance"%string, [("stop"%string, TBool true)]).
Proof. reflexivity. Qed.

Print Assumptions C152_understood.
Print Assumptions C152_different.
Print Assumptions C152_conforms.

(** * C153 *)
Lemma field_in f v l : NoDup (map fst l) -> In (f, v) l -> field f l = Some v.
Proof.
  induction l as [|[g w] l IH]; cbn; [tauto|]. intros N. apply NoDup_cons_iff in N. destruct N as [N1 N2]. intros [E | H].
  - injection E as -> ->. rewrite String.eqb_refl. reflexivity.
  - destruct (String.eqb_spec f g) as [-> |_]; [|auto]. destruct N1. apply in_map_iff. exists (g, v). auto.
Qed.
Lemma get_tells f r : NoDup (map fst (rsFields r)) -> tellsField f r (get f r).
Proof. intros N v H. unfold get. rewrite (field_in f v) by assumption. reflexivity. Qed.
Lemma id_created m r : NoDup (map fst (rsFields r)) -> created m r (idOf m r).
Proof.
  intros N u H. unfold idOf. rewrite (field_in "id" u) by assumption. splits.
  - intros x ->. cbn. rewrite String.eqb_refl. reflexivity.
  - intros k x -> D. cbn. destruct (String.eqb_spec k m); [congruence|reflexivity].
  - intros ->. reflexivity.
Qed.
Lemma allSome_map {A Y X} (f : Y -> option X) (w : A -> Y) (g : A -> X) l : (forall x, f (w x) = Some (g x)) -> allSome f (map w l) = Some (map g l).
Proof. intros H. induction l as [|x l IH]; cbn; [reflexivity|]. rewrite H, IH. reflexivity. Qed.
Lemma only_field (r : resp) d f t : shaped d (rsFields r) -> (forall g u, In (g, u, false) d <-> (g, u) = (f, t)) ->
  exists f' t', (forall g u, In (g, u, false) d <-> (g, u) = (f', t')) /\ (exists v, In (f', v) (rsFields r)) /\ tellsField f' r (get f r).
Proof.
  intros (N & _ & R) H. exists f, t. splits; [exact H| |apply get_tells; exact N].
  assert (Hf : In f (map fst (rsFields r))) by (apply (R f t), H; reflexivity). apply in_map_iff in Hf. destruct Hf as ([g v] & E & Hv). cbn in E. subst. eauto.
Qed.
Lemma one_req f t (ds : list decl) : Forall (fun q => snd q = true) ds -> forall g u, In (g, u, false) ((f, t, false) :: ds) <-> (g, u) = (f, t).
Proof.
  intros A g u. cbn. split; [|intros E; injection E as -> ->; auto]. intros [E | H]; [injection E as -> ->; reflexivity|].
  rewrite Forall_forall in A. specialize (A _ H). discriminate.
Qed.
(** The caller of a call that succeeded gets what the response holds for it. *)
Theorem C153_answer c r : rsCode r = 0 -> exists d, responseDecl (fst (requestOf c)) = Some d /\
  (shaped d (rsFields r) -> told c d r (answerOf c r)).
Proof.
  intros E0. destruct c; eexists; (split; [reflexivity|]); intros Sh; pose proof (proj1 Sh) as N; unfold told; cbn [wholeAnswer isReport]; cbn -[get created tellsField idOf succeeded toSpaceIdName In];
    try reflexivity; try (apply id_created; exact N); try (unfold succeeded; rewrite E0; reflexivity);
    try (apply get_tells; exact N);
    try (eapply only_field; [exact Sh|apply one_req; repeat constructor]).
  intros l H. unfold toSpaceIdName. rewrite (field_in _ _ _ N H). erewrite allSome_map; [reflexivity|]. reflexivity.
Qed.
Example C153_answer_ex : let r := mkResp 0 (B "m", 9559) [("id"%string, TUnion "ID" (Some ("tag_id"%string, TI32 7)))] in
  shaped execResp (rsFields r) /\ answerOf (CCreateTagSchema 1 (B "t") (B "s") false) r = Some (AValue (TI32 7)) /\
  answerOf (CCreateEdgeSchema 1 (B "t") (B "s") false) r = None.
Proof.
  cbn. splits; try reflexivity. unfold shaped. splits.
  - repeat constructor. cbn. tauto.
  - intros f v [E | []]. injection E as <- <-. exists (YStruct "ID"), false. split; [left; reflexivity|reflexivity].
  - intros f t [E | []]. injection E as <- <-. left. reflexivity.
Qed.

Lemma fulfil_last {A} (before : list (event A)) r r' : fulfils (before ++ [EFulfil r]) = 1%nat -> In (EFulfil r') (before ++ [EFulfil r]) -> r' = r.
Proof.
  unfold fulfils. rewrite filter_app, app_length. cbn. intros E H. apply in_app_or in H. destruct H as [H | [H | []]]; [|congruence].
  assert (F : In (EFulfil r') (filter isFulfil before)) by (apply filter_In; split; [exact H|reflexivity]).
  destruct (filter isFulfil before); [destruct F|]. cbn in E. lia.
Qed.
(** With all the attempts of getResponse: what the caller gets is made of a response that came to this call with the code SUCCEEDED. *)
Theorem C153_delivered c addrs out rnd env limit m evs m' a : RetryModel.request (answerOf c) addrs out rnd env true limit m = Some (evs, m') ->
  In (EFulfil (MValue a)) evs -> exists k l r, (k < sends evs)%nat /\ out k = OResp SUCCEEDED l r /\ a = answerOf c r.
Proof.
  intros E H. destruct (C59_answer _ _ _ _ _ _ _ _ _ _ E) as (last & r & Sn & Hr & _ & _ & T).
  destruct (C59_bounded_and_answered_once (answerOf c) addrs out rnd env true limit m) as (evs' & m'' & before & r' & E' & _ & _ & F & Ev).
  rewrite E in E'. injection E' as <- <-. rewrite Ev in H, Hr, F.
  pose proof (fulfil_last _ _ _ F H) as X1. pose proof (fulfil_last _ _ _ F Hr) as X2. subst r'. subst r.
  exists last. destruct (out last) as [|code l p]; cbn in T; [discriminate|]. exists l, p. split; [lia|].
  destruct T as (T1 & T2 & T3). destruct (Z.eq_dec code SUCCEEDED) as [-> |N1]; [split; [reflexivity|specialize (T1 eq_refl); congruence]|].
  destruct (Z.eq_dec code E_LEADER_CHANGED) as [-> |N2]; [specialize (T2 eq_refl); discriminate|]. specialize (T3 N1 N2). discriminate.
Qed.
(** Calls that answer whether they succeeded never answer false: a failure is an error status. *)
Theorem C153_never_false c addrs out rnd env limit m evs m' b : (forall k code l r, out k = OResp code l r -> rsCode r = code) ->
  (forall k code l r, out k = OResp code l r -> exists d, responseDecl (fst (requestOf c)) = Some d /\ shaped d (rsFields r)) ->
  responseDecl (fst (requestOf c)) = Some execResp ->
  RetryModel.request (answerOf c) addrs out rnd env true limit m = Some (evs, m') -> In (EFulfil (MValue (Some (AValue (TBool b))))) evs ->
  find (fst (requestOf c)) makes = None -> b = true.
Proof.
  intros Hc Hs Hd E H Nm. destruct (C153_delivered _ _ _ _ _ _ _ _ _ _ E H) as (k & l & r & _ & Eo & Ea).
  pose proof (Hc _ _ _ _ Eo) as E0. destruct (C153_answer c r E0) as (d & Ed & T). destruct (Hs _ _ _ _ Eo) as (d' & Ed' & Sh).
  rewrite Hd in Ed, Ed'. injection Ed as <-. injection Ed' as <-. specialize (T Sh). rewrite <- Ea in T. unfold told in T.
  destruct (wholeAnswer c); [discriminate|]. destruct (isReport c); [discriminate|]. rewrite Nm in T. destruct c; try discriminate; cbn in T; congruence.
Qed.
Example C153_delivered_ex : let r := mkResp 0 (B "m", 9559) [("id"%string, TUnion "ID" None)] in
  exists evs m', RetryModel.request (answerOf (CDropZone (B "z"))) [(B "m", 9559); (B "n", 9559)]
    (fun k => match k with O => OExc | _ => OResp 0 (B "m", 9559) r end) (fun _ => 1%nat) (fun _ m => m) true 3 (mkMC (B "m", 9559) (B "m", 9559)) = Some (evs, m') /\
    In (EFulfil (MValue (Some (AValue (TBool true))))) evs /\ sends evs = 2%nat.
Proof. eexists. eexists. split; [reflexivity|]. split; [cbn; auto 6|reflexivity]. Qed.

(** getPartsAlloc: the parts are those of the response; the terms given are overwritten for the parts that the response has terms of, and only for them. *)
Lemma fold_aset (ts m : list (Z * Z)) k : NoDup (map fst ts) ->
  aget Z.eqb k (fold_left (fun m p => aset Z.eqb (fst p) (snd p) m) ts m) = match aget Z.eqb k ts with Some t => Some t | None => aget Z.eqb k m end.
Proof.
  revert m. induction ts as [|[k0 t0] ts IH]; intros m N; [reflexivity|]. apply NoDup_cons_iff in N. destruct N as [N1 N2].
  cbn [fold_left aget fst snd]. rewrite IH by assumption. rewrite (aget_aset Z.eqb Z.eqb_eq). destruct (Z.eqb_spec k k0) as [-> |D]; [|destruct (aget Z.eqb k ts); reflexivity].
  assert (aget Z.eqb k0 ts = None) as -> by (apply (aget_None Z.eqb Z.eqb_eq); exact N1). reflexivity.
Qed.
Theorem C153_terms old terms : (forall ts, terms = Some ts -> NoDup (map fst ts)) ->
  match termsAfter old terms with
  | None => old = None
  | Some m => exists m0, old = Some m0 /\ forall k, aget Z.eqb k m = match terms with Some ts => match aget Z.eqb k ts with Some t => Some t | None => aget Z.eqb k m0 end | None => aget Z.eqb k m0 end
  end.
Proof.
  intros N. destruct old as [m0|], terms as [ts|]; cbn; try reflexivity.
  - exists m0. split; [reflexivity|]. intros k. apply fold_aset. apply N. reflexivity.
  - exists m0. auto.
Qed.
Theorem C153_parts parts : NoDup (map fst parts) -> copyParts parts = parts.
Proof.
  intros N. unfold copyParts. enough (G : forall ps acc, NoDup (map fst (acc ++ ps)) -> fold_left (fun m p => aadd Z.eqb (fst p) (snd p) m) ps acc = acc ++ ps) by (apply (G parts []); exact N).
  induction ps as [|[k v] ps IH]; intros acc Na; cbn [fold_left fst snd]; [rewrite app_nil_r; reflexivity|].
  assert (aget Z.eqb k acc = None) as Ek.
  { apply (aget_None Z.eqb Z.eqb_eq). unfold akeys. rewrite map_app in Na. cbn in Na. apply NoDup_remove_2 in Na. intros H. apply Na. apply in_or_app. auto. }
  unfold aadd at 2. rewrite Ek. rewrite IH; rewrite <- app_assoc; [reflexivity|exact Na].
Qed.
Example C153_terms_ex : termsAfter (Some [(1, 5); (2, 6)]) (Some [(2, 9); (3, 1)]) = Some [(1, 5); (2, 9); (3, 1)] /\ copyParts [(1, [(B "a", 1)]); (2, [])] = [(1, [(B "a", 1)]); (2, [])].
Proof. split; reflexivity. Qed.

(** * C154 *)
Section Http.
Context (sh : str -> option run) (fuel : nat).
(** what popen is given *)
Definition theRun (url : str) : option run := sh (cstr (httpGetCmd url [])).
(** the output of the command is read to its end *)
Definition readsAll (r : run) : Prop := forall k, rnFail r = Some k -> (List.length (rnOut r) < k)%nat.
Lemma http_cases url : match theRun url with
  | None => httpGet sh fuel url [] = Ret None
  | Some r => (List.length (rnOut r) < fuel)%nat -> (readsAll r -> httpGet sh fuel url [] = Ret (Some (rnOut r))) /\ (~ readsAll r -> httpGet sh fuel url [] = Ret None)
  end.
Proof.
  unfold theRun, httpGet, runCommand, readsAll. destruct (sh _) as [r|]; [|reflexivity]. intros L. rewrite (CommandProps.readLoop_ok 1024 fuel CommandProps.buf_pos) by lia. cbn [app].
  destruct (rnFail r) as [k|]; [|split; [reflexivity|intros H; destruct H; discriminate]]. split; intros H.
  - specialize (H k eq_refl). destruct (Nat.leb_spec k (List.length (rnOut r))); [lia|reflexivity].
  - destruct (Nat.leb_spec k (List.length (rnOut r))); [reflexivity|]. destruct H. intros k' E. injection E as <-. assumption.
Qed.
(** ingest says yes exactly if the body is the text the service sends, and no in all other cases. *)
Theorem C154_ingest lh port space : let url := ingestUrl lh port space in
  (forall r, theRun url = Some r -> (List.length (rnOut r) < fuel)%nat) ->
  exists b, ingest sh fuel lh port space = Ret b /\ (b = true <-> exists r, theRun url = Some r /\ readsAll r /\ rnOut r = B "SSTFile ingest successfully").
Proof.
  intros url F. unfold ingest. fold url. pose proof (http_cases url) as H. destruct (theRun url) as [r|] eqn:E.
  - specialize (H (F r eq_refl)). destruct (rnFail r) as [k|] eqn:Ek.
    + destruct (Nat.ltb_spec (List.length (rnOut r)) k) as [Lk | Lk].
      * assert (readsAll r) as R by (intros k' Ek'; rewrite Ek in Ek'; injection Ek' as <-; exact Lk).
        rewrite (proj1 H R). cbn. eexists. split; [reflexivity|]. rewrite strEqb_eq. split; [eauto|]. intros (r' & E' & _ & Eo). congruence.
      * assert (~ readsAll r) as R by (intros R; specialize (R k Ek); lia).
        rewrite (proj2 H R). cbn. exists false. split; [reflexivity|]. split; [discriminate|]. intros (r' & E' & R' & _). congruence.
    + assert (readsAll r) as R by (intros k' Ek'; congruence).
      rewrite (proj1 H R). cbn. eexists. split; [reflexivity|]. rewrite strEqb_eq. split; [eauto|]. intros (r' & E' & _ & Eo). congruence.
  - rewrite H. cbn. exists false. split; [reflexivity|]. split; [discriminate|]. intros (r' & E' & _). discriminate.
Qed.
(** download does so if the command could be run and its output read; otherwise it reads the value of a failed StatusOr. *)
Theorem C154_download lh port hh hp path space : let url := downloadUrl lh port hh hp path space in
  (forall r, theRun url = Some r -> (List.length (rnOut r) < fuel)%nat) ->
  (forall r, theRun url = Some r -> readsAll r ->
     exists b, download sh fuel lh port hh hp path space = Ret b /\ (b = true <-> rnOut r = B "SSTFile dispatch successfully")) /\
  (theRun url = None \/ (exists r, theRun url = Some r /\ ~ readsAll r) -> download sh fuel lh port hh hp path space = UB).
Proof.
  intros url F. unfold download. fold url. pose proof (http_cases url) as H. split.
  - intros r E R. rewrite E in H. rewrite (proj1 (H (F r E)) R). cbn. eexists. split; [reflexivity|]. apply strEqb_eq.
  - intros [E | (r & E & R)]; rewrite E in H; [rewrite H; reflexivity|]. rewrite (proj2 (H (F r E)) R). reflexivity.
Qed.
End Http.
(** "A download that fails is answered with false" is false. *)
Theorem C154_failed_download_refuted : exists sh, download sh 1 (B "meta") 11000 (B "hdfs") 9000 (B "/data") 1 = UB /\ ingest sh 1 (B "meta") 11000 1 = Ret false.
Proof. exists (fun _ => None). split; reflexivity. Qed.

Lemma upTo_app c a b : ~ In c a -> upTo c (a ++ c :: b) = (a, Some b).
Proof. induction a as [|x a IH]; cbn; intros N; [rewrite Z.eqb_refl; reflexivity|]. destruct (Z.eqb_spec x c); [destruct N; auto|]. rewrite IH by auto. reflexivity. Qed.
Lemma pieces_app c a b : ~ In c a -> pieces c (a ++ c :: b) = let (p, ps) := pieces c b in (a, p :: ps).
Proof.
  induction a as [|x a IH]; cbn; intros N.
  - destruct (pieces c b). rewrite Z.eqb_refl. reflexivity.
  - rewrite IH by auto. destruct (pieces c b). destruct (Z.eqb_spec x c); [destruct N; auto|reflexivity].
Qed.
Lemma pieces_one c a : ~ In c a -> pieces c a = (a, []).
Proof. induction a as [|x a IH]; cbn; intros N; [reflexivity|]. rewrite IH by auto. destruct (Z.eqb_spec x c); [destruct N; auto|reflexivity]. Qed.
Lemma dec_no c z : c <> 45 -> DecProofs.isDigit c = false -> ~ In c (decZ z).
Proof. intros N D H. apply NetProps.decZ_chars in H. destruct H; congruence. Qed.
Definition plain (c : Z) (s : str) : Prop := ~ In c s /\ ~ In 0 s.
(** Where the texts have no &, no NUL and the leader no ?, the service reads the four parameters as they were given. *)
Theorem C154_asks lh port hh hp path space : plain 63 lh -> plain 38 hh -> plain 38 path ->
  query (downloadUrl lh port hh hp path space) = [(B "host", hh); (B "port", decZ hp); (B "path", path); (B "space", decZ space)].
Proof.
  intros [L1 L2] [H1 H2] [P1 P2]. unfold query, downloadUrl. rewrite !NetProps.cstr_id by assumption.
  assert (E : B "http://" ++ lh ++ B ":" ++ decZ port ++ B "/download-dispatch?host=" ++ hh ++ B "&port=" ++ decZ hp ++ B "&path=" ++ path ++ B "&space=" ++ decZ space =
    (B "http://" ++ lh ++ B ":" ++ decZ port ++ B "/download-dispatch") ++ 63 :: (B "host=" ++ hh) ++ 38 :: (B "port=" ++ decZ hp) ++ 38 :: (B "path=" ++ path) ++ 38 :: (B "space=" ++ decZ space)).
  { rewrite <- !app_assoc. reflexivity. }
  rewrite E. clear E. rewrite upTo_app.
  2:{ rewrite !in_app_iff. intros Hx. repeat (destruct Hx as [Hx|Hx]); try (cbn in Hx; decompose [or False] Hx; discriminate); [auto|]. revert Hx. apply dec_no; [discriminate|reflexivity]. }
  rewrite pieces_app. 2:{ rewrite in_app_iff. intros [Hx | Hx]; [cbn in Hx; decompose [or False] Hx; discriminate|auto]. }
  rewrite pieces_app. 2:{ rewrite in_app_iff. intros [Hx | Hx]; [cbn in Hx; decompose [or False] Hx; discriminate|]. revert Hx. apply dec_no; [discriminate|reflexivity]. }
  rewrite pieces_app. 2:{ rewrite in_app_iff. intros [Hx | Hx]; [cbn in Hx; decompose [or False] Hx; discriminate|auto]. }
  rewrite pieces_one. 2:{ rewrite in_app_iff. intros [Hx | Hx]; [cbn in Hx; decompose [or False] Hx; discriminate|]. revert Hx. apply dec_no; [discriminate|reflexivity]. }
  cbn [map]. unfold param. cbn. reflexivity.
Qed.
Theorem C154_ingest_asks lh port space : plain 63 lh -> query (ingestUrl lh port space) = [(B "space", decZ space)].
Proof.
  intros [L1 L2]. unfold query, ingestUrl. rewrite !NetProps.cstr_id by assumption.
  assert (E : B "http://" ++ lh ++ B ":" ++ decZ port ++ B "/ingest-dispatch?space=" ++ decZ space =
    (B "http://" ++ lh ++ B ":" ++ decZ port ++ B "/ingest-dispatch") ++ 63 :: (B "space=" ++ decZ space)).
  { rewrite <- !app_assoc. reflexivity. }
  rewrite E. clear E. rewrite upTo_app.
  2:{ rewrite !in_app_iff. intros Hx. repeat (destruct Hx as [Hx|Hx]); try (cbn in Hx; decompose [or False] Hx; discriminate); [auto|]. revert Hx. apply dec_no; [discriminate|reflexivity]. }
  rewrite pieces_one. 2:{ rewrite in_app_iff. intros [Hx | Hx]; [cbn in Hx; decompose [or False] Hx; discriminate|]. revert Hx. apply dec_no; [discriminate|reflexivity]. }
  cbn [map]. unfold param. cbn. reflexivity.
Qed.
Example C154_asks_ex : plain 63 (B "meta0") /\ plain 38 (B "hdfs") /\ plain 38 (B "/data/sst") /\
  query (downloadUrl (B "meta0") 11000 (B "hdfs") 9000 (B "/data/sst") 7) = [(B "host", B "hdfs"); (B "port", B "9000"); (B "path", B "/data/sst"); (B "space", B "7")].
Proof. splits; try reflexivity; unfold plain; cbn; intuition discriminate. Qed.
(** A path may bring its own parameters: another space comes before the one of the call; and two different calls may send the same. *)
Theorem C154_path_refuted : exists path, query (downloadUrl (B "meta0") 11000 (B "hdfs") 9000 path 7) =
  [(B "host", B "hdfs"); (B "port", B "9000"); (B "path", B "/d"); (B "space", B "8"); (B "space", B "7")].
Proof. exists (B "/d&space=8"). reflexivity. Qed.
Theorem C154_different_refuted : exists h p path h' p' path', (h, p, path) <> (h', p', path') /\ forall lh port space,
  downloadUrl lh port h p path space = downloadUrl lh port h' p' path' space.
Proof.
  exists (B "h&port=1&path=/a"), 2, (B "/b"), (B "h"), 1, (B "/a&port=2&path=/b"). split; [discriminate|]. intros lh port space. unfold downloadUrl. reflexivity.
Qed.

Print Assumptions C153_answer.
Print Assumptions C153_delivered.
Print Assumptions C153_never_false.
Print Assumptions C154_download.
Print Assumptions C154_ingest.
Print Assumptions C154_asks.
