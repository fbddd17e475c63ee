(** * C108-C110: configurations *)
From Coq Require Import String List Lia ZArith Bool.
From Verif Require Import Prelude ValueBase ValueProofs DynModel ConfModel FullTextModel FullTextSpec DynProofs NetProps.
Import ListNotations.
Local Open Scope Z_scope.
Local Open Scope list_scope.

(** ** Members of an object *)
Lemma dget_spec m k d : NoDup (map fst m) -> (dget k m = Some d <-> In (k, d) m).
Proof.
  induction m as [| [k' d'] m IH]; cbn [dget map fst]; intros N; [split; [discriminate | intros []] |].
  inversion N as [| ? ? N1 N2]; subst. destruct (strEqb k' k) eqn:E.
  - apply strEqb_eq in E. subst k'. split; [intros H; injection H as ->; left; reflexivity |]. intros [H | H]; [injection H as ->; reflexivity |].
    destruct N1. apply in_map_iff. exists (k, d). split; [reflexivity | exact H].
  - rewrite IH by exact N2. split; [intros H; right; exact H |]. intros [H | H]; [| exact H]. injection H as -> ->.
    rewrite (proj2 (strEqb_eq k k) eq_refl) in E. discriminate.
Qed.
Lemma dget_dset m k d k' : dget k' (dset k d m) = if strEqb k k' then Some d else dget k' m.
Proof.
  induction m as [| [k0 d0] m IH]; cbn [dset dget]; [reflexivity |]. destruct (strEqb k0 k) eqn:E.
  - apply strEqb_eq in E. subst k0. cbn [dget]. destruct (strEqb k k'); reflexivity.
  - cbn [dget]. destruct (strEqb k0 k') eqn:E'; [| exact IH]. apply strEqb_eq in E'. subst k0.
    destruct (strEqb k k') eqn:E2; [| reflexivity]. apply strEqb_eq in E2. subst k'. rewrite (proj2 (strEqb_eq k k) eq_refl) in E. discriminate.
Qed.
Lemma dset_keys m k d : NoDup (map fst m) -> NoDup (map fst (dset k d m)).
Proof.
  assert (I : forall x, In x (map fst (dset k d m)) -> x = k \/ In x (map fst m)).
  { induction m as [| [k0 d0] m IH]; cbn [dset map fst]; intros x H; [destruct H as [<- | []]; left; reflexivity |].
    destruct (strEqb k0 k); cbn [map fst] in *; [right; exact H |]. destruct H as [<- | H]; [right; left; reflexivity |].
    destruct (IH x H) as [-> | H']; [left; reflexivity | right; right; exact H']. }
  revert I. induction m as [| [k0 d0] m IH]; cbn [dset map fst]; intros I N; [repeat constructor; intros [] |].
  inversion N as [| ? ? N1 N2]; subst. destruct (strEqb k0 k) eqn:E; cbn [map fst]; [constructor; assumption |].
  assert (I' : forall x, In x (map fst (dset k d m)) -> x = k \/ In x (map fst m)).
  { clear. induction m as [| [k0 d0] m IH]; cbn [dset map fst]; intros x H; [destruct H as [<- | []]; left; reflexivity |].
    destruct (strEqb k0 k); cbn [map fst] in *; [right; exact H |]. destruct H as [<- | H]; [right; left; reflexivity |].
    destruct (IH x H) as [-> | H']; [left; reflexivity | right; right; exact H']. }
  constructor; [| exact (IH I' N2)]. intros H. destruct (I' k0 H) as [-> | H']; [| exact (N1 H')].
  rewrite (proj2 (strEqb_eq k k) eq_refl) in E. discriminate.
Qed.

(** ** C108: items are fetched in their own type *)
(** a key as a C string has no NUL *)
Definition keyOk (k : str) : Prop := ~ In 0 k.
Lemma cstr_key k : keyOk k -> cstr k = k.
Proof. intros H. apply cstr_id. exact H. Qed.
(** [fetched m key mk r val]: r is success with x if the item is [mk x], failure with the caller's value otherwise *)
Definition fetched {A} (m : list (str * dyn)) (key : str) (mk : A -> dyn) (val : A) (r : outcome (bool * A)) : Prop :=
  (exists x, In (key, mk x) m /\ r = Ret (true, x)) \/ ((forall x, ~ In (key, mk x) m) /\ r = Ret (false, val)).
Lemma fetchScalar_spec {A} (pick : dyn -> option A) (mk : A -> dyn) m key val :
  (forall d x, pick d = Some x <-> d = mk x) -> keyOk key -> NoDup (map fst m) -> fetched m key mk val (fetchScalar pick (DObj m) key val).
Proof.
  intros P K N. unfold fetchScalar, cfind. rewrite cstr_key by exact K. cbn [obind]. unfold fetched.
  destruct (dget key m) as [d |] eqn:E.
  - apply dget_spec in E; [| exact N]. destruct (pick d) as [x |] eqn:Ep.
    + left. exists x. apply P in Ep. subst d. split; [exact E | reflexivity].
    + right. split; [| reflexivity]. intros x H. apply dget_spec in H; [| exact N]. apply dget_spec in E; [| exact N]. rewrite H in E.
      injection E as <-. rewrite (proj2 (P (mk x) x) eq_refl) in Ep. discriminate.
  - right. split; [| reflexivity]. intros x H. apply dget_spec in H; [congruence | exact N].
Qed.
(** Each function gives exactly the item of its own type; otherwise it reports failure and leaves the caller's variable alone. *)
Theorem C108_own_type : forall m key, keyOk key -> NoDup (map fst m) ->
  (forall v, fetched m key DInt v (fetchAsInt (DObj m) key v)) /\
  (forall v, fetched m key DDouble v (fetchAsDouble (DObj m) key v)) /\
  (forall v, fetched m key DBool v (fetchAsBool (DObj m) key v)) /\
  (forall v, fetched m key DStr v (fetchAsString (DObj m) key v)) /\
  (forall v, (exists m', In (key, DObj m') m /\ fetchAsSubConf (DObj m) key v = Ret (true, DObj m')) \/
             ((forall m', ~ In (key, DObj m') m) /\ fetchAsSubConf (DObj m) key v = Ret (false, v))).
Proof.
  intros m key K N. splits; intros v; try (apply fetchScalar_spec; [| exact K | exact N]; intros d x; destruct d; split; congruence).
  unfold fetchAsSubConf, fetchScalar, cfind. rewrite cstr_key by exact K. cbn [obind]. destruct (dget key m) as [d |] eqn:E.
  - apply dget_spec in E; [| exact N]. destruct d as [| | | | | | m']; try (right; split; [| reflexivity]; intros x H;
      apply dget_spec in H; [| exact N]; apply dget_spec in E; [| exact N]; congruence).
    left. exists m'. split; [exact E | reflexivity].
  - right. split; [| reflexivity]. intros x H. apply dget_spec in H; [congruence | exact N].
Qed.
(** Storing a string: refused exactly if the item is there with another type; then it is fetched back and no other item changes. *)
Theorem C108_upsert : forall m key s, keyOk key -> NoDup (map fst m) -> exists ok c, upsertStringField (DObj m) key s = Ret (ok, c) /\
  (ok = true <-> forall d, In (key, d) m -> exists t, d = DStr t) /\
  (ok = false -> c = DObj m) /\
  (ok = true -> exists m', c = DObj m' /\ NoDup (map fst m') /\ (forall v, fetchAsString c key v = Ret (true, s)) /\
     (forall k d, k <> key -> (In (k, d) m' <-> In (k, d) m)) /\ (forall d, In (key, d) m' <-> d = DStr s)).
Proof.
  intros m key s K N. unfold upsertStringField, cfind. rewrite cstr_key by exact K. cbn [obind].
  assert (OKC : NoDup (map fst (dset key (DStr s) m)) /\ (forall v, fetchAsString (DObj (dset key (DStr s) m)) key v = Ret (true, s)) /\
     (forall k d, k <> key -> (In (k, d) (dset key (DStr s) m) <-> In (k, d) m)) /\ (forall d, In (key, d) (dset key (DStr s) m) <-> d = DStr s)).
  { pose proof (dset_keys m key (DStr s) N) as N'. splits.
    - exact N'.
    - intros v. unfold fetchAsString, fetchScalar, cfind. rewrite cstr_key by exact K. cbn [obind]. rewrite dget_dset.
      rewrite (proj2 (strEqb_eq key key) eq_refl). reflexivity.
    - intros k d NE. rewrite <- !dget_spec by assumption. rewrite dget_dset. destruct (strEqb key k) eqn:E; [apply strEqb_eq in E; congruence | reflexivity].
    - intros d. rewrite <- dget_spec by assumption. rewrite dget_dset, (proj2 (strEqb_eq key key) eq_refl). split; congruence. }
  destruct (dget key m) as [d |] eqn:E.
  - apply dget_spec in E; [| exact N]. destruct d as [| | | | t | |];
      try (exists false, (DObj m); splits; [reflexivity | split; [discriminate |]; intros H; destruct (H _ E) as [t' Ht]; discriminate | reflexivity | discriminate]).
    exists true. eexists. splits; [reflexivity | | discriminate | intros _; eexists; split; [reflexivity | exact OKC]].
    split; [| reflexivity]. intros _ d H. exists t. apply dget_spec in H; [| exact N]. apply dget_spec in E; [| exact N]. congruence.
  - exists true. eexists. splits; [reflexivity | | discriminate | intros _; eexists; split; [reflexivity | exact OKC]].
    split; [| reflexivity]. intros _ d H. apply dget_spec in H; [congruence | exact N].
Qed.
(** A text that is not JSON leaves the configuration alone. *)
Theorem C108_failed_parse : forall W c s, fst (parseFromString W c s) = false -> dwParse W s = None /\ snd (parseFromString W c s) = c.
Proof. intros W c s. unfold parseFromString. destruct (dwParse W s); [discriminate |]. split; reflexivity. Qed.
(** a world whose parser is the JSON reader of FullTextSpec *)
Fixpoint dynOf (j : json) : dyn :=
  match j with JNull => DNull | JBool b => DBool b | JInt z => DInt z | JStr s => DStr s | JArr l => DArr (map dynOf l) | JObj m => DObj (map (fun p => (fst p, dynOf (snd p))) m) end.
Definition W0 : dynWorld := mkDynWorld (fun s => option_map dynOf (readJson s)) (fun _ => []) (fun _ => None) (fun _ => None) (fun _ => None) (fun _ => None).
(** It is not so that a configuration parsed with success can be asked for items: a text that is no object is taken over, and then every question throws. *)
Theorem C108_not_an_object_refuted : exists c, parseFromString W0 newConf (B "[1]") = (true, c) /\ forall key v, fetchAsInt c key v = Fatal.
Proof. eexists. split; [reflexivity |]. reflexivity. Qed.
Example C108_ex : let c := snd (parseFromString W0 newConf (B "{""a"":7,""b"":{""c"":""x""}}")) in
  fetchAsInt c (B "a") 0 = Ret (true, 7) /\ fetchAsString c (B "a") [] = Ret (false, []) /\
  fetchAsSubConf c (B "b") DNull = Ret (true, DObj [(B "c", DStr (B "x"))]) /\ fetchAsBool c (B "z") true = Ret (false, true).
Proof. intros c. unfold c. splits; reflexivity. Qed.

(** ** C109: arrays *)
Lemma pushAll_spec {A} (conv : dyn -> option A) l val :
  exists xs, snd (pushAll conv l val) = val ++ xs /\
   (fst (pushAll conv l val) = true /\ Forall2 (fun d x => conv d = Some x) l xs \/
    fst (pushAll conv l val) = false /\ exists l1 d l2, l = l1 ++ d :: l2 /\ Forall2 (fun d x => conv d = Some x) l1 xs /\ conv d = None).
Proof.
  revert val. induction l as [| d l IH]; intros val; cbn [pushAll].
  - exists []. rewrite app_nil_r. split; [reflexivity |]. left. split; [reflexivity | constructor].
  - destruct (conv d) as [x |] eqn:E.
    + destruct (IH (val ++ [x])) as (xs & S & H). exists (x :: xs). split; [rewrite S, <- app_assoc; reflexivity |].
      destruct H as [[F H] | [F (l1 & d1 & l2 & -> & H & N)]]; [left | right]; split; try exact F.
      * constructor; assumption.
      * exists (d :: l1), d1, l2. splits; [reflexivity | constructor; assumption | exact N].
    + exists []. rewrite app_nil_r. split; [reflexivity |]. right. split; [reflexivity |]. exists [], d, l. splits; [reflexivity | constructor | exact E].
Qed.
Lemma fetchArray_spec {A} (conv : dyn -> option A) m key val : keyOk key -> NoDup (map fst m) ->
  exists ok xs, fetchArray conv (DObj m) key val = Ret (ok, val ++ xs) /\
    (ok = true <-> exists l, In (key, DArr l) m /\ Forall2 (fun d x => conv d = Some x) l xs) /\
    (ok = false -> (forall l, ~ In (key, DArr l) m) /\ xs = [] \/ exists l1 d l2, In (key, DArr (l1 ++ d :: l2)) m /\ Forall2 (fun d x => conv d = Some x) l1 xs /\ conv d = None).
Proof.
  intros K N. unfold fetchArray, cfind. rewrite cstr_key by exact K. cbn [obind].
  assert (U : forall d d', dget key m = Some d -> In (key, d') m -> d' = d).
  { intros d d' E H. apply dget_spec in H; [congruence | exact N]. }
  assert (Z : (forall l, ~ In (key, DArr l) m) -> exists ok xs, Ret (false, val) = Ret (ok, val ++ xs) /\
    (ok = true <-> exists l, In (key, DArr l) m /\ Forall2 (fun d x => conv d = Some x) l xs) /\
    (ok = false -> (forall l, ~ In (key, DArr l) m) /\ xs = [] \/ exists l1 d l2, In (key, DArr (l1 ++ d :: l2)) m /\ Forall2 (fun d x => conv d = Some x) l1 xs /\ conv d = None)).
  { intros H. exists false, []. rewrite app_nil_r. splits; [reflexivity | split; [discriminate |]; intros (l & I & _); destruct (H l I) |].
    intros _. left. split; [exact H | reflexivity]. }
  destruct (dget key m) as [[| | | | | l |] |] eqn:E; try (apply Z; intros l' H; specialize (U _ _ eq_refl H); discriminate).
  - clear Z. destruct (pushAll_spec conv l val) as (xs & S & H). destruct (pushAll conv l val) as [ok v']. cbn [fst snd] in *. subst v'.
    exists ok, xs. apply dget_spec in E; [| exact N]. splits; [reflexivity | |].
    + split.
      * intros ->. destruct H as [[_ H] | [H _]]; [exists l; split; assumption | discriminate].
      * intros (l' & I & H'). assert (l' = l) as -> by (assert (DArr l' = DArr l) by (apply U; [reflexivity | exact I]); congruence).
        destruct H as [[F _] | [_ (l1 & d & l2 & -> & H & Nn)]]; [exact F |]. exfalso.
        apply Forall2_app_inv_l in H'. destruct H' as (xa & xb & Ha & Hb & _). inversion Hb; subst. congruence.
    + intros ->. right. destruct H as [[F _] | [_ (l1 & d & l2 & -> & H & Nn)]]; [discriminate |]. exists l1, d, l2. splits; [exact E | exact H | exact Nn].
  - apply Z. intros l H. apply dget_spec in H; [congruence | exact N].
Qed.
(** [arrayFetched]: success exactly if the item is an array whose entries all convert, and then their values stand behind the
    caller's; on failure the values of the leading entries that convert do. *)
Definition arrayFetched {A} (conv : dyn -> option A) (m : list (str * dyn)) (key : str) (val : list A) (r : outcome (bool * list A)) : Prop :=
  exists ok xs, r = Ret (ok, val ++ xs) /\
    (ok = true <-> exists l, In (key, DArr l) m /\ Forall2 (fun d x => conv d = Some x) l xs) /\
    (ok = false -> (forall l, ~ In (key, DArr l) m) /\ xs = [] \/ exists l1 d l2, In (key, DArr (l1 ++ d :: l2)) m /\ Forall2 (fun d x => conv d = Some x) l1 xs /\ conv d = None).
Theorem C109_entries : forall W m key, keyOk key -> NoDup (map fst m) ->
  (forall v, arrayFetched (asInt W) m key v (fetchAsIntArray W (DObj m) key v)) /\
  (forall v, arrayFetched (asDouble W) m key v (fetchAsDoubleArray W (DObj m) key v)) /\
  (forall v, arrayFetched (asBool W) m key v (fetchAsBoolArray W (DObj m) key v)) /\
  (forall v, arrayFetched (asString W) m key v (fetchAsStringArray W (DObj m) key v)).
Proof. intros W m key K N. splits; intros v; apply fetchArray_spec; assumption. Qed.
(** An array of entries of the function's own type arrives whole and in order. *)
Theorem C109_own_type : forall W m key, keyOk key -> NoDup (map fst m) ->
  (forall l v, In (key, DArr (map DInt l)) m -> fetchAsIntArray W (DObj m) key v = Ret (true, v ++ l)) /\
  (forall l v, In (key, DArr (map DDouble l)) m -> fetchAsDoubleArray W (DObj m) key v = Ret (true, v ++ l)) /\
  (forall l v, In (key, DArr (map DBool l)) m -> fetchAsBoolArray W (DObj m) key v = Ret (true, v ++ l)) /\
  (forall l v, In (key, DArr (map DStr l)) m -> fetchAsStringArray W (DObj m) key v = Ret (true, v ++ l)).
Proof.
  intros W m key K N.
  assert (G : forall A (conv : dyn -> option A) (mk : A -> dyn), (forall x, conv (mk x) = Some x) -> forall l v, In (key, DArr (map mk l)) m ->
    fetchArray conv (DObj m) key v = Ret (true, v ++ l)).
  { intros A conv mk C l v I. unfold fetchArray, cfind. rewrite cstr_key by exact K. cbn [obind]. rewrite (proj2 (dget_spec m key _ N) I). f_equal.
    clear I. revert v. induction l as [| x l IH]; intros v; cbn [map pushAll]; [rewrite app_nil_r; reflexivity |]. rewrite C, IH, <- app_assoc. reflexivity. }
  splits; intros l v I; (eapply G; [| exact I]); reflexivity.
Qed.
(** An integer written as text is converted like the integer. *)
Theorem C109_int_texts : forall W z, int64_min <= z <= int64_max -> asInt W (DStr (decZ z)) = Some z.
Proof.
  intros W z R. apply toInt64_decZ. exact R.
Qed.
(** It is not so that a failure leaves the caller's variable alone. *)
Theorem C109_failure_keeps_variable_refuted : exists m key v, NoDup (map fst m) /\ keyOk key /\ fetchAsIntArray W0 (DObj m) key v = Ret (false, v ++ [1]).
Proof.
  exists [(B "a", DArr [DInt 1; DNull])], (B "a"), [5]. splits; [repeat constructor; intros [] | intros [H | []]; discriminate | reflexivity].
Qed.
Example C109_ex : fetchAsIntArray W0 (DObj [(B "a", DArr [DInt 1; DStr (B " -2 "); DBool true])]) (B "a") [5] = Ret (true, [5; 1; -2; 1]) /\
  fetchAsBoolArray W0 (DObj [(B "a", DArr [DStr (B "Yes"); DInt 0; DStr (B "001")])]) (B "a") [] = Ret (true, [true; false; true]) /\
  fetchAsStringArray W0 (DObj [(B "a", DArr [DStr (B "x"); DBool true; DInt 7])]) (B "a") [] = Ret (true, [B "x"; B "1"; B "7"]).
Proof. splits; reflexivity. Qed.

(** ** C110: comments in files *)
(** A line: what counts, and maybe a comment behind it *)
Record line := mkLine { lnText : str; lnComment : str; lnEnd : str }.
Definition noEnd (s : str) : Prop := forall c, In c s -> c <> 10 /\ c <> 13.
(** no # and no // *)
Definition noMark (s : str) : Prop := ~ In 35 s /\ forall a b, s <> a ++ 47 :: 47 :: b.
Definition lineOk (l : line) : Prop :=
  noMark (lnText l) /\ (forall a, lnText l <> a ++ [47]) /\
  (lnComment l = [] \/ exists c, (lnComment l = 35 :: c \/ lnComment l = 47 :: 47 :: c) /\ noEnd (lnComment l)) /\
  In (lnEnd l) [[10]; [13; 10]; [13]].
Definition linesText (ls : list line) : str := flat_map (fun l => lnText l ++ lnComment l ++ lnEnd l) ls.
Definition linesPlain (ls : list line) : str := flat_map (fun l => lnText l ++ lnEnd l) ls.
Lemma strip_text t r : noMark t -> (forall a, t <> a ++ [47]) -> stripGo false (t ++ r) = t ++ stripGo false r.
Proof.
  induction t as [| c t IH]; intros [N1 N2] N3; [reflexivity |]. cbn [app stripGo].
  replace (c =? 35) with false by (symmetry; apply Z.eqb_neq; intros ->; apply N1; left; reflexivity).
  assert (X : (c =? 47) && (match t ++ r with d :: _ => d =? 47 | [] => false end) = false).
  { destruct (c =? 47) eqn:C; [| reflexivity]. apply Z.eqb_eq in C. subst c. cbn [andb]. destruct t as [| d t].
    - destruct (N3 [] eq_refl).
    - cbn [app]. apply Z.eqb_neq. intros ->. exact (N2 [] t eq_refl). }
  rewrite X. f_equal. apply IH.
  - split; [intros H; apply N1; right; exact H |]. intros a b E. apply (N2 (c :: a) b). rewrite E. reflexivity.
  - intros a E. apply (N3 (c :: a)). rewrite E. reflexivity.
Qed.
Lemma strip_comment c r : noEnd c -> stripGo true (c ++ r) = stripGo true r.
Proof.
  induction c as [| x c IH]; intros N; [reflexivity |]. cbn [app stripGo].
  assert (L : lineEnd x = false) by (unfold lineEnd; destruct (N x (or_introl eq_refl)); lia). rewrite L. apply IH.
  intros y H. apply N. right. exact H.
Qed.
(** Comments leave no trace: a file is taken over exactly as it would be without them. *)
Theorem C110_comments : forall ls, Forall lineOk ls -> stripComments (linesText ls) = linesPlain ls.
Proof.
  intros ls H. unfold stripComments. induction H as [| l ls (M & S & C & E) H IH]; [reflexivity |].
  cbn [linesText linesPlain flat_map]. fold (linesText ls) (linesPlain ls). rewrite <- !app_assoc. rewrite strip_text by assumption. f_equal.
  assert (EN : forall b, stripGo b (lnEnd l ++ linesText ls) = lnEnd l ++ linesPlain ls).
  { intros b. cbn [In] in E. destruct E as [<- | [<- | [<- | []]]]; destruct b; cbn [app stripGo]; change (lineEnd 10) with true; change (lineEnd 13) with true;
      cbn iota; cbn [Z.eqb Pos.eqb andb]; rewrite IH; reflexivity. }
  destruct C as [-> | (c & C & NE)]; [exact (EN false) |]. destruct C as [C | C]; rewrite C in *.
  - cbn [app stripGo Z.eqb Pos.eqb]. rewrite strip_comment; [exact (EN true) |]. intros x I. apply NE. right. exact I.
  - cbn [app stripGo Z.eqb Pos.eqb andb]. change (lineEnd 47) with false. cbn iota. rewrite strip_comment; [exact (EN true) |]. intros x I. apply NE. right. right. exact I.
Qed.
Theorem C110_file : forall W c ls, Forall lineOk ls -> ls <> [] -> ~ In 0 (linesText ls) ->
  parseFromFile W c (Some (linesText ls)) = parseFromString W c (linesPlain ls).
Proof.
  intros W c ls H NE NZ. unfold parseFromFile. rewrite cstr_id by exact NZ. rewrite C110_comments by exact H.
  destruct (linesText ls) eqn:E; [| reflexivity]. exfalso. destruct ls as [| l ls]; [contradiction |]. inversion H as [| ? ? X _]; subst. destruct X as (_ & _ & _ & I).
  cbn [linesText flat_map] in E. apply app_eq_nil in E. destruct E as [E _]. apply app_eq_nil in E. destruct E as [_ E]. apply app_eq_nil in E. destruct E as [_ E].
  rewrite E in I. cbn in I. destruct I as [I | [I | [I | []]]]; discriminate.
Qed.
(** A file that cannot be read, is empty or is not JSON changes nothing and is reported. *)
Theorem C110_failure : forall W c f, (fst (parseFromFile W c f) = true <-> exists b d, f = Some b /\ b <> [] /\ dwParse W (stripComments (cstr b)) = Some d) /\
  (fst (parseFromFile W c f) = false -> snd (parseFromFile W c f) = c).
Proof.
  intros W c [[| x b] |]; cbn [parseFromFile fst snd]; unfold parseFromString.
  - split; [split; [discriminate | intros (b & d & E & N & _); injection E as <-; contradiction] | reflexivity].
  - destruct (dwParse W (stripComments (cstr (x :: b)))) as [d |] eqn:E; cbn [fst snd]; (split; [split |]); try discriminate; try reflexivity.
    + intros _. exists (x :: b), d. splits; [reflexivity | discriminate | exact E].
    + intros (b' & d & E' & _ & E2). injection E' as <-. congruence.
  - split; [split; [discriminate | intros (b & d & E & _); discriminate] | reflexivity].
Qed.
(** It is not so that files without comments are taken over: a text with // or # in a string is cut. *)
Theorem C110_strings_refuted : exists file c, parseFromString W0 newConf file = (true, c) /\ fetchAsString c (B "url") [] = Ret (true, B "http://a") /\
  parseFromFile W0 newConf (Some file) = (false, newConf).
Proof. exists (B "{""url"":""http://a""}"). eexists. splits; [reflexivity | reflexivity | reflexivity]. Qed.
Example C110_ex : stripComments (B "{""a"":// the first" ++ [10] ++ B "7}# end") = B "{""a"":" ++ [10] ++ B "7}".
Proof. reflexivity. Qed.

Print Assumptions C108_own_type. Print Assumptions C108_upsert. Print Assumptions C108_failed_parse. Print Assumptions C108_not_an_object_refuted.
Print Assumptions C109_entries. Print Assumptions C109_own_type. Print Assumptions C109_int_texts. Print Assumptions C109_failure_keeps_variable_refuted.
Print Assumptions C110_comments. Print Assumptions C110_file. Print Assumptions C110_failure. Print Assumptions C110_strings_refuted.
