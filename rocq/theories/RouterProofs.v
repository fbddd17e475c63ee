(** Proofs about the router's patterns. *)
From Coq Require Import String List Lia ZArith Bool.
From Verif Require Import Prelude ValueBase RouterModel RouterSpec.
Import ListNotations.
Local Open Scope Z_scope.
Local Open Scope list_scope.

(** ** The matcher against a relation *)
Inductive derives : list piece -> list str -> str -> Prop :=
| dv_nil : derives [] [] []
| dv_lit c d ps cs u : litMatches c d = true -> derives ps cs u -> derives (Lit c :: ps) cs (d :: u)
| dv_par n v ps cs u : valueOk v -> derives ps cs u -> derives (Param n :: ps) (v :: cs) (v ++ u).

Lemma runLen_le s : (runLen s <= List.length s)%nat.
Proof. induction s as [| c s IH]; cbn [runLen List.length]; [lia |]. destruct (c =? 47); lia. Qed.
Lemma runLen_noslash s k : (k <= runLen s)%nat -> ~ In 47 (firstn k s).
Proof.
  revert k. induction s as [| c s IH]; intros [| k] L; cbn [firstn runLen] in *; try (intros []; fail).
  destruct (c =? 47) eqn:E; [lia |]. apply Z.eqb_neq in E. intros [H | H]; [lia |]. apply (IH k); [lia | exact H].
Qed.
Lemma runLen_app v u : ~ In 47 v -> (List.length v <= runLen (v ++ u))%nat.
Proof.
  induction v as [| c v IH]; intros N; cbn [List.length app runLen]; [lia |].
  destruct (c =? 47) eqn:E; [apply Z.eqb_eq in E; subst; destruct N; left; reflexivity |].
  assert (~ In 47 v) by (intros H; apply N; right; exact H). specialize (IH H). lia.
Qed.
Lemma runLen_exact v u : ~ In 47 v -> (u = [] \/ exists r, u = 47 :: r) -> runLen (v ++ u) = List.length v.
Proof.
  intros N U. induction v as [| c v IH]; cbn [List.length app runLen].
  - destruct U as [-> | [r ->]]; reflexivity.
  - destruct (c =? 47) eqn:E; [apply Z.eqb_eq in E; subst; destruct N; left; reflexivity |].
    f_equal. apply IH. intros H; apply N; right; exact H.
Qed.

Lemma matchHere_sound ps : forall s cs, matchHere ps s = Some cs -> exists u r, s = u ++ r /\ derives ps cs u.
Proof.
  induction ps as [| [c | n] ps IH]; intros s cs E; cbn [matchHere] in E.
  - injection E as <-. exists [], s. split; [reflexivity | constructor].
  - destruct s as [| d s]; [discriminate |]. destruct (litMatches c d) eqn:M; [| discriminate].
    destruct (IH _ _ E) as (u & r & -> & D). exists (d :: u), r. split; [reflexivity | constructor; assumption].
  - assert (G : forall k, (k <= runLen s)%nat ->
       (fix down (k : nat) : option (list str) :=
         match k with
         | O => None
         | S k' => match matchHere ps (skipn k s) with Some cs => Some (firstn k s :: cs) | None => down k' end
         end) k = Some cs -> exists u r, s = u ++ r /\ derives (Param n :: ps) cs u).
    { induction k as [| k IHk]; intros L F; [discriminate |].
      destruct (matchHere ps (skipn (S k) s)) as [cs' |] eqn:M.
      - apply (f_equal (fun o => match o with Some x => x | None => [] end)) in F. subst cs.
        destruct (IH _ _ M) as (u & r & EQ & D).
        exists (firstn (S k) s ++ u), r. split.
        + rewrite <- app_assoc, <- EQ. symmetry. apply firstn_skipn.
        + constructor; [| exact D]. split; [| apply runLen_noslash; exact L].
          pose proof (runLen_le s). destruct s; [cbn in *; lia | discriminate].
      - apply IHk; [lia | exact F]. }
    apply (G (runLen s)); [lia | exact E].
Qed.

Lemma matchHere_complete ps cs u r : derives ps cs u -> exists cs', matchHere ps (u ++ r) = Some cs'.
Proof.
  intros D. revert r. induction D as [| c d ps cs u M D IH | n v ps cs u V D IH]; intros r.
  - eexists; reflexivity.
  - cbn [matchHere app]. rewrite M. apply IH.
  - cbn [matchHere]. rewrite <- app_assoc. destruct V as [V1 V2].
    assert (L : (List.length v <= runLen (v ++ u ++ r))%nat) by (apply runLen_app; exact V2).
    assert (P : (1 <= List.length v)%nat) by (destruct v; [destruct V1; reflexivity | cbn; lia]).
    destruct (IH r) as [cs' IH'].
    revert L. generalize (runLen (v ++ u ++ r)). induction n0 as [| k IHk]; intros L; [lia |].
    destruct (Nat.eq_dec (List.length v) (S k)) as [E | E].
    + rewrite <- E. replace (skipn (List.length v) (v ++ u ++ r)) with (u ++ r)
        by (rewrite skipn_app, skipn_all, Nat.sub_diag; reflexivity).
      rewrite IH'. eexists; reflexivity.
    + destruct (matchHere ps (skipn (S k) (v ++ u ++ r))); [eexists; reflexivity | apply IHk; lia].
Qed.

Lemma derives_length ps cs u : derives ps cs u -> List.length cs = List.length (groupsOf ps).
Proof. induction 1; cbn [groupsOf List.length]; congruence. Qed.

Lemma regexSearch_sound ps s cs : regexSearch ps s = Some cs -> exists pre u post, s = pre ++ u ++ post /\ derives ps cs u.
Proof.
  induction s as [| c s IH]; cbn [regexSearch].
  - destruct (matchHere ps []) eqn:M; [| discriminate]. intros E; injection E as <-.
    destruct (matchHere_sound _ _ _ M) as (u & r & E & D). exists [], u, r. split; assumption.
  - destruct (matchHere ps (c :: s)) eqn:M; intros E.
    + injection E as <-. destruct (matchHere_sound _ _ _ M) as (u & r & E & D). exists [], u, r. split; assumption.
    + destruct (IH E) as (pre & u & post & -> & D). exists (c :: pre), u, post. split; [reflexivity | exact D].
Qed.
Lemma regexSearch_complete ps pre u post cs : derives ps cs u -> exists cs', regexSearch ps (pre ++ u ++ post) = Some cs'.
Proof.
  intros D. induction pre as [| c pre IH]; cbn [app].
  - destruct (matchHere_complete _ _ _ post D) as [cs' M]. exists cs'. destruct (u ++ post); cbn [regexSearch]; rewrite M; reflexivity.
  - cbn [regexSearch]. destruct (matchHere ps (c :: pre ++ u ++ post)); [eexists; reflexivity | exact IH].
Qed.
Lemma regexSearch_here ps s cs : matchHere ps s = Some cs -> regexSearch ps s = Some cs.
Proof. intros M. destruct s; cbn [regexSearch]; rewrite M; reflexivity. Qed.

(** ** Trailing slashes *)
Lemma lastIsSlash_app s c : lastIsSlash (s ++ [c]) = (c =? 47).
Proof. unfold lastIsSlash. rewrite rev_app_distr. reflexivity. Qed.
Definition trimSlash (p : str) : str := if (1 <? List.length p)%nat && lastIsSlash p then removelast p else p.
Lemma bare_trim p b : bare p b <-> b = trimPath p.
Proof.
  assert (T : forall a c, (a <> [] \/ c <> 47) -> trimPath (a ++ [c]) = if c =? 47 then a else a ++ [c]).
  { intros a c H. unfold trimPath. destruct (a ++ [c]) as [| x y] eqn:E; [destruct a; discriminate |]. rewrite <- E.
    rewrite lastIsSlash_app, removelast_last, app_length. cbn [List.length].
    destruct (c =? 47) eqn:C; [| rewrite andb_false_r; reflexivity]. apply Z.eqb_eq in C.
    destruct H as [H | H]; [| contradiction]. destruct a; [contradiction |]. cbn [List.length].
    replace (1 <? S (List.length a) + 1)%nat with true by (symmetry; apply Nat.ltb_lt; lia). reflexivity. }
  split.
  - intros Bp. destruct Bp as [| | a N | a c N].
    + reflexivity.
    + reflexivity.
    + rewrite T by (left; exact N). reflexivity.
    + rewrite T by (right; exact N). replace (c =? 47) with false by (symmetry; apply Z.eqb_neq; exact N). reflexivity.
  - intros ->. destruct p as [| x y] using rev_ind; [constructor |]. clear IHy.
    destruct (Z.eq_dec x 47) as [-> | N].
    + destruct y as [| z y]; [cbn; constructor |]. rewrite T by (left; discriminate). constructor. discriminate.
    + rewrite T by (right; exact N). replace (x =? 47) with false by (symmetry; apply Z.eqb_neq; exact N). constructor. exact N.
Qed.

(** ** Templates *)
Fixpoint tpieces (ss : list seg) : list piece :=
  match ss with
  | [] => []
  | Fixed t :: r => Lit 47 :: map Lit t ++ tpieces r
  | Par n :: r => Lit 47 :: Param n :: tpieces r
  end.
Lemma isLetter_spec c : isLetter c = true <-> letter c.
Proof. unfold isLetter, letter. rewrite orb_true_iff, !andb_true_iff, !Z.leb_le. lia. Qed.
Lemma isWord_spec c : isWord c = true <-> wordChar c.
Proof. unfold isWord, wordChar. rewrite !orb_true_iff, !andb_true_iff, !Z.leb_le, isLetter_spec, Z.eqb_eq. tauto. Qed.

Lemma piecesGo_lits t r : ~ In 58 t -> piecesGo None (t ++ r) = map Lit t ++ piecesGo None r.
Proof.
  induction t as [| c t IH]; intros N; [reflexivity |]. cbn [app piecesGo map].
  replace (c =? 58) with false by (symmetry; apply Z.eqb_neq; intros ->; apply N; left; reflexivity). cbn [andb].
  f_equal. apply IH. intros H; apply N; right; exact H.
Qed.
Lemma piecesGo_name w r : forall n, Forall wordChar w -> (r = [] \/ exists r', r = 47 :: r') ->
  piecesGo (Some n) (w ++ r) = Param (n ++ w) :: piecesGo None r.
Proof.
  induction w as [| c w IH]; intros n W R; cbn [app].
  - rewrite app_nil_r. destruct R as [-> | [r' ->]]; reflexivity.
  - inversion W as [| ? ? Wc W']; subst. cbn [piecesGo]. replace (isWord c) with true by (symmetry; apply isWord_spec; exact Wc).
    rewrite IH by assumption. rewrite <- app_assoc. reflexivity.
Qed.
Lemma templateText_head ss : templateText ss = [] \/ exists r, templateText ss = 47 :: r.
Proof. destruct ss as [| s ss]; [left; reflexivity | right; eexists; reflexivity]. Qed.
Lemma plainText_no t c : plainText t -> In c (B "/:.^$\*+?()[]{}|") -> ~ In c t.
Proof. intros [_ P] I H. rewrite Forall_forall in P. exact (P c H I). Qed.
Lemma piecesGo_template ss r : Forall segOk ss -> (r = [] \/ exists r', r = 47 :: r') ->
  piecesGo None (templateText ss ++ r) = tpieces ss ++ piecesGo None r.
Proof.
  intros W R. induction ss as [| [t | n] ss IH]; [reflexivity | |]; inversion W as [| ? ? W1 W2]; subst;
    cbn [templateText flat_map segText tpieces]; fold (templateText ss).
  - change (B "/" ++ t) with (47 :: t). rewrite <- app_assoc. cbn [app].
    change (47 :: t ++ templateText ss ++ r) with ([47] ++ (t ++ templateText ss ++ r)).
    rewrite piecesGo_lits by (intros [H | []]; discriminate). cbn [map app]. f_equal. rewrite <- app_assoc.
    rewrite piecesGo_lits, IH by (assumption || (eapply plainText_no; [exact W1 | cbn; tauto])). reflexivity.
  - destruct W1 as (c & w & -> & Lc & Ww). rewrite <- app_assoc.
    change ((B "/" ++ B ":" ++ c :: w) ++ templateText ss ++ r) with ([47] ++ (58 :: c :: w ++ templateText ss ++ r)).
    rewrite piecesGo_lits by (intros [H | []]; discriminate). cbn [map app]. f_equal.
    cbn [piecesGo startsLetter]. rewrite (proj2 (isLetter_spec c) Lc). cbn [Z.eqb Pos.eqb andb].
    rewrite (proj2 (isWord_spec c) (or_introl Lc)).
    rewrite piecesGo_name; [| assumption | destruct (templateText_head ss) as [E | [r' E]]; rewrite E; [exact R | right; eexists; reflexivity]].
    rewrite IH by assumption. reflexivity.
Qed.
Lemma pieces_template ss : Forall segOk ss -> pieces (templateText ss) = tpieces ss.
Proof.
  intros W. pose proof (piecesGo_template ss [] W (or_introl eq_refl)) as H. rewrite !app_nil_r in H. exact H.
Qed.
Lemma groups_tpieces ss : groupsOf (tpieces ss) = parNames ss.
Proof.
  induction ss as [| [t | n] ss IH]; cbn [tpieces groupsOf parNames]; [reflexivity | | congruence].
  rewrite <- IH. induction t; cbn [map app groupsOf]; [reflexivity | assumption].
Qed.

Lemma litMatches_plain t c d : plainText t -> In c t -> litMatches c d = true <-> d = c.
Proof.
  intros P I. unfold litMatches. replace (c =? 46) with false; [rewrite Z.eqb_eq; split; congruence |].
  symmetry. apply Z.eqb_neq. intros ->. revert I. eapply plainText_no; [exact P | cbn; tauto].
Qed.
Lemma derives_lits t ps cs u : Forall (fun c => c <> 46) t -> derives (map Lit t ++ ps) cs u <-> exists u', u = t ++ u' /\ derives ps cs u'.
Proof.
  revert u. induction t as [| c t IH]; intros u P; cbn [map app].
  - split; [intros D; exists u; split; [reflexivity | exact D] | intros (u' & -> & D); exact D].
  - inversion P as [| ? ? Pc Pt]; subst. split.
    + intros D. inversion D as [| ? d ? ? u0 M D' |]; subst. unfold litMatches in M.
      replace (c =? 46) with false in M by (symmetry; apply Z.eqb_neq; exact Pc). apply Z.eqb_eq in M. subst d.
      apply IH in D'; [| exact Pt]. destruct D' as (u' & -> & D'). exists u'. split; [reflexivity | exact D'].
    + intros (u' & -> & D). constructor.
      * unfold litMatches. replace (c =? 46) with false by (symmetry; apply Z.eqb_neq; exact Pc). apply Z.eqb_refl.
      * apply IH; [exact Pt |]. exists u'. split; [reflexivity | exact D].
Qed.
Lemma plain_nodot t : plainText t -> Forall (fun c => c <> 46) t.
Proof.
  intros P. apply Forall_forall. intros c I ->. revert I. eapply plainText_no; [exact P | cbn; tauto].
Qed.
Lemma derives_slash ps cs u : derives (Lit 47 :: ps) cs u <-> exists u', u = 47 :: u' /\ derives ps cs u'.
Proof.
  pose proof (derives_lits [47] ps cs u) as H. cbn [map app] in H. apply H. constructor; [discriminate | constructor].
Qed.
Lemma derives_instance ss cs u : Forall segOk ss -> derives (tpieces ss) cs u <-> instance ss cs u.
Proof.
  revert cs u. induction ss as [| [t | n] ss IH]; intros cs u W; cbn [tpieces].
  - split; intros D; inversion D; constructor.
  - inversion W as [| ? ? W1 W2]; subst. rewrite derives_slash. split.
    + intros (u' & -> & D). apply derives_lits in D; [| apply plain_nodot; exact W1]. destruct D as (u'' & -> & D).
      apply IH in D; [| exact W2]. exact (inst_fixed t ss cs u'' D).
    + intros D. inversion D as [| ? ? ? p D' |]; subst. exists (t ++ p). split; [reflexivity |].
      apply derives_lits; [apply plain_nodot; exact W1 |]. exists p. split; [reflexivity |]. apply IH; assumption.
  - inversion W as [| ? ? W1 W2]; subst. rewrite derives_slash. split.
    + intros (u' & -> & D). inversion D as [| | ? v ? cs' p V D']; subst. apply IH in D'; [| exact W2].
      exact (inst_par n v ss cs' p V D').
    + intros D. inversion D as [| | ? v ? cs' p V D']; subst. exists (v ++ p). split; [reflexivity |].
      constructor; [exact V |]. apply IH; assumption.
Qed.

Lemma instance_head ss vs p : instance ss vs p -> p = [] \/ exists r, p = 47 :: r.
Proof. intros D. destruct D; [left; reflexivity | right; eexists; reflexivity | right; eexists; reflexivity]. Qed.
Lemma matchHere_lits t ps s : Forall (fun c => c <> 46) t -> matchHere (map Lit t ++ ps) (t ++ s) = matchHere ps s.
Proof.
  induction t as [| c t IH]; intros P; [reflexivity |]. inversion P as [| ? ? Pc Pt]; subst.
  cbn [map app matchHere]. unfold litMatches. replace (c =? 46) with false by (symmetry; apply Z.eqb_neq; exact Pc).
  rewrite Z.eqb_refl. apply IH. exact Pt.
Qed.
(** An exact instance, maybe with a slash behind it, is read back with its own values. *)
Lemma matchHere_exact ss vs p tl : Forall segOk ss -> instance ss vs p -> (tl = [] \/ exists r, tl = 47 :: r) ->
  matchHere (tpieces ss) (p ++ tl) = Some vs.
Proof.
  intros W D T. induction D as [| t ss vs p D IH | n v ss vs p V D IH]; cbn [tpieces].
  - reflexivity.
  - inversion W as [| ? ? W1 W2]; subst. change (B "/" ++ t ++ p) with (47 :: t ++ p). cbn [app matchHere]. change (litMatches 47 47) with true. cbn iota.
    rewrite <- app_assoc, matchHere_lits by (apply plain_nodot; exact W1). apply IH. exact W2.
  - inversion W as [| ? ? W1 W2]; subst. change (B "/" ++ v ++ p) with (47 :: v ++ p). cbn [app matchHere]. change (litMatches 47 47) with true. cbn iota.
    rewrite <- app_assoc. destruct V as [V1 V2].
    rewrite runLen_exact; [| exact V2 | destruct (instance_head _ _ _ D) as [-> | [r ->]]; [exact T | right; eexists; reflexivity]].
    assert (LV : exists k, List.length v = S k) by (destruct v as [| c v0]; [contradiction | exists (List.length v0); reflexivity]).
    destruct LV as [k LV].
    assert (SK : skipn (S k) (v ++ p ++ tl) = p ++ tl) by (rewrite <- LV, skipn_app, skipn_all, Nat.sub_diag; reflexivity).
    assert (FK : firstn (S k) (v ++ p ++ tl) = v) by (rewrite <- LV, firstn_app, firstn_all, Nat.sub_diag, firstn_O, app_nil_r; reflexivity).
    rewrite LV, SK, FK, IH by exact W2. reflexivity.
Qed.

(** ** Counting slashes *)
Fixpoint slashes (s : str) : nat := match s with [] => O | c :: s' => ((if Z.eqb c 47 then 1 else 0) + slashes s')%nat end.
Lemma slashes_app a b : slashes (a ++ b) = (slashes a + slashes b)%nat.
Proof. induction a as [| c a IH]; cbn [app slashes]; lia. Qed.
Lemma slashes_none v : ~ In 47 v -> slashes v = O.
Proof.
  induction v as [| c v IH]; intros N; cbn [slashes]; [reflexivity |].
  destruct (c =? 47) eqn:E; [apply Z.eqb_eq in E; subst; destruct N; left; reflexivity |].
  rewrite IH; [reflexivity |]. intros H; apply N; right; exact H.
Qed.
Lemma instance_slashes ss vs p : Forall segOk ss -> instance ss vs p -> slashes p = List.length ss.
Proof.
  intros W D. induction D as [| t ss vs p D IH | n v ss vs p V D IH]; [reflexivity | |]; inversion W as [| ? ? W1 W2]; subst;
    change (B "/") with [47]; rewrite !slashes_app; cbn [slashes List.length Z.eqb Pos.eqb]; rewrite IH by exact W2.
  - rewrite slashes_none by (eapply plainText_no; [exact W1 | cbn; tauto]). lia.
  - rewrite slashes_none by exact (proj2 V). lia.
Qed.
Lemma derives_app ps qs cs u : derives (ps ++ qs) cs u -> exists cs1 u1 cs2 u2, cs = cs1 ++ cs2 /\ u = u1 ++ u2 /\ derives ps cs1 u1 /\ derives qs cs2 u2.
Proof.
  revert cs u. induction ps as [| [c | n] ps IH]; intros cs u D; cbn [app] in D.
  - exists [], [], cs, u. splits; try reflexivity; [constructor | exact D].
  - inversion D as [| ? d ? ? u0 M D' |]; subst. destruct (IH _ _ D') as (c1 & u1 & c2 & u2 & -> & -> & D1 & D2).
    exists c1, (d :: u1), c2, u2. splits; try reflexivity; [constructor; assumption | exact D2].
  - inversion D as [| | ? v ? cs0 u0 V D']; subst. destruct (IH _ _ D') as (c1 & u1 & c2 & u2 & -> & -> & D1 & D2).
    exists (v :: c1), (v ++ u1), c2, u2. splits; try reflexivity; [apply app_assoc | constructor; assumption | exact D2].
Qed.
