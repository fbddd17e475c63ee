(** Properties C74 (removing files and directories) and C75 (making directories). *)
From Coq Require Import String List.
From Verif Require Import Prelude ValueBase ValueProofs AssocModel PathModel PathProps FsModel.
Import ListNotations.
Open Scope Z_scope.

Lemma node_ind' (P : node -> Prop) :
  (forall f, P (NFile f)) -> (forall f, P (NLink f)) -> P NSpecial ->
  (forall f es, Forall (fun e => P (snd e)) es -> P (NDir f es)) -> forall n, P n.
Proof.
  intros H1 H2 H3 H4. fix IH 1. intros [f|f| |f es]; [apply H1|apply H2|exact H3|]. apply H4.
  induction es as [|[k m] es IHes]; constructor; [apply IH|exact IHes].
Qed.

(** * C74: specification *)
(** everything can be removed: no devices, fifos and sockets, nothing the system protects *)
Fixpoint removable (n : node) : Prop :=
  match n with
  | NFile f | NLink f => f = false
  | NSpecial => False
  | NDir f es => f = false /\ (fix all (l : list (str * node)) : Prop := match l with [] => True | (_, m) :: l' => removable m /\ all l' end) es
  end.
Definition subDirs (n : node) : Prop := match n with NDir _ es => exists k f es', In (k, NDir f es') es | _ => False end.
(** [part n' n]: n' is what is left of n when some entries are taken away *)
Inductive part : node -> node -> Prop :=
| part_same n : part n n
| part_dir f es es' : parts es' es -> part (NDir f es') (NDir f es)
with parts : list (str * node) -> list (str * node) -> Prop :=
| parts_nil : parts [] []
| parts_keep k n n' es es' : part n' n -> parts es' es -> parts ((k, n') :: es') ((k, n) :: es)
| parts_drop e es es' : parts es' es -> parts es' (e :: es).

Lemma removable_dir f es : removable (NDir f es) <-> f = false /\ forall k m, In (k, m) es -> removable m.
Proof.
  cbn [removable]. split; intros [H1 H2]; (split; [exact H1|]).
  - induction es as [|[k0 m0] es IH]; intros k m Hin; [destruct Hin|]. destruct H2 as [Ha Hb]. destruct Hin as [E | Hin]; [injection E as <- <-; exact Ha|exact (IH Hb k m Hin)].
  - induction es as [|[k0 m0] es IH]; [exact I|]. split; [apply (H2 k0), in_eq|]. apply IH. intros k m Hin. apply (H2 k). right. exact Hin.
Qed.

(** * The code *)
Definition loopOf (r : bool) :=
  fix loop (es : list (str * node)) : list (str * node) * bool :=
    match es with
    | [] => ([], true)
    | (nm, c) :: es' =>
        if isDirNode c && negb r then (es, false)
        else
          let (left, ok) := remove r c in
          if ok then loop es'
          else (match left with Some c' => (nm, c') :: es' | None => es' end, false)
    end.
Lemma remove_dir r f es : remove r (NDir f es) =
  let (left, ok) := loopOf r es in if ok then (if f then (Some (NDir f left), false) else (None, true)) else (Some (NDir f left), false).
Proof. reflexivity. Qed.
Lemma loop_cons r k c es : loopOf r ((k, c) :: es) =
  if isDirNode c && negb r then ((k, c) :: es, false)
  else let (left, ok) := remove r c in if ok then loopOf r es else (match left with Some c' => (k, c') :: es | None => es end, false).
Proof. reflexivity. Qed.
Lemma loop_true r es left : loopOf r es = (left, true) -> left = [].
Proof.
  induction es as [|[k c] es IH]; [intros H; injection H as <-; reflexivity|]. rewrite loop_cons. destruct (isDirNode c && negb r); [discriminate|].
  destruct (remove r c) as [l ok]. destruct ok; [exact IH|discriminate].
Qed.
(** The result is true exactly if nothing is left. *)
Theorem C74_true_means_gone : forall r n, snd (remove r n) = true <-> fst (remove r n) = None.
Proof.
  intros r n. destruct n as [f|f| |f es]; try (destruct f; cbn; split; congruence); [cbn; split; congruence|]. rewrite remove_dir.
  destruct (loopOf r es) as [left ok]. destruct ok, f; cbn; split; congruence.
Qed.
Lemma parts_refl es : parts es es.
Proof. induction es as [|[k n] es IH]; constructor; [constructor|exact IH]. Qed.
(** Whatever happens, what is left is part of what was there. *)
Theorem C74_left_is_part : forall r n n', fst (remove r n) = Some n' -> part n' n.
Proof.
  intros r n. induction n as [f|f| |f es IH] using node_ind'; intros n' H; try (destruct f; cbn in H; [injection H as <-; constructor|discriminate]); [injection H as <-; constructor|].
  assert (L : parts (fst (loopOf r es)) es).
  { clear H. induction es as [|[k c] es IHes]; [constructor|]. inversion IH as [|? ? IH1 IH2]; subst. rewrite loop_cons. destruct (isDirNode c && negb r); [apply parts_refl|].
    pose proof (C74_true_means_gone r c) as G. cbn [snd] in IH1. destruct (remove r c) as [l ok]. destruct ok; [apply parts_drop, IHes, IH2|]. cbn [fst] in *.
    destruct l as [c'|]; [apply parts_keep; [apply IH1; reflexivity|apply parts_refl]|apply parts_drop, parts_refl]. }
  rewrite remove_dir in H. destruct (loopOf r es) as [left ok]. cbn [fst] in L. destruct ok, f; cbn in H; try discriminate; injection H as <-; constructor; exact L.
Qed.
Lemma loop_all r es : snd (loopOf r es) = true <-> forall k c, In (k, c) es -> (isDirNode c && negb r) = false /\ snd (remove r c) = true.
Proof.
  induction es as [|[k0 c0] es IH]; [cbn; split; [intros _ k c []|reflexivity]|]. rewrite loop_cons. destruct (isDirNode c0 && negb r) eqn:E.
  - cbn. split; [discriminate|]. intros H. destruct (H k0 c0 (or_introl eq_refl)). congruence.
  - destruct (remove r c0) as [l ok] eqn:R. destruct ok.
    + rewrite IH. split; intros H k c; [intros [X | X]; [injection X as <- <-; rewrite R; auto|exact (H k c X)]|intros X; apply (H k c); right; exact X].
    + cbn. split; [discriminate|]. intros H. destruct (H k0 c0 (or_introl eq_refl)) as [_ X]. rewrite R in X. discriminate.
Qed.
(** With recursively a tree is removed exactly if everything in it can be removed, ... *)
Theorem C74_recursive_exact : forall n, snd (remove true n) = true <-> removable n.
Proof.
  intros n. induction n as [f|f| |f es IH] using node_ind'; try (destruct f; cbn; split; congruence); [cbn; split; [discriminate|intros []]|].
  rewrite removable_dir, remove_dir. pose proof (loop_all true es) as L. destruct (loopOf true es) as [left ok]. cbn [snd] in L.
  rewrite Forall_forall in IH. transitivity (f = false /\ ok = true).
  - destruct ok, f; cbn; intuition congruence.
  - rewrite L. split; intros [H1 H2]; (split; [exact H1|]); intros k c Hin.
    + destruct (H2 k c Hin) as [_ X]. apply (IH (k, c) Hin) in X. exact X.
    + rewrite andb_false_r. split; [reflexivity|]. apply (IH (k, c) Hin). exact (H2 k c Hin).
Qed.
(** ... and without it exactly if in addition there are no directories below. *)
Theorem C74_flat_exact : forall n, snd (remove false n) = true <-> removable n /\ ~ subDirs n.
Proof.
  intros n. destruct n as [f|f| |f es]; try (destruct f; cbn; split; intuition congruence); [cbn; split; [discriminate|tauto]|].
  rewrite removable_dir, remove_dir. pose proof (loop_all false es) as L. destruct (loopOf false es) as [left ok]. cbn [snd] in L.
  transitivity (f = false /\ ok = true).
  - destruct ok, f; cbn; intuition congruence.
  - rewrite L. unfold subDirs. split.
    + intros [H1 H2]. splits; [exact H1| |].
      * intros k m Hin. destruct (H2 k m Hin) as [X Y]. destruct m as [g|g| |g es']; cbn in *; try discriminate; destruct g; cbn in *; congruence.
      * intros (k & g & es' & Hin). destruct (H2 k _ Hin) as [X _]. discriminate.
    + intros [[H1 H2] H3]. split; [exact H1|]. intros k c Hin. destruct c as [g|g| |g es']; cbn; try (pose proof (H2 k _ Hin) as X; cbn in X; subst; split; reflexivity).
      * destruct (H2 k _ Hin).
      * exfalso. apply H3. eauto.
Qed.
(** Without recursively no directory below is touched. *)
Theorem C74_flat_keeps_subdirs : forall f es n' k g sub, fst (remove false (NDir f es)) = Some n' -> In (k, NDir g sub) es ->
  exists es', n' = NDir f es' /\ In (k, NDir g sub) es'.
Proof.
  intros f es n' k g sub H Hin. rewrite remove_dir in H.
  assert (L : In (k, NDir g sub) (fst (loopOf false es))).
  { clear H. induction es as [|[k0 c] es IH]; [destruct Hin|]. rewrite loop_cons. destruct (isDirNode c) eqn:D; cbn [andb negb]; [exact Hin|].
    destruct Hin as [E | Hin]; [injection E as -> ->; discriminate D|]. destruct (remove false c) as [l ok]. destruct ok; [exact (IH Hin)|]. cbn [fst]. destruct l; [right|]; exact Hin. }
  destruct (loopOf false es) as [left ok]. cbn [fst] in L. destruct ok, f; cbn in H; try discriminate; injection H as <-; eauto.
Qed.
Definition ex_tree : node := NDir false [(B "a", NFile false); (B "d", NDir false [(B "b", NLink false)]); (B "c", NFile false)].
Example C74_ex : remove true ex_tree = (None, true) /\ removable ex_tree /\
  remove false ex_tree = (Some (NDir false [(B "d", NDir false [(B "b", NLink false)]); (B "c", NFile false)]), false).
Proof. split; [reflexivity|]. split; [cbn; tauto|reflexivity]. Qed.
(** The documentation (FileUtils.h:89-92) says that without recursively the removal of a directory that is not empty
    fails. It does not: the files are removed. *)
Theorem C74_nonempty_directory_refuted : exists k m, remove false (NDir false [(k, m)]) = (None, true).
Proof. exists (B "data"), (NFile false). reflexivity. Qed.
(** And a removal that fails because of a directory below has already removed files. *)
Theorem C74_failed_removal_refuted : exists n n', snd (remove false n) = false /\ fst (remove false n) = Some n' /\ n' <> n.
Proof. exists ex_tree. eexists. split; [reflexivity|]. split; [reflexivity|]. vm_compute. congruence. Qed.

(** * C75 *)
Lemma pieces_app a b : forall cur, pieces (a ++ slash :: b) cur = pieces a cur ++ pieces b [].
Proof.
  induction a as [|c a IH]; intros cur; cbn [app pieces]; [rewrite Z.eqb_refl; reflexivity|]. destruct (c =? slash); [rewrite IH; reflexivity|apply IH].
Qed.
Lemma names_app a b : names (a ++ slash :: b) = names a ++ names b.
Proof. unfold names. rewrite pieces_app. apply filter_app. Qed.
Lemma pieces_one b : forall cur, ~ In slash b -> pieces b cur = [cur ++ b].
Proof.
  induction b as [|c b IH]; intros cur H; cbn [pieces]; [rewrite app_nil_r; reflexivity|].
  assert (c =? slash = false) as -> by (apply Z.eqb_neq; intros ->; apply H; left; reflexivity). rewrite IH by (intros X; apply H; right; exact X). rewrite <- app_assoc. reflexivity.
Qed.
Definition realName (b : str) : bool := negb (strEqb b [] || strEqb b (B ".")).
Lemma names_one b : ~ In slash b -> names b = if realName b then [b] else [].
Proof. intros H. unfold names. rewrite pieces_one by assumption. cbn [app filter]. unfold realName. destruct (negb _); reflexivity. Qed.
Lemma names_strip s : names (stripSlash s) = names s.
Proof.
  destruct (stripSlash_cases s) as [[-> _] | E]; [reflexivity|]. rewrite E at 2. change [slash] with (slash :: []). rewrite names_app. cbn. rewrite app_nil_r. reflexivity.
Qed.
(** The parent of a path resolves to all its names but the last one. *)
Lemma resolve_divide cwd p : p <> [] -> resolve cwd p <> [] ->
  let parent := fst (dividePath p) in
  exists last, resolve cwd p = (match parent with [] => cwd | _ => resolve cwd parent end) ++ last /\ (List.length last <= 1)%nat.
Proof.
  intros Hp Hr. cbv zeta. unfold dividePath. destruct (strEqb p []) eqn:E1; [apply strEqb_eq in E1; contradiction|].
  destruct (strEqb p [slash]) eqn:E2; [apply strEqb_eq in E2; subst; cbn in Hr; contradiction|]. cbn [orb].
  assert (R : forall q, q <> [] -> resolve cwd q = (if hd 0 q =? slash then [] else cwd) ++ names q).
  { intros [|c q] Hq; [contradiction|]. cbn [resolve hd]. destruct (c =? slash); reflexivity. }
  destruct (splitLast (stripSlash p)) as [[a b]|] eqn:E; cbn [fst].
  - apply splitLast_Some in E. destruct E as [E Hb]. rewrite (R p Hp). rewrite <- (names_strip p), E, names_app, (names_one b Hb).
    assert (Hd : hd 0 p = hd 0 (a ++ [slash])).
    { destruct (stripSlash_cases p) as [[X _] | X]; rewrite E in X.
      - rewrite <- X. destruct a; reflexivity.
      - rewrite X. destruct a; reflexivity. }
    rewrite Hd. exists (if realName b then [b] else []). split; [|destruct (realName b); cbn; lia].
    destruct a as [|c a]; cbn [List.length Nat.eqb].
    + cbn [app hd]. rewrite Z.eqb_refl. reflexivity.
    + rewrite (R (c :: a)) by discriminate. cbn [app hd]. rewrite <- app_assoc. reflexivity.
  - apply splitLast_None in E. rewrite (R p Hp), <- (names_strip p), (names_one _ E). exists (if realName (stripSlash p) then [stripSlash p] else []). split; [|destruct (realName _); cbn; lia].
    assert (hd 0 p =? slash = false) as ->; [|reflexivity]. apply Z.eqb_neq. intros X. apply E.
    destruct (stripSlash_cases p) as [[Y _] | Y].
    + rewrite Y. destruct p; [contradiction|]. cbn in X. left. exact X.
    + destruct (stripSlash p) as [|c s] eqn:S; [rewrite Y in E2; discriminate|]. rewrite Y in X. cbn in X. left. exact X.
Qed.

Lemma insertDir_spec cs : forall n n', insertDir n cs = Some n' ->
  kindAt n cs = None /\ kindAt n' cs = Some KDir /\ forall q, q <> cs -> kindAt n' q = kindAt n q.
Proof.
  induction cs as [|c cs IH]; intros n n' H; [discriminate|]. cbn [insertDir] in H. destruct n as [f|f| |f es]; try discriminate.
  destruct (aget strEqb c es) as [m|] eqn:E.
  - destruct (insertDir m cs) as [m'|] eqn:Em; [|discriminate]. injection H as <-. destruct (IH m m' Em) as (I1 & I2 & I3). cbn [kindAt].
    rewrite E, (aget_aset strEqb strEqb_eq), strEqb_refl. splits; [exact I1|exact I2|]. intros [|q0 q] Hq; [reflexivity|]. cbn [kindAt]. rewrite (aget_aset strEqb strEqb_eq).
    destruct (strEqb q0 c) eqn:Eq; [|reflexivity]. apply strEqb_eq in Eq. subst q0. rewrite E. apply I3. congruence.
  - destruct cs as [|c' cs]; [|discriminate]. injection H as <-. cbn [kindAt]. rewrite E, (aget_aset strEqb strEqb_eq), strEqb_refl. splits; [reflexivity|reflexivity|].
    intros [|q0 q] Hq; [reflexivity|]. cbn [kindAt]. rewrite (aget_aset strEqb strEqb_eq). destruct (strEqb q0 c) eqn:Eq; [|reflexivity]. apply strEqb_eq in Eq. subst q0. rewrite E.
    destruct q; [congruence|reflexivity].
Qed.
Lemma insertDir_ok cs c : forall n, kindAt n cs = Some KDir -> kindAt n (cs ++ [c]) = None -> insertDir n (cs ++ [c]) <> None.
Proof.
  induction cs as [|c0 cs IH]; intros n H1 H2; cbn [app kindAt insertDir] in *.
  - destruct n as [f|f| |f es]; try discriminate. destruct (aget strEqb c es); [discriminate|congruence].
  - destruct n as [f|f| |f es]; try discriminate. destruct (aget strEqb c0 es) as [m|]; [|discriminate]. specialize (IH m H1 H2). destruct (insertDir m (cs ++ [c])); congruence.
Qed.
Lemma kindAt_prefix a b : forall n k, kindAt n (a ++ b) = Some k -> b <> [] -> kindAt n a = Some KDir.
Proof.
  induction a as [|c a IH]; intros n k H Hb; cbn [app kindAt] in *.
  - destruct b; [contradiction|]. cbn in H. destruct n as [f|f| |f es]; try discriminate. reflexivity.
  - destruct n as [f|f| |f es]; try discriminate. destruct (aget strEqb c es) as [m|]; [|discriminate]. exact (IH m k H Hb).
Qed.
Lemma blocked_spec cs : forall n, blocked n cs = true -> exists a b k, cs = a ++ b /\ b <> [] /\ kindAt n a = Some k /\ k <> KDir.
Proof.
  induction cs as [|c cs IH]; intros n H; [discriminate|]. cbn in H. destruct n as [f|f| |f es].
  - exists [], (c :: cs), KFile. splits; try reflexivity; discriminate.
  - exists [], (c :: cs), KLink. splits; try reflexivity; discriminate.
  - exists [], (c :: cs), KSpecial. splits; try reflexivity; discriminate.
  - destruct (aget strEqb c es) as [m|] eqn:E; [|discriminate]. destruct (IH m H) as (a & b & k & -> & Hb & Hk & Hd). exists (c :: a), b, k. splits; auto. cbn. rewrite E. exact Hk.
Qed.

(** ** Specification *)
(** On the way to [cs] there is nothing but directories (and then nothing at all). *)
Definition clearWay (t : node) (cs : list str) : Prop := forall a b k, cs = a ++ b -> kindAt t a = Some k -> k = KDir.
Definition isPrefixOf (a cs : list str) : Prop := exists b, cs = a ++ b.
(** [t'] is [t] with the directories on the way to [cs], and [cs] itself, added where they were missing. *)
Definition madeWay (t t' : node) (cs : list str) : Prop :=
  (forall q, isPrefixOf q cs -> kindAt t' q = Some KDir) /\ (forall q, ~ isPrefixOf q cs -> kindAt t' q = kindAt t q).

Lemma fileType_dir cwd t p : kindAt t (resolve cwd p) = Some KDir -> fileType cwd t p = TKind KDir.
Proof.
  intros H. unfold fileType. rewrite H. destruct (blocked t (resolve cwd p)) eqn:E; [|reflexivity].
  exfalso. apply blocked_spec in E. destruct E as (a & b & k & E & Hb & Hk & Hd). rewrite E in H. apply kindAt_prefix in H; [congruence|assumption].
Qed.
Lemma fileType_clear cwd t p : clearWay t (resolve cwd p) ->
  fileType cwd t p = match kindAt t (resolve cwd p) with Some _ => TKind KDir | None => TNotExist end.
Proof.
  intros H. unfold fileType. destruct (blocked t (resolve cwd p)) eqn:E.
  - exfalso. apply blocked_spec in E. destruct E as (a & b & k & E & Hb & Hk & Hd). apply Hd, (H a b k E Hk).
  - destruct (kindAt t (resolve cwd p)) as [k|] eqn:K; [|reflexivity]. rewrite (H _ [] k (eq_sym (app_nil_r _)) K). reflexivity.
Qed.
Lemma madeWay_refl t cs : kindAt t cs = Some KDir -> madeWay t t cs.
Proof.
  intros H. split; [|auto]. intros q (b & E). destruct b as [|x b]; [rewrite app_nil_r in E; congruence|]. rewrite E in H. apply kindAt_prefix in H; [assumption|discriminate].
Qed.
Lemma makes_the_way : forall fuel cwd t dir, (List.length dir < fuel)%nat -> dir <> [] -> kindAt t cwd = Some KDir ->
  clearWay t (resolve cwd dir) ->
  exists t', makeDir fuel (fun _ => true) cwd t dir = Ret (t', true) /\ madeWay t t' (resolve cwd dir).
Proof.
  intros fuel cwd t. induction fuel as [|fuel IH]; intros dir L Nd Hc Hw; [lia|]. cbn [makeDir].
  destruct dir as [|c0 dir0] eqn:Ed; [contradiction|]. rewrite <- Ed in *. assert (Hdir : forall A (x y : A), match dir with [] => x | _ :: _ => y end = y) by (intros; rewrite Ed; reflexivity).
  rewrite (fileType_clear cwd t dir Hw).
  destruct (kindAt t (resolve cwd dir)) as [k|] eqn:K.
  { exists t. split; [reflexivity|]. apply madeWay_refl. rewrite K. f_equal. exact (Hw _ [] k (eq_sym (app_nil_r _)) K). }
  assert (Hr : resolve cwd dir <> []).
  { intros E. rewrite E in K. cbn in K. discriminate. }
  destruct (resolve_divide cwd dir Nd Hr) as (last & E & Ll). pose proof (C58_parent_shorter dir Nd) as Sh.
  destruct (dividePath dir) as [parent child]. cbn [fst] in *.
  assert (Hp : exists t1, (match parent with [] => Ret (t, true) | _ :: _ => makeDir fuel (fun _ => true) cwd t parent end) = Ret (t1, true) /\
     madeWay t t1 (match parent with [] => cwd | _ => resolve cwd parent end)).
  { destruct parent as [|x parent]; [exists t; split; [reflexivity|apply madeWay_refl, Hc]|]. apply IH; [lia|discriminate|assumption|].
    intros a b k Ea Ka. apply (Hw a (b ++ last) k); [rewrite E, Ea, app_assoc; reflexivity|exact Ka]. }
  destruct Hp as (t1 & -> & M1). cbn [obind negb]. set (base := match parent with [] => cwd | _ => resolve cwd parent end) in *. clearbody base.
  destruct last as [|x [|y last]]; [| |cbn in Ll; lia].
  - rewrite app_nil_r in E. rewrite E in *. destruct (insertDir t1 base) as [t2|] eqn:I.
    + exfalso. apply insertDir_spec in I. destruct I as [I _]. destruct M1 as [M1 _]. rewrite M1 in I; [discriminate|]. exists []. rewrite app_nil_r. reflexivity.
    + exists t1. rewrite (fileType_dir cwd t1 dir); [split; [reflexivity|exact M1]|]. rewrite E. apply M1. exists []. rewrite app_nil_r. reflexivity.
  - destruct M1 as [M1 M2]. rewrite E in *.
    assert (K1 : kindAt t1 (base ++ [x]) = None).
    { rewrite M2; [exact K|]. intros (b & X). apply (f_equal (@List.length str)) in X. rewrite !app_length in X. cbn in X. lia. }
    destruct (insertDir t1 (base ++ [x])) as [t2|] eqn:I; [|exfalso; revert I; apply insertDir_ok; [apply M1; exists []; rewrite app_nil_r; reflexivity|exact K1]].
    exists t2. split; [reflexivity|]. apply insertDir_spec in I. destruct I as (_ & I2 & I3). split.
    + intros q (b & X). destruct b as [|z b _] using rev_ind; [rewrite app_nil_r in X; subst q; exact I2|].
      rewrite app_assoc in X. apply app_inj_tail in X. destruct X as [X <-]. rewrite I3; [apply M1; exists b; exact X|]. intros ->. apply (f_equal (@List.length str)) in X. rewrite !app_length in X. cbn in X. lia.
    + intros q Hq. rewrite I3 by (intros ->; apply Hq; exists []; rewrite app_nil_r; reflexivity). apply M2. intros (b & X). apply Hq. exists (b ++ [x]). rewrite X, app_assoc. reflexivity.
Qed.
(** makeDir makes the directory and all that is missing on the way to it, and changes nothing else: for every path
    without "..", whose way is not blocked by something that is not a directory. *)
Theorem C75_makes_the_way : forall cwd t dir, dir <> [] -> kindAt t cwd = Some KDir ->
  ~ In (B "..") (names dir) -> clearWay t (resolve cwd dir) ->
  exists t', makeDir (S (List.length dir)) (fun _ => true) cwd t dir = Ret (t', true) /\ madeWay t t' (resolve cwd dir).
Proof. intros cwd t dir Nd Hc _ Hw. apply makes_the_way; auto. Qed.
(** It always comes to an end, whatever the path, the tree and the permissions, ... *)
Theorem C75_ends : forall may cwd t dir fuel, (List.length dir < fuel)%nat -> exists t' ok, makeDir fuel may cwd t dir = Ret (t', ok).
Proof.
  intros may cwd t dir fuel. revert dir. induction fuel as [|fuel IH]; intros dir L; [lia|]. cbn [makeDir]. destruct dir as [|c0 dir0] eqn:Ed; [eauto|]. rewrite <- Ed in *.
  destruct (fileType cwd t dir) as [| |[]]; eauto. pose proof (C58_parent_shorter dir ltac:(subst; discriminate)) as Sh. destruct (dividePath dir) as [parent child]. cbn [fst] in Sh.
  assert (P : exists t1 ok, (match parent with [] => Ret (t, true) | _ :: _ => makeDir fuel may cwd t parent end) = Ret (t1, ok)).
  { destruct parent as [|x parent]; [eauto|]. apply IH. lia. }
  destruct P as (t1 & ok & ->). cbn [obind]. destruct ok; cbn [negb]; [|eauto]. destruct (if may (resolve cwd dir) then insertDir t1 (resolve cwd dir) else None); eauto.
Qed.
(** ... and when it answers true there is a directory, or a link. It never removes or changes anything that exists. *)
Theorem C75_true_means_there : forall fuel may cwd t dir t', makeDir fuel may cwd t dir = Ret (t', true) ->
  kindAt t' (resolve cwd dir) = Some KDir \/ kindAt t' (resolve cwd dir) = Some KLink.
Proof.
  intros fuel may cwd t dir t' H. destruct fuel as [|fuel]; [discriminate|]. cbn [makeDir] in H. destruct dir as [|c0 dir0] eqn:Ed; [discriminate|]. rewrite <- Ed in *.
  assert (F : forall t0 k, fileType cwd t0 dir = TKind k -> kindAt t0 (resolve cwd dir) = Some k).
  { intros t0 k. unfold fileType. destruct (blocked t0 (resolve cwd dir)); [discriminate|]. destruct (kindAt t0 (resolve cwd dir)) as [[]|]; try discriminate; try congruence;
      (destruct (rev dir) as [|c r]; [congruence|]; destruct (c =? slash); [discriminate|congruence]). }
  destruct (fileType cwd t dir) as [| |[]] eqn:T; try discriminate.
  - destruct (dividePath dir) as [parent child]. destruct (match parent with [] => Ret (t, true) | _ :: _ => makeDir fuel may cwd t parent end) as [[t1 ok]| | |]; try discriminate.
    cbn [obind] in H. destruct ok; cbn [negb] in H; [|discriminate]. destruct (if may (resolve cwd dir) then insertDir t1 (resolve cwd dir) else None) as [t2|] eqn:I.
    + apply Ret_inj in H. injection H as <-. destruct (may (resolve cwd dir)); [|discriminate]. apply insertDir_spec in I. left. tauto.
    + destruct (fileType cwd t1 dir) as [| |[]] eqn:T1; try discriminate. apply Ret_inj in H. injection H as <-. left. apply F, T1.
  - apply Ret_inj in H. injection H as <-. right. apply F, T.
  - apply Ret_inj in H. injection H as <-. left. apply F, T.
Qed.
Theorem C75_keeps_what_exists : forall fuel may cwd t dir t' ok q k, makeDir fuel may cwd t dir = Ret (t', ok) -> kindAt t q = Some k -> kindAt t' q = Some k.
Proof.
  intros fuel may cwd t. induction fuel as [|fuel IH]; intros dir t' ok q k H K; [discriminate|]. cbn [makeDir] in H. destruct dir as [|c0 dir0] eqn:Ed; [apply Ret_inj in H; congruence|]. rewrite <- Ed in *.
  destruct (fileType cwd t dir) as [| |[]] eqn:T; try (apply Ret_inj in H; congruence).
  destruct (dividePath dir) as [parent child].
  assert (P : forall t1 ok1, (match parent with [] => Ret (t, true) | _ :: _ => makeDir fuel may cwd t parent end) = Ret (t1, ok1) -> kindAt t1 q = Some k).
  { intros t1 ok1 X. destruct parent; [apply Ret_inj in X; congruence|]. exact (IH _ _ _ _ _ X K). }
  destruct (match parent with [] => Ret (t, true) | _ :: _ => makeDir fuel may cwd t parent end) as [[t1 ok1]| | |]; try discriminate. specialize (P t1 ok1 eq_refl). cbn [obind] in H.
  destruct ok1; cbn [negb] in H; [|apply Ret_inj in H; congruence]. destruct (if may (resolve cwd dir) then insertDir t1 (resolve cwd dir) else None) as [t2|] eqn:I; apply Ret_inj in H; [|congruence].
  injection H as <- <-. destruct (may (resolve cwd dir)); [|discriminate]. apply insertDir_spec in I. destruct I as (I1 & _ & I3). rewrite I3; [exact P|]. intros ->. congruence.
Qed.
Example C75_ex : exists t', makeDir 20 (fun _ => true) [B "home"] (NDir true [(B "home", NDir false [(B "x", NFile false)])]) (B "a//b/./c/") = Ret (t', true) /\
  kindAt t' [B "home"; B "a"; B "b"; B "c"] = Some KDir /\ kindAt t' [B "home"; B "x"] = Some KFile.
Proof. eexists. split; [vm_compute; reflexivity|]. split; reflexivity. Qed.
(** False of a link: makeDir answers true for one that leads nowhere or to a file. *)
Theorem C75_link_refuted : exists t dir t', makeDir 20 (fun _ => true) [] t dir = Ret (t', true) /\ kindAt t' (resolve [] dir) <> Some KDir.
Proof. exists (NDir true [(B "data", NLink false)]), (B "/data"). eexists. split; [vm_compute; reflexivity|]. vm_compute. discriminate. Qed.

Print Assumptions C74_true_means_gone.
Print Assumptions C74_left_is_part.
Print Assumptions C74_recursive_exact.
Print Assumptions C74_flat_exact.
Print Assumptions C74_flat_keeps_subdirs.
Print Assumptions C75_makes_the_way.
Print Assumptions C75_ends.
Print Assumptions C75_true_means_there.
Print Assumptions C75_keeps_what_exists.
