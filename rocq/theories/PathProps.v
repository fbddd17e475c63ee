(** Properties C58 (joining and dividing paths) and C73 (dirname and basename). *)
From Coq Require Import String List.
From Verif Require Import Prelude ValueBase ValueProofs PathModel.
Import ListNotations.
Open Scope Z_scope.

(** * Lemmas *)
Lemma splitLast_app a b : ~ In slash b -> splitLast (a ++ slash :: b) = Some (a, b).
Proof.
  intros H. induction a as [|c a IH]; cbn [app splitLast]; [|rewrite IH; reflexivity].
  assert (splitLast b = None) as ->; [|rewrite Z.eqb_refl; reflexivity].
  clear -H. induction b as [|c b IH]; [reflexivity|]. cbn. rewrite IH by (intros X; apply H; right; exact X).
  assert (c =? slash = false) as -> by (apply Z.eqb_neq; intros ->; apply H; left; reflexivity). reflexivity.
Qed.
Lemma splitLast_None s : splitLast s = None <-> ~ In slash s.
Proof.
  induction s as [|c s IH]; cbn; [tauto|]. destruct (splitLast s) as [[a b]|].
  - split; [discriminate|]. intros H. exfalso. apply H. right. destruct IH as [_ IH]. destruct (in_dec Z.eq_dec slash s) as [X | X]; [exact X|]. apply IH in X. discriminate.
  - destruct (c =? slash) eqn:E.
    + apply Z.eqb_eq in E. split; [discriminate|]. intros H. exfalso. auto.
    + apply Z.eqb_neq in E. split; auto. intros _ [H | H]; [auto|]. apply IH in H; [assumption|reflexivity].
Qed.
Lemma splitLast_Some s a b : splitLast s = Some (a, b) -> s = a ++ slash :: b /\ ~ In slash b.
Proof.
  revert a. induction s as [|c s IH]; intros a H; [discriminate|]. cbn in H. destruct (splitLast s) as [[a' b']|] eqn:E.
  - injection H as <- <-. destruct (IH a' eq_refl) as [-> N]. split; [reflexivity|assumption].
  - destruct (c =? slash) eqn:Ec; [|discriminate]. apply Z.eqb_eq in Ec. injection H as <- <-. subst c. split; [reflexivity|]. apply splitLast_None, E.
Qed.
Lemma cstr_id s : ~ In 0 s -> cstr s = s.
Proof.
  induction s as [|c s IH]; intros H; [reflexivity|]. cbn. assert (c =? 0 = false) as -> by (apply Z.eqb_neq; intros ->; apply H; left; reflexivity).
  rewrite IH; [reflexivity|]. intros X; apply H; right; exact X.
Qed.
Lemma ncpy_id s : ~ In 0 s -> ncpy s = s.
Proof. intros H. unfold ncpy. rewrite (cstr_id s H), Nat.sub_diag. apply app_nil_r. Qed.
Lemma stripSlash_snoc s : stripSlash (s ++ [slash]) = s.
Proof. unfold stripSlash. rewrite rev_unit. cbn. apply rev_involutive. Qed.
Lemma stripSlash_other s c : c <> slash -> stripSlash (s ++ [c]) = s ++ [c].
Proof. intros H. unfold stripSlash. rewrite rev_unit. destruct (Z.eqb_spec c slash); [contradiction|reflexivity]. Qed.
Lemma strEqb_neq a b : a <> b -> strEqb a b = false.
Proof. intros H. destruct (strEqb a b) eqn:E; [|reflexivity]. apply strEqb_eq in E. contradiction. Qed.
Lemma stripSlash_cases s : stripSlash s = s /\ (forall t, s <> t ++ [slash]) \/ s = stripSlash s ++ [slash].
Proof.
  destruct s as [|x s] using rev_ind; [left; split; [reflexivity|intros [|]; discriminate]|]. destruct (Z.eq_dec x slash) as [-> | N].
  - right. rewrite stripSlash_snoc. reflexivity.
  - left. split; [apply stripSlash_other, N|]. intros t H. apply app_inj_tail in H. tauto.
Qed.
Lemma join_cases (dir : str) : dir <> [] -> (exists d, dir = d ++ [slash]) \/ (exists d c, dir = d ++ [c] /\ c <> slash).
Proof.
  intros H. destruct dir as [|x dir _] using rev_ind; [contradiction|]. destruct (Z.eq_dec x slash) as [-> | N]; [left|right]; eauto.
Qed.
Lemma joinPath_slash d file : joinPath (d ++ [slash]) file = ncpy (d ++ [slash]) ++ ncpy file.
Proof. unfold joinPath. rewrite rev_unit, Z.eqb_refl. reflexivity. Qed.
Lemma joinPath_other d c file : c <> slash -> joinPath (d ++ [c]) file = ncpy (d ++ [c]) ++ [slash] ++ ncpy file.
Proof. intros H. unfold joinPath. rewrite rev_unit. destruct (Z.eqb_spec c slash); [contradiction|reflexivity]. Qed.

(** * Specification *)
(** the name of a file or directory *)
Definition fileName (f : str) : Prop := f <> [] /\ ~ In slash f /\ ~ In 0 f.
(** a directory as the documentation writes it: the root, or without a slash at the end *)
Definition dirPath (d : str) : Prop := d = [slash] \/ d <> [] /\ (forall t, d <> t ++ [slash]).

Lemma divide_core a b : ~ In slash b -> b <> [] -> dividePath (a ++ slash :: b) = (match a with [] => [slash] | _ => a end, b).
Proof.
  intros Hb Nb. unfold dividePath. rewrite !strEqb_neq.
  - cbn [orb]. destruct b as [|x b _] using rev_ind; [contradiction|].
    assert (x <> slash) by (intros ->; apply Hb, in_or_app; right; left; reflexivity).
    change (a ++ slash :: b ++ [x]) with (a ++ (slash :: b) ++ [x]). rewrite app_assoc, stripSlash_other by assumption.
    rewrite <- app_assoc. cbn [app]. rewrite splitLast_app by assumption. destruct a; reflexivity.
  - intros H. apply (f_equal (@List.length Z)) in H. rewrite app_length in H. destruct b; [contradiction|]. cbn in H. lia.
  - intros H. apply (f_equal (@List.length Z)) in H. rewrite app_length in H. cbn in H. lia.
Qed.

(** * C58 *)
(** Dividing a joined path gives back the directory and the name. *)
Theorem C58_divide_join : forall dir file, dirPath dir -> ~ In 0 dir -> fileName file ->
  dividePath (joinPath dir file) = (dir, file).
Proof.
  intros dir file D N (F1 & F2 & F3). destruct D as [-> | [D1 D2]].
  - change (joinPath [slash] file) with (joinPath ([] ++ [slash]) file). rewrite joinPath_slash, !ncpy_id by auto. exact (divide_core [] file F2 F1).
  - destruct (join_cases dir D1) as [[d E] | (d & c & -> & E)]; [destruct (D2 d E)|].
    rewrite joinPath_other, !ncpy_id by assumption. cbn [app]. rewrite divide_core by assumption. destruct (d ++ [c]); [contradiction|reflexivity].
Qed.
(** An empty directory stands for the current one. *)
Theorem C58_divide_join_local : forall file, fileName file -> dividePath (joinPath [] file) = (B ".", file).
Proof. intros file (F1 & F2 & F3). cbn [joinPath rev]. rewrite ncpy_id by assumption. exact (divide_core (B ".") file F2 F1). Qed.
(** A slash at the end of the directory is dropped. *)
Theorem C58_divide_join_slash : forall dir file, dirPath dir -> dir <> [slash] -> ~ In 0 dir -> fileName file ->
  dividePath (joinPath (dir ++ [slash]) file) = (dir, file).
Proof.
  intros dir file D R N (F1 & F2 & F3). destruct D as [-> | [D1 D2]]; [contradiction|]. rewrite joinPath_slash, !ncpy_id; auto.
  - rewrite <- app_assoc. cbn [app]. rewrite divide_core by assumption. destruct dir; [contradiction|reflexivity].
  - rewrite in_app_iff. intros [H | [H | []]]; [auto|discriminate].
Qed.
(** no two slashes in a row *)
Definition noDoubleSlash (p : str) : Prop := forall a b, p <> a ++ slash :: slash :: b.
(** Joining what dividePath returned gives back the path. *)
Theorem C58_join_divide : forall p, In slash p -> (forall t, p <> t ++ [slash]) -> noDoubleSlash p -> ~ In 0 p ->
  joinPath (fst (dividePath p)) (snd (dividePath p)) = p.
Proof.
  intros p Hin Ht Hd H0. destruct (splitLast p) as [[a b]|] eqn:E; [|apply splitLast_None in E; contradiction].
  destruct (splitLast_Some p a b E) as [-> Hb]. assert (b <> []) as Nb by (intros ->; exact (Ht a eq_refl)).
  assert (N : ~ In 0 a /\ ~ In 0 b) by (split; intros X; apply H0, in_or_app; [left|right; right]; exact X). destruct N as [Na N0].
  rewrite divide_core by assumption. cbn [fst snd]. destruct a as [|x a].
  - change [slash] with ([] ++ [slash]). rewrite joinPath_slash, !ncpy_id; auto. intros [X | []]; discriminate X.
  - destruct (join_cases (x :: a) ltac:(discriminate)) as [[d X] | (d & c & X & Y)].
    + exfalso. apply (Hd d b). rewrite X, <- app_assoc. reflexivity.
    + rewrite X in *. rewrite joinPath_other, !ncpy_id by assumption. reflexivity.
Qed.
(** As documented: a slash at the end of the path is ignored, the root has itself as the child, and the parent of
    a path without doubled slashes ends with a slash only if it is the root. *)
Theorem C58_documented : forall p,
  (dirPath p -> p <> [slash] -> dividePath (p ++ [slash]) = dividePath p) /\
  dividePath [slash] = ([], [slash]) /\
  (noDoubleSlash p -> let q := fst (dividePath p) in q = [] \/ dirPath q) /\
  (~ In slash p -> dividePath p = ([], p)).
Proof.
  intros p. splits.
  - intros D R. destruct D as [-> | [D1 D2]]; [contradiction|]. unfold dividePath. rewrite !strEqb_neq; try assumption.
    + cbn [orb]. rewrite stripSlash_snoc. destruct (stripSlash_cases p) as [[-> _] | X]; [reflexivity|destruct (D2 _ X)].
    + intros H. change [slash] with ([] ++ [slash]) in H at 2. apply app_inj_tail in H. destruct H; contradiction.
    + intros H. destruct p; discriminate.
  - reflexivity.
  - intros H. cbv zeta. unfold dividePath. destruct (strEqb p [] || strEqb p [slash]) eqn:E0; [left; reflexivity|].
    destruct (splitLast (stripSlash p)) as [[a b]|] eqn:E; [|left; reflexivity]. right. cbn [fst].
    apply splitLast_Some in E. destruct E as [E _]. destruct a as [|x a]; [left; reflexivity|]. right. cbn [List.length Nat.eqb]. split; [discriminate|].
    intros t X. rewrite X, <- app_assoc in E. cbn [app] in E. destruct (stripSlash_cases p) as [[Y _] | Y].
    + apply (H t b). rewrite <- Y. exact E.
    + apply (H t (b ++ [slash])). rewrite Y, E, <- app_assoc. reflexivity.
  - intros H. unfold dividePath. destruct (strEqb p []) eqn:E1; [apply strEqb_eq in E1; subst; reflexivity|]. rewrite strEqb_neq by (intros ->; apply H; left; reflexivity).
    cbn [orb]. destruct (stripSlash_cases p) as [[-> _] | Y].
    + apply splitLast_None in H. rewrite H. reflexivity.
    + exfalso. apply H. rewrite Y. apply in_or_app. right. left. reflexivity.
Qed.
(** The parent is shorter than the path, so that following parents (as makeDir does) comes to an end. *)
Theorem C58_parent_shorter : forall p, p <> [] -> (List.length (fst (dividePath p)) < List.length p)%nat.
Proof.
  intros p H. unfold dividePath. destruct (strEqb p [] || strEqb p [slash]) eqn:E0; [destruct p; [contradiction|cbn; lia]|].
  assert (L : (List.length (stripSlash p) <= List.length p)%nat).
  { destruct (stripSlash_cases p) as [[-> _] | Y]; [lia|]. apply (f_equal (@List.length Z)) in Y. rewrite app_length in Y. cbn in Y. lia. }
  destruct (splitLast (stripSlash p)) as [[a b]|] eqn:E; [|destruct p; [contradiction|cbn; lia]]. cbn [fst].
  apply splitLast_Some in E. destruct E as [E _]. rewrite E, app_length in L. cbn in L. destruct a as [|x a]; cbn in *; [|lia].
  apply Bool.orb_false_iff in E0. destruct E0 as [_ E0]. destruct p as [|y [|z p]]; cbn; try contradiction; try lia.
  exfalso. assert (y <> slash) by (intros ->; discriminate E0). pose proof (stripSlash_other [] y H0) as X. cbn [app] in X. rewrite X in E. congruence.
Qed.
Example C58_ex : joinPath (B "/a/b") (B "c") = B "/a/b/c" /\ dividePath (B "/a/b/c/") = (B "/a/b", B "c") /\ dividePath (B "/a") = (B "/", B "a") /\
  joinPath (B "") (B "foo.bar") = B "./foo.bar".
Proof. splits; reflexivity. Qed.

(** With doubled slashes, a slash at the end of the directory or a NUL the claims are false. *)
Theorem C58_double_slash_refuted : dividePath (B "a//b") = (B "a/", B "b") /\ dividePath (B "a//") = (B "a", []) /\
  joinPath (B "a/") (B "b") = B "a/b" /\ dividePath (B "a/b") = (B "a", B "b").
Proof. splits; reflexivity. Qed.
Theorem C58_nul_refuted : exists dir file, dir <> [] /\ fileName file /\ dividePath (joinPath dir file) <> (dir, file).
Proof. exists [97; 0; 98], (B "c"). splits; [discriminate| |vm_compute; congruence]. unfold fileName. splits; [discriminate|vm_compute; intuition discriminate|vm_compute; intuition discriminate]. Qed.

(** * C73 *)
(** dirname and basename are the directory and the last name of the path, ... *)
Theorem C73_dirname_basename : forall dir file, fileName file -> noLineEnd dir = true ->
  dirname (dir ++ slash :: file) = (match dir with [] => [slash] | _ => dir end) /\ basename (dir ++ slash :: file) = file /\
  dirname file = B "." /\ basename file = file.
Proof.
  intros dir file (F1 & F2 & F3) L. pose proof F2 as F2'. apply splitLast_None in F2'.
  assert (S : stripSlash file = file /\ stripSlash (dir ++ slash :: file) = dir ++ slash :: file).
  { destruct file as [|x f _] using rev_ind; [contradiction|]. assert (x <> slash) by (intros ->; apply F2, in_or_app; right; left; reflexivity).
    split; [apply stripSlash_other; assumption|]. change (dir ++ slash :: f ++ [x]) with (dir ++ (slash :: f) ++ [x]). rewrite app_assoc. apply stripSlash_other. assumption. }
  destruct S as [S1 S2]. unfold dirname, basename. rewrite S1, S2, F2', splitLast_app, L by assumption. rewrite !strEqb_neq.
  - destruct file; [contradiction|]. destruct dir; splits; reflexivity.
  - intros ->. apply F2. left. reflexivity.
  - intros H. apply (f_equal (@List.length Z)) in H. rewrite app_length in H. destruct file; [contradiction|]. cbn in H. lia.
Qed.
(** ... and a slash at the end is ignored. *)
Theorem C73_trailing_slash : forall p, dirPath p -> p <> [slash] -> dirname (p ++ [slash]) = dirname p /\ basename (p ++ [slash]) = basename p.
Proof.
  intros p D R. destruct D as [-> | [D1 D2]]; [contradiction|]. unfold dirname, basename. rewrite stripSlash_snoc.
  assert (E : strEqb (p ++ [slash]) [slash] = false).
  { apply strEqb_neq. intros H. change [slash] with ([] ++ [slash]) in H at 2. apply app_inj_tail in H. destruct H; contradiction. }
  rewrite E, (strEqb_neq p) by assumption. destruct (stripSlash_cases p) as [[-> _] | X]; [split; reflexivity|destruct (D2 _ X)].
Qed.
(** They agree with dividePath for every path whose child is not empty. *)
Theorem C73_agrees_with_dividePath : forall p, snd (dividePath p) <> [] -> noLineEnd p = true -> p <> [slash] ->
  basename p = snd (dividePath p) /\ dirname p = match fst (dividePath p) with [] => B "." | d => d end.
Proof.
  intros p C L R. unfold dirname, basename, dividePath in *. rewrite (strEqb_neq p [slash]) in * by assumption. destruct (strEqb p []) eqn:E0.
  { apply strEqb_eq in E0. subst. cbn in C. contradiction. }
  cbn [orb] in *. destruct (splitLast (stripSlash p)) as [[a b]|] eqn:E; [|split; reflexivity]. cbn [fst snd] in *. split; [reflexivity|].
  assert (La : noLineEnd a = true).
  { apply splitLast_Some in E. destruct E as [E _]. unfold noLineEnd in *. rewrite forallb_forall in *. intros x Hx. apply L.
    assert (In x (stripSlash p)) by (rewrite E; apply in_or_app; left; exact Hx).
    destruct (stripSlash_cases p) as [[X _] | X]; [rewrite <- X; assumption|rewrite X; apply in_or_app; left; assumption]. }
  rewrite La. destruct b; [contradiction|]. cbn [List.length Nat.eqb negb andb]. destruct a; reflexivity.
Qed.
Example C73_ex : dirname (B "/path/to/x/") = B "/path/to" /\ basename (B "/path/to/x/") = B "x" /\ dirname (B "/path") = B "/" /\ dirname (B "path") = B ".".
Proof. splits; reflexivity. Qed.
(** The directory of a path with a line end before the last slash is taken to be the current one, and two slashes
    at the end leave no name. *)
Theorem C73_line_end_refuted : exists dir, dir <> [] /\ ~ In 0 dir /\ dirname (dir ++ slash :: B "x") = B "." /\ fst (dividePath (dir ++ slash :: B "x")) = dir.
Proof. exists [47; 97; 10; 98]. splits; try reflexivity; [discriminate|vm_compute; intuition discriminate]. Qed.
Theorem C73_two_slashes_refuted : dirname (B "/a/b//") = B "." /\ basename (B "/a/b//") = [].
Proof. split; reflexivity. Qed.

Print Assumptions C58_divide_join.
Print Assumptions C58_join_divide.
Print Assumptions C58_documented.
Print Assumptions C58_parent_shorter.
Print Assumptions C73_dirname_basename.
Print Assumptions C73_agrees_with_dividePath.
