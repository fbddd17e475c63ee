(** C161: temporary files and directories. *)
From Coq Require Import String List.
From Verif Require Import Prelude ValueBase ValueProofs AssocModel PathModel PathProps FsModel FsProps TempModel.
Import ListNotations.
Open Scope Z_scope.

(** * Specification *)
(** after creating something of a kind at a path where nothing was, it is there and all else as before *)
Definition only_new (t t' : node) (cs : list str) (k : kind) : Prop :=
  kindAt t cs = None /\ kindAt t' cs = Some k /\ forall q, q <> cs -> kindAt t' q = kindAt t q.
(** after removing what is at a path, nothing is there or below, and all else as before *)
Definition only_gone (t t' : node) (cs : list str) : Prop :=
  forall q, (isPrefixOf cs q -> kindAt t' q = None) /\ (~ isPrefixOf cs q -> kindAt t' q = kindAt t q).
(** the path is the template with other characters for the last six *)
Definition from_template (tpl path : str) (draws : list str) : Prop :=
  exists pre d, cstr tpl = pre ++ B "XXXXXX" /\ In d draws /\ path = pre ++ d.
Definition absolute (p : str) : Prop := exists s, p = slash :: s.

(** * Proofs *)
Definition empty (x : node) : Prop := match x with NDir _ (_ :: _) => False | _ => True end.
Lemma putAt_spec x : empty x -> forall cs n n', putAt x n cs = CMade n' -> only_new n n' cs (kindOf x).
Proof.
  intros Ex. induction cs as [|c cs IH]; intros n n' H; [discriminate|]. cbn [putAt] in H. destruct n as [f|f| |f es]; try discriminate.
  destruct (aget strEqb c es) as [m|] eqn:E.
  - destruct (putAt x m cs) as [m'| |] eqn:Em; try discriminate. injection H as <-. destruct (IH m m' Em) as (I1 & I2 & I3). unfold only_new. cbn [kindAt].
    rewrite E, (aget_aset strEqb strEqb_eq), strEqb_refl. splits; [exact I1|exact I2|]. intros [|q0 q] Hq; [reflexivity|]. cbn [kindAt]. rewrite (aget_aset strEqb strEqb_eq).
    destruct (strEqb q0 c) eqn:Eq; [|reflexivity]. apply strEqb_eq in Eq. subst q0. rewrite E. apply I3. congruence.
  - destruct cs as [|c' cs]; [|discriminate]. injection H as <-. unfold only_new. cbn [kindAt]. rewrite E, (aget_aset strEqb strEqb_eq), strEqb_refl. splits; [reflexivity|reflexivity|].
    intros [|q0 q] Hq; [reflexivity|]. cbn [kindAt]. rewrite (aget_aset strEqb strEqb_eq). destruct (strEqb q0 c) eqn:Eq; [|reflexivity]. apply strEqb_eq in Eq. subst q0. rewrite E.
    destruct q as [|q1 q]; [congruence|]. destruct x as [| | |g [|? ?]]; cbn in *; try reflexivity. destruct Ex.
Qed.
Lemma putAt_ok x cs c : forall n, kindAt n cs = Some KDir ->
  match kindAt n (cs ++ [c]) with None => exists n', putAt x n (cs ++ [c]) = CMade n' | Some _ => putAt x n (cs ++ [c]) = CExists end.
Proof.
  induction cs as [|c0 cs IH]; intros n H1; cbn [app kindAt putAt] in *.
  - destruct n as [f|f| |f es]; try discriminate. destruct (aget strEqb c es); cbn; eauto.
  - destruct n as [f|f| |f es]; try discriminate. destruct (aget strEqb c0 es) as [m|]; [|discriminate]. specialize (IH m H1).
    destruct (kindAt m (cs ++ [c])); [rewrite IH; reflexivity|]. destruct IH as [n' ->]. eauto.
Qed.
Lemma stem_spec tpl pre : stem tpl = Some pre <-> tpl = pre ++ sixX.
Proof.
  unfold stem. split.
  - destruct (strEqb (skipn (List.length tpl - 6) tpl) sixX) eqn:E; [|discriminate]. intros H. injection H as <-. apply strEqb_eq in E.
    rewrite <- E. symmetry. apply firstn_skipn.
  - intros ->. rewrite app_length. change (List.length sixX) with 6%nat. replace (List.length pre + 6 - 6)%nat with (List.length pre) by lia.
    rewrite skipn_app, Nat.sub_diag, skipn_all. cbn [skipn app]. rewrite strEqb_refl.
    rewrite firstn_app, Nat.sub_diag, firstn_all, firstn_O, app_nil_r. reflexivity.
Qed.
Lemma attempts_some may x cwd t pre : empty x -> forall draws t' p, attempts may x draws cwd t pre = (t', Some p) ->
  (exists d, In d draws /\ p = pre ++ d) /\ only_new t t' (resolve cwd p) (kindOf x) /\ may (resolve cwd p) = true.
Proof.
  intros Ex. induction draws as [|d draws IH]; intros t' p H; cbn [attempts] in H; [discriminate|].
  destruct (putAt x t (resolve cwd (pre ++ d))) as [t1| |] eqn:E.
  - destruct (may (resolve cwd (pre ++ d))) eqn:M; [|discriminate]. injection H as <- <-. split; [exists d; split; [apply in_eq|reflexivity]|].
    split; [apply putAt_spec; assumption|exact M].
  - destruct (IH _ _ H) as [[d' [I ->]] R]. split; [exists d'; split; [right; exact I|reflexivity]|exact R].
  - discriminate.
Qed.
Lemma attempts_none may x cwd t pre : forall draws t', attempts may x draws cwd t pre = (t', None) -> t' = t.
Proof.
  induction draws as [|d draws IH]; intros t' H; cbn [attempts] in H; [congruence|].
  destruct (putAt x t (resolve cwd (pre ++ d))) as [t1| |]; [|auto|congruence]. destruct (may _); congruence.
Qed.
Lemma mktemp_some may x draws cwd t tpl t' p : empty x -> mktemp may x draws cwd t (cstr tpl) = (t', Some p) ->
  from_template tpl p draws /\ only_new t t' (resolve cwd p) (kindOf x).
Proof.
  intros Ex H. unfold mktemp in H. destruct (stem (cstr tpl)) as [pre|] eqn:S; [|discriminate]. apply stem_spec in S.
  destruct (attempts_some _ _ _ _ _ Ex _ _ _ H) as [[d [I ->]] [N _]]. split; [exists pre, d; auto|exact N].
Qed.
Lemma mktemp_none may x draws cwd t tpl t' : mktemp may x draws cwd t tpl = (t', None) -> t' = t.
Proof. unfold mktemp. destruct (stem tpl); [apply attempts_none|congruence]. Qed.
Lemma attempts_made may x cwd t pre : forall draws,
  (forall d, In d draws -> exists ps c, resolve cwd (pre ++ d) = ps ++ [c] /\ kindAt t ps = Some KDir /\ may (ps ++ [c]) = true) ->
  (exists d, In d draws /\ kindAt t (resolve cwd (pre ++ d)) = None) -> exists t' p, attempts may x draws cwd t pre = (t', Some p).
Proof.
  induction draws as [|d draws IH]; intros P [f [I F]]; [destruct I|]. cbn [attempts].
  destruct (P d (in_eq _ _)) as [ps [c [R [K M]]]]. rewrite R. pose proof (putAt_ok x ps c t K) as Q.
  destruct (kindAt t (ps ++ [c])) as [k|] eqn:Ek.
  - rewrite Q. apply IH; [intros d' I'; apply P; right; exact I'|]. destruct I as [->|I]; [congruence|eauto].
  - destruct Q as [n' ->]. rewrite M. eauto.
Qed.
Lemma filter_get c c0 (es : list (str * node)) : aget strEqb c0 (dropName c es) = if strEqb c0 c then None else aget strEqb c0 es.
Proof.
  unfold dropName. induction es as [|[k m] es IH]; cbn [filter fst aget]; [destruct (strEqb c0 c); reflexivity|].
  destruct (strEqb k c) eqn:E; cbn [negb aget].
  - apply strEqb_eq in E. subst k. rewrite IH. destruct (strEqb c0 c) eqn:E0; reflexivity.
  - rewrite IH. destruct (strEqb c0 k) eqn:E1; [|reflexivity]. apply strEqb_eq in E1. subst c0. rewrite E. reflexivity.
Qed.
Lemma prefix_cons (a b : str) cs q : isPrefixOf (a :: cs) (b :: q) <-> a = b /\ isPrefixOf cs q.
Proof.
  unfold isPrefixOf. split.
  - intros [r H]. cbn in H. injection H as -> ->. eauto.
  - intros [-> [r ->]]. exists r. reflexivity.
Qed.
Lemma changeAt_gone f cs : forall n m, nodeAt n cs = Some m -> f m = None -> cs <> [] ->
  exists n', changeAt f n cs = Some n' /\ only_gone n n' cs.
Proof.
  induction cs as [|c cs IH]; intros n m N F NE; [congruence|]. cbn [nodeAt changeAt] in *. destruct n as [g|g| |g es]; try discriminate.
  destruct (aget strEqb c es) as [w|] eqn:E; [|discriminate]. destruct cs as [|c1 cs].
  - cbn [nodeAt changeAt] in *. injection N as ->. rewrite F. eexists. split; [reflexivity|]. intros [|q0 q].
    + split; [intros [r H]; discriminate|reflexivity].
    + rewrite prefix_cons. cbn [kindAt]. rewrite filter_get. destruct (strEqb q0 c) eqn:Q.
      * apply strEqb_eq in Q. subst q0. split; [reflexivity|]. intros H. exfalso. apply H. split; [reflexivity|exists q; reflexivity].
      * split; [|reflexivity]. intros [-> _]. rewrite strEqb_refl in Q. discriminate.
  - destruct (IH w m N F ltac:(discriminate)) as [w' [-> G]]. eexists. split; [reflexivity|]. intros [|q0 q].
    + split; [intros [r H]; discriminate|reflexivity].
    + rewrite prefix_cons. cbn [kindAt]. rewrite (aget_aset strEqb strEqb_eq). destruct (strEqb q0 c) eqn:Q.
      * apply strEqb_eq in Q. subst q0. rewrite E. destruct (G q) as [G1 G2]. split; [intros [_ H]; apply G1, H|]. intros H. apply G2. tauto.
      * split; [|reflexivity]. intros [-> _]. rewrite strEqb_refl in Q. discriminate.
Qed.

(** * C161 *)
(** A temporary file is new, at a path that comes from the template; nothing else changes. *)
Theorem C161_file_new : forall may draws cwd t tpl auto t' o, newTempFile may draws cwd t tpl auto = (t', Some o) ->
  from_template tpl (fPath o) draws /\ only_new t t' (resolve cwd (fPath o)) KFile /\ fAuto o = auto.
Proof.
  intros may draws cwd t tpl auto t' o H. unfold newTempFile in H. destruct (mktemp _ _ _ _ _ _) as [t1 [p|]] eqn:M; [|discriminate].
  injection H as <- <-. destruct (mktemp_some may (NFile false) _ _ _ _ _ _ I M) as [A N]. auto.
Qed.
(** So is a temporary directory. *)
Theorem C161_dir_new : forall may draws cwd t tpl auto t' o p, newTempDir may draws cwd t tpl auto = (t', o) -> dPath o = Some p ->
  from_template tpl p draws /\ only_new t t' (resolve cwd p) KDir /\ dAuto o = auto.
Proof.
  intros may draws cwd t tpl auto t' o p H P. unfold newTempDir in H. destruct (mktemp _ _ _ _ _ _) as [t1 r] eqn:M.
  injection H as <- <-. cbn in P. subst r. destruct (mktemp_some may (NDir false []) _ _ _ _ _ _ I M) as [A N]. auto.
Qed.
(** They are made if the template ends in six X, its directory exists and can be written, and a name is free. *)
Theorem C161_made : forall may draws cwd t tpl auto pre, cstr tpl = pre ++ B "XXXXXX" ->
  (forall d, In d draws -> exists ps c, resolve cwd (pre ++ d) = ps ++ [c] /\ kindAt t ps = Some KDir /\ may (ps ++ [c]) = true) ->
  (exists d, In d draws /\ kindAt t (resolve cwd (pre ++ d)) = None) ->
  (exists t' o, newTempFile may draws cwd t tpl auto = (t', Some o)) /\
  (exists t' o p, newTempDir may draws cwd t tpl auto = (t', o) /\ dPath o = Some p).
Proof.
  intros may draws cwd t tpl auto pre T P F. unfold newTempFile, newTempDir, mktemp. rewrite (proj2 (stem_spec _ _) T).
  destruct (attempts_made may (NFile false) cwd t pre draws P F) as [t1 [p1 ->]], (attempts_made may (NDir false []) cwd t pre draws P F) as [t2 [p2 ->]].
  split; [eauto|]. eexists _, _, p2. split; reflexivity.
Qed.
(** Otherwise nothing changes, neither then nor when the object ends; so it is with any other template. *)
Theorem C161_failed : forall may draws cwd t tpl auto,
  (forall t', newTempFile may draws cwd t tpl auto = (t', None) -> t' = t) /\
  (forall t' o, newTempDir may draws cwd t tpl auto = (t', o) -> dPath o = None -> t' = t /\ forall cwd2 t2, endTempDir cwd2 t2 o = t2) /\
  ((forall pre, cstr tpl <> pre ++ B "XXXXXX") -> newTempFile may draws cwd t tpl auto = (t, None) /\ newTempDir may draws cwd t tpl auto = (t, mkTempDir None auto)).
Proof.
  intros may draws cwd t tpl auto. split; [|split].
  - intros t' H. unfold newTempFile in H. destruct (mktemp _ _ _ _ _ _) as [t1 [p|]] eqn:M; [discriminate|]. apply mktemp_none in M. congruence.
  - intros t' o H P. unfold newTempDir in H. destruct (mktemp _ _ _ _ _ _) as [t1 r] eqn:M. injection H as <- <-. cbn in P. subst r.
    split; [eapply mktemp_none; exact M|]. intros. unfold endTempDir. cbn. destruct auto; reflexivity.
  - intros N. unfold newTempFile, newTempDir, mktemp. destruct (stem (cstr tpl)) as [pre|] eqn:S; [|auto]. apply stem_spec in S. destruct (N pre S).
Qed.
Lemma abs_resolve cwd cwd2 p : absolute p -> resolve cwd2 p = resolve cwd p.
Proof. intros [s ->]. reflexivity. Qed.
Lemma nodeAt_kind cs : forall n m, nodeAt n cs = Some m -> kindAt n cs = Some (kindOf m).
Proof.
  induction cs as [|c cs IH]; intros n m H; cbn [nodeAt kindAt] in *; [congruence|]. destruct n; try discriminate. destruct (aget strEqb c entries); [auto|discriminate].
Qed.
(** When the object ends, the file at that path is gone and all else as it was by then, wherever the process is, if the template is absolute. *)
Theorem C161_file_gone : forall may draws cwd t tpl t' o cwd2 t2, newTempFile may draws cwd t tpl true = (t', Some o) -> absolute (fPath o) ->
  nodeAt t2 (resolve cwd (fPath o)) = Some (NFile false) -> only_gone t2 (endTempFile cwd2 t2 o) (resolve cwd (fPath o)).
Proof.
  intros may draws cwd t tpl t' o cwd2 t2 H A N. destruct (C161_file_new _ _ _ _ _ _ _ _ H) as [_ [[E _] Au]].
  unfold endTempFile. rewrite Au, (abs_resolve cwd cwd2 _ A).
  destruct (changeAt_gone unlinkNode (resolve cwd (fPath o)) t2 _ N eq_refl) as [n' [-> G]]; [|exact G]. intros Z0. rewrite Z0 in E. discriminate.
Qed.
(** So is the directory with all that was put into it, if that can be removed. *)
Theorem C161_dir_gone : forall may draws cwd t tpl t' o p cwd2 t2 d, newTempDir may draws cwd t tpl true = (t', o) -> dPath o = Some p -> absolute p ->
  nodeAt t2 (resolve cwd p) = Some d -> removable d -> only_gone t2 (endTempDir cwd2 t2 o) (resolve cwd p).
Proof.
  intros may draws cwd t tpl t' o p cwd2 t2 d H P A N R. destruct (C161_dir_new _ _ _ _ _ _ _ _ _ H P) as [_ [[E _] Au]].
  unfold endTempDir. rewrite Au, P, (abs_resolve cwd cwd2 _ A).
  apply C74_recursive_exact, C74_true_means_gone in R.
  destruct (changeAt_gone (fun n => fst (remove true n)) (resolve cwd p) t2 d N R) as [n' [-> G]]; [|exact G]. intros Z0. rewrite Z0 in E. discriminate.
Qed.
(** A file object removes nothing but a file or a link: a directory that took its place stays with all that is in it. *)
Lemma changeAt_same f cs : forall n m, nodeAt n cs = Some m -> f m = Some m -> exists n', changeAt f n cs = Some n' /\ forall q, kindAt n' q = kindAt n q.
Proof.
  induction cs as [|c cs IH]; intros n m N F; cbn [nodeAt changeAt] in *; [injection N as ->; eauto|]. destruct n as [g|g| |g es]; try discriminate.
  destruct (aget strEqb c es) as [w|] eqn:E; [|discriminate]. destruct (IH w m N F) as [w' [-> G]]. eexists. split; [reflexivity|]. intros [|q0 q]; [reflexivity|].
  cbn [kindAt]. rewrite (aget_aset strEqb strEqb_eq). destruct (strEqb q0 c) eqn:Q; [|reflexivity]. apply strEqb_eq in Q. subst q0. rewrite E. apply G.
Qed.
Theorem C161_spares_directories : forall cwd t p auto f es, nodeAt t (resolve cwd p) = Some (NDir f es) ->
  forall q, kindAt (endTempFile cwd t (mkTempFile p auto)) q = kindAt t q.
Proof.
  intros cwd t p [|] f es N q; [|reflexivity]. unfold endTempFile. cbn [fAuto fPath]. destruct (changeAt_same unlinkNode _ _ _ N eq_refl) as [n' [-> G]]. apply G.
Qed.
(** A directory asked for in another is made in that one. *)
Theorem C161_in_parent : forall may draws cwd t parent pre auto t' o p, parent <> [] -> ~ In 0 parent -> last parent 0 <> slash -> ~ In 0 pre ->
  newTempDirIn may draws cwd t parent (pre ++ B "XXXXXX") auto = (t', o) -> dPath o = Some p ->
  exists d, In d draws /\ p = parent ++ [slash] ++ pre ++ d /\ only_new t t' (resolve cwd p) KDir /\ dAuto o = auto.
Proof.
  intros may draws cwd t parent pre auto t' o p NE N0 L P0 H P. unfold newTempDirIn in H. destruct (C161_dir_new _ _ _ _ _ _ _ _ _ H P) as ((pre' & d & T & I & ->) & On & A).
  exists d. destruct (exists_last NE) as (a & c & ->). rewrite last_last in L.
  assert (X0 : ~ In 0 (pre ++ B "XXXXXX")) by (intros K; apply in_app_or in K as [K|K]; [auto|vm_compute in K; intuition congruence]).
  rewrite joinPath_other, !ncpy_id in T by assumption. rewrite cstr_id in T.
  - rewrite !app_assoc in T. apply app_inv_tail in T. subst pre'. rewrite <- !app_assoc in *. auto.
  - intros K. apply in_app_or in K as [K|K]; [auto|]. apply in_app_or in K as [[K|[]]|K]; [discriminate K|auto].
Qed.
(** Without deletion asked for, nothing happens when the object ends. *)
Theorem C161_kept : forall cwd t p q, endTempFile cwd t (mkTempFile p false) = t /\ endTempDir cwd t (mkTempDir q false) = t.
Proof. intros. split; reflexivity. Qed.

(** * What is false *)
Definition world : node := NDir false [(B "tmp", NDir false [(B "ab.abc123", NFile false)]); (B "a", NDir false []); (B "b", NDir false [(B "d.abc123", NDir false [(B "data", NFile false)])])].
Definition anywhere : list str -> bool := fun _ => true.
(** With a relative template, and another working directory at the end, the directory stays and another is removed with all that is in it. *)
Theorem C161_relative_refuted : exists t' o p, newTempDir anywhere [B "abc123"] [B "a"] world (B "d.XXXXXX") true = (t', o) /\ dPath o = Some p /\
  kindAt (endTempDir [B "b"] t' o) [B "a"; p] = Some KDir /\
  kindAt world [B "b"; p; B "data"] = Some KFile /\ kindAt (endTempDir [B "b"] t' o) [B "b"; p] = None.
Proof. eexists _, _, _. split; [vm_compute; reflexivity|]. repeat split. Qed.
(** path() of a directory that could not be made is not an empty string, as TempDir.h 25-26 has it, but no string. *)
Theorem C161_empty_refuted : exists t' o, newTempDir anywhere [B "abc123"] [] world (B "/nowhere/d.XXXXXX") true = (t', o) /\ dPath o <> Some [].
Proof. eexists _, _. split; [vm_compute; reflexivity|]. discriminate. Qed.
(** That the template contains six X, as TempDir.h 21-23 has it, is not enough. *)
Theorem C161_template_refuted : exists t' o, newTempDir anywhere [B "abc123"] [] world (B "/tmp/XXXXXX.d") true = (t', o) /\ dPath o = None.
Proof. eexists _, _. split; vm_compute; reflexivity. Qed.

(** * Concrete cases *)
(** the first name is taken; then something is put into the directory, and it ends *)
Example dir_runs : exists t' o d, newTempDir anywhere [B "abc123"; B "Zz9yY8"] [] world (B "/tmp/ab.XXXXXX") true = (t', o) /\
  dPath o = Some (B "/tmp/ab.Zz9yY8") /\ absolute (B "/tmp/ab.Zz9yY8") /\
  (let t2 := match changeAt (fun _ => Some (NDir false [(B "x", NFile false)])) t' [B "tmp"; B "ab.Zz9yY8"] with Some u => u | None => t' end in
   nodeAt t2 (resolve [] (B "/tmp/ab.Zz9yY8")) = Some d /\ removable d /\ endTempDir [B "b"] t2 o = world).
Proof.
  eexists _, _, _. split; [vm_compute; reflexivity|]. split; [reflexivity|]. split; [eexists; reflexivity|].
  cbv zeta. split; [vm_compute; reflexivity|]. split; [cbn; auto|]. vm_compute. reflexivity.
Qed.
Example file_runs : exists t' o, newTempFile anywhere [B "abc123"; B "Zz9yY8"] [B "tmp"] world (B "ab.XXXXXX") true = (t', Some o) /\
  fPath o = B "ab.Zz9yY8" /\ kindAt t' [B "tmp"; B "ab.Zz9yY8"] = Some KFile /\ endTempFile [B "tmp"] t' o = world.
Proof. eexists _, _. split; [vm_compute; reflexivity|]. repeat split. Qed.
Example made_case : (forall d, In d [B "abc123"; B "Zz9yY8"] -> exists ps c, resolve [] (B "/tmp/ab." ++ d) = ps ++ [c] /\ kindAt world ps = Some KDir /\ anywhere (ps ++ [c]) = true) /\
  exists d, In d [B "abc123"; B "Zz9yY8"] /\ kindAt world (resolve [] (B "/tmp/ab." ++ d)) = None.
Proof.
  split.
  - intros d [<-|[<-|[]]]; eexists [B "tmp"], _; (split; [vm_compute; reflexivity|split; reflexivity]).
  - exists (B "Zz9yY8"). split; [cbn; auto|reflexivity].
Qed.

Print Assumptions C161_file_new. Print Assumptions C161_dir_new. Print Assumptions C161_made. Print Assumptions C161_failed.
Print Assumptions C161_file_gone. Print Assumptions C161_dir_gone. Print Assumptions C161_kept.
Print Assumptions C161_relative_refuted. Print Assumptions C161_empty_refuted. Print Assumptions C161_template_refuted.
Print Assumptions C161_spares_directories.
Print Assumptions C161_in_parent.
Example in_parent_runs : exists t' o, newTempDirIn anywhere [B "abc123"; B "Zz9yY8"] [] world (B "/tmp") (B "ab.XXXXXX") true = (t', o) /\ dPath o = Some (B "/tmp/ab.Zz9yY8") /\
  last (B "/tmp") 0 <> slash /\ ~ In 0 (B "/tmp") /\ nodeAt t' (resolve [] (B "/tmp/ab.Zz9yY8")) = Some (NDir false []).
Proof. eexists _, _. repeat split; try (vm_compute; reflexivity); vm_compute; intuition congruence. Qed.
