(** C125-C127: iterators over lines and directory entries, listings, pid files. *)
From Coq Require Import String.
From Coq Require Import List.
From Verif Require Import Prelude ValueBase EvalModel DecProofs ValueProofs PathModel FullTextModel ProcModel.
Import ListNotations.
Local Open Scope Z_scope.
Local Open Scope list_scope.

(** * Specification: the lines of a file; the file a path stands for; what a pattern finds *)
Inductive fileLines : str -> list str -> Prop :=
| fl_none : fileLines [] []
| fl_last l : l <> [] -> ~ In 10 l -> fileLines l [l]
| fl_line l s ls : ~ In 10 l -> fileLines s ls -> fileLines (l ++ 10 :: s) (l :: ls).
Definition resolves (fs : fsys) (path p : str) : Prop :=
  (fsType fs path <> FLink /\ p = path) \/ (fsType fs path = FLink /\ fsReal fs path = Some p /\ fsType fs p <> FLink).
Definition found (pat : option (str -> option str)) (l : list str) : list (str * str) :=
  flat_map (fun e => match pat with None => [(e, [])] | Some f => match f e with Some m => [(e, m)] | None => [] end end) l.

Lemma linesGo_ok s : forall cur, ~ In 10 cur -> fileLines (cur ++ s) (linesGo cur s).
Proof.
  induction s as [|c s IH]; intros cur H; cbn [linesGo].
  - rewrite app_nil_r. destruct cur as [|a cur]; [constructor|constructor; [discriminate|exact H]].
  - destruct (Z.eqb_spec c 10) as [-> | N].
    + apply fl_line; [exact H|]. apply (IH []). intros [].
    + replace (cur ++ c :: s) with ((cur ++ [c]) ++ s) by (rewrite <- app_assoc; reflexivity). apply IH. rewrite in_app_iff. cbn. tauto.
Qed.
Lemma linesGo_line l : forall cur s, ~ In 10 l -> linesGo cur (l ++ 10 :: s) = (cur ++ l) :: linesGo [] s.
Proof.
  induction l as [|c l IH]; intros cur s H; cbn [linesGo app].
  - rewrite app_nil_r. reflexivity.
  - assert (c =? 10 = false) as -> by (apply Z.eqb_neq; intros ->; apply H; left; reflexivity).
    rewrite IH by (intros X; apply H; right; exact X). rewrite <- app_assoc. reflexivity.
Qed.
Lemma linesGo_last l : forall cur, ~ In 10 l -> linesGo cur l = match cur ++ l with [] => [] | w => [w] end.
Proof.
  induction l as [|c l IH]; intros cur H; cbn [linesGo].
  - rewrite app_nil_r. destruct cur; reflexivity.
  - assert (c =? 10 = false) as -> by (apply Z.eqb_neq; intros ->; apply H; left; reflexivity).
    rewrite IH by (intros X; apply H; right; exact X). rewrite <- app_assoc. reflexivity.
Qed.
Lemma fileLines_linesOf s ls : fileLines s ls -> ls = linesOf s.
Proof.
  unfold linesOf. induction 1 as [|l N H|l s ls H F IH]; [reflexivity| |].
  - rewrite linesGo_last by exact H. destruct l; [contradiction|reflexivity].
  - rewrite linesGo_line by exact H. cbn [app]. rewrite IH. reflexivity.
Qed.
(** the lines of a file are a function of its bytes *)
Theorem C125_lines s : exists ls, fileLines s ls /\ forall ls', fileLines s ls' -> ls' = ls.
Proof. exists (linesOf s). split; [apply (linesGo_ok s []); intros []|intros ls'; apply fileLines_linesOf]. Qed.

(** * C125 *)
Lemma findEntry_found pat l :
  match findEntry pat l with
  | Some (e, m, r) => found pat l = (e, m) :: found pat r /\ (List.length r < List.length l)%nat
  | None => found pat l = []
  end.
Proof.
  induction l as [|e l IH]; [reflexivity|]. cbn [findEntry]. destruct pat as [f|].
  - unfold found in *. cbn [flat_map List.length]. destruct (f e) as [m|]; [split; [reflexivity|lia]|].
    destruct (findEntry (Some f) l) as [[[e' m'] r]|]; cbn [app]; [|exact IH]. destruct IH as [IH L]. split; [exact IH|lia].
  - split; [reflexivity|cbn; lia].
Qed.
Lemma collect_file pat n : forall fuel l d e m, (List.length l < n)%nat -> (n <= fuel)%nat ->
  collect fuel pat (mkIter FRegular (Some l) d e m true) = Ret ((e, m) :: found pat l).
Proof.
  induction n as [|n IH]; intros fuel l d e m L F; [lia|]. destruct fuel as [|fuel]; [lia|].
  pose proof (findEntry_found pat l) as K. cbn [collect itOk negb]. unfold nextIt. cbn [itOk negb itType itLines itDir itEntry itMatched].
  destruct (findEntry pat l) as [[[e' m'] r]|]; cbn [obind].
  - destruct K as [-> K]. rewrite IH by lia. reflexivity.
  - rewrite K. destruct fuel; reflexivity.
Qed.
Lemma found_filter pat l r e m : findEntry pat (filter notDot l) = Some (e, m, r) -> filter notDot r = r.
Proof.
  intros H. assert (K : forall x, In x r -> notDot x = true).
  { intros x X. assert (Y : In x (filter notDot l)); [|apply filter_In in Y; apply Y].
    revert H. generalize (filter notDot l). clear l. induction l as [|a l IH]; cbn [findEntry]; intros H; [discriminate|].
    destruct pat as [f|]; [destruct (f a) as [?|]|]; try (injection H as <- <- <-; right; exact X). right. apply IH, H. }
  clear H. induction r as [|a r IH]; [reflexivity|]. cbn [filter]. rewrite (K a) by (left; reflexivity). f_equal. apply IH. intros x X. apply K. right. exact X.
Qed.
Lemma collect_dir pat n : forall fuel l d e m, (List.length (filter notDot l) < n)%nat -> (n <= fuel)%nat ->
  collect fuel pat (mkIter FDirectory d (Some l) e m true) = Ret ((e, m) :: found pat (filter notDot l)).
Proof.
  induction n as [|n IH]; intros fuel l d e m L F; [lia|]. destruct fuel as [|fuel]; [lia|].
  pose proof (findEntry_found pat (filter notDot l)) as K. pose proof (found_filter pat l) as Q.
  cbn [collect itOk negb]. unfold nextIt. cbn [itOk negb itType itLines itDir itEntry itMatched].
  destruct (findEntry pat (filter notDot l)) as [[[e' m'] r]|]; cbn [obind].
  - destruct K as [-> K]. specialize (Q r e' m' eq_refl). rewrite IH by (rewrite ?Q; lia). rewrite Q. reflexivity.
  - rewrite K. destruct fuel; reflexivity.
Qed.
Lemma openIt_resolves fs path p f : resolves fs path p ->
  openIt fs (S (S f)) path =
    match fsType fs p with
    | FDirectory => Ret (mkIter FDirectory None (fsDir fs p) [] [] (match fsDir fs p with Some _ => true | None => fileTyEqb (fsType fs path) FLink end))
    | FRegular => Ret (mkIter FRegular (option_map linesOf (fsFile fs p)) None [] [] (match fsFile fs p with Some _ => true | None => fileTyEqb (fsType fs path) FLink end))
    | t => Ret (mkIter t None None [] [] (fileTyEqb (fsType fs path) FLink))
    end.
Proof.
  intros [[N ->] | (E & R & N)].
  - cbn [openIt]. destruct (fsType fs path); try reflexivity; try (exfalso; apply N; reflexivity).
    + destruct (fsFile fs path); reflexivity.
    + destruct (fsDir fs path); reflexivity.
  - cbn [openIt]. rewrite E, R. destruct (fsType fs p); try reflexivity; try (exfalso; apply N; reflexivity).
    + destruct (fsFile fs p); reflexivity.
    + destruct (fsDir fs p); reflexivity.
Qed.
(** a regular file, or a link to one: its lines, in order, that match the pattern, each with what the pattern found *)
Theorem C125_file fs pat path p s ls fuel : resolves fs path p -> fsType fs p = FRegular -> fsFile fs p = Some s -> fileLines s ls ->
  (List.length ls <= fuel)%nat -> entriesOf fs pat fuel path = Ret (found pat ls).
Proof.
  intros R T O F L. apply fileLines_linesOf in F. subst ls. unfold entriesOf, newIter. rewrite (openIt_resolves fs path p 38 R), T, O. cbn [obind itOk option_map].
  unfold nextIt. cbn [itOk negb itType itLines itDir itEntry itMatched]. pose proof (findEntry_found pat (linesOf s)) as K.
  destruct (findEntry pat (linesOf s)) as [[[e m] r]|]; cbn [obind].
  - destruct K as [-> K]. apply (collect_file pat fuel); lia.
  - rewrite K. destruct fuel; reflexivity.
Qed.
(** a directory, or a link to one: its names that do not begin with a dot *)
Theorem C125_dir fs pat path p names fuel : resolves fs path p -> fsType fs p = FDirectory -> fsDir fs p = Some names ->
  (List.length names <= fuel)%nat -> entriesOf fs pat fuel path = Ret (found pat (filter (fun n => match n with 46 :: _ => false | _ => true end) names)).
Proof.
  intros R T O L. replace (filter _ names) with (filter notDot names).
  2:{ apply filter_ext. intros n. destruct n as [|c n]; [reflexivity|]. unfold notDot. destruct (Z.eqb_spec c 46) as [-> | N]; [reflexivity|].
      cbn. destruct c as [|q|q]; try reflexivity. do 6 (destruct q as [q|q|]; try reflexivity). exfalso. apply N. reflexivity. }
  assert (L' : (List.length (filter notDot names) <= List.length names)%nat).
  { clear. induction names as [|n names IH]; [reflexivity|]. cbn [filter]. destruct (notDot n); cbn [List.length]; lia. }
  unfold entriesOf, newIter. rewrite (openIt_resolves fs path p 38 R), T, O. cbn [obind itOk].
  unfold nextIt. cbn [itOk negb itType itLines itDir itEntry itMatched]. pose proof (findEntry_found pat (filter notDot names)) as K. pose proof (found_filter pat names) as Q.
  destruct (findEntry pat (filter notDot names)) as [[[e m] r]|]; cbn [obind].
  - destruct K as [-> K]. specialize (Q r e m eq_refl). rewrite (collect_dir pat fuel) by (rewrite ?Q; lia). rewrite Q. reflexivity.
  - rewrite K. destruct fuel; reflexivity.
Qed.
(** what is not a link and cannot be read has no entries *)
Theorem C125_unreadable fs pat path fuel : fsType fs path <> FLink ->
  ~ (fsType fs path = FRegular /\ fsFile fs path <> None) -> ~ (fsType fs path = FDirectory /\ fsDir fs path <> None) ->
  entriesOf fs pat fuel path = Ret [].
Proof.
  intros N F D. unfold entriesOf, newIter. rewrite (openIt_resolves fs path path 38) by (left; auto).
  destruct (fsType fs path) eqn:T; try (exfalso; apply N; reflexivity); cbn [obind itOk fileTyEqb]; try (destruct fuel; reflexivity).
  - destruct (fsFile fs path); [exfalso; apply F; split; [reflexivity|discriminate]|]. destruct fuel; reflexivity.
  - destruct (fsDir fs path); [exfalso; apply D; split; [reflexivity|discriminate]|]. destruct fuel; reflexivity.
Qed.
(** a link to such a thing ends the process, unless it is a file that cannot be opened; a link to nothing has no entries *)
Theorem C125_link fs pat path fuel : fsType fs path = FLink ->
  (fsReal fs path = None -> entriesOf fs pat fuel path = Ret []) /\
  (forall p, fsReal fs path = Some p -> fsType fs p <> FLink ->
     (fsType fs p <> FRegular -> ~ (fsType fs p = FDirectory /\ fsDir fs p <> None) -> entriesOf fs pat fuel path = Fatal) /\
     (fsType fs p = FRegular -> fsFile fs p = None -> entriesOf fs pat fuel path = Ret [])).
Proof.
  intros E. split.
  - intros R. unfold entriesOf, newIter. cbn [openIt]. rewrite E, R. destruct fuel; reflexivity.
  - intros p R N. unfold entriesOf, newIter. rewrite (openIt_resolves fs path p 38) by (right; auto). rewrite E. split.
    + intros T D. destruct (fsType fs p) eqn:X; try (exfalso; apply N; reflexivity); try (exfalso; apply T; reflexivity); try reflexivity.
      destruct (fsDir fs p) eqn:Y; [exfalso; apply D; split; [reflexivity|discriminate]|]. reflexivity.
    + intros T F. rewrite T, F. destruct fuel; reflexivity.
Qed.
(** for all file systems and paths an iterator ends well, if links are only to files and directories that can be read *)
Theorem C125_no_abort fs pat path p fuel : resolves fs path p ->
  (fsType fs path = FLink -> fsType fs p = FRegular \/ (fsType fs p = FDirectory /\ fsDir fs p <> None)) ->
  entriesOf fs pat fuel path <> Fatal.
Proof.
  intros R H. assert (C : forall f it, (itType it = FRegular \/ (itType it = FDirectory /\ itDir it <> None)) -> collect f pat it <> Fatal).
  { induction f as [|f IH]; intros it K; cbn [collect]; destruct (itOk it) eqn:O; try discriminate. cbn [negb]. unfold nextIt. rewrite O. cbn [negb].
    destruct K as [K | [K D]]; rewrite K.
    - destruct (findEntry pat _) as [[[e m] r]|]; cbn [obind]; match goal with |- context [collect f pat ?x] => specialize (IH x (or_introl eq_refl)); destruct (collect f pat x); cbn [obind]; congruence end.
    - destruct (itDir it) as [l|]; [|contradiction]. destruct (findEntry pat _) as [[[e m] r]|]; cbn [obind];
        match goal with |- context [collect f pat ?x] => assert (Y : itType x = FRegular \/ (itType x = FDirectory /\ itDir x <> None)) by (right; split; [reflexivity|discriminate]); specialize (IH x Y); destruct (collect f pat x); cbn [obind]; congruence end. }
  unfold entriesOf, newIter. rewrite (openIt_resolves fs path p 38 R).
  destruct (fsType fs p) eqn:T; cbn [obind itOk].
  all: try (destruct (fileTyEqb (fsType fs path) FLink) eqn:L;
    [exfalso; destruct (fsType fs path); try discriminate; destruct (H eq_refl) as [Q | [Q _]]; discriminate|]; destruct fuel; discriminate).
  - destruct (match fsFile fs p with Some _ => true | None => _ end); [|destruct fuel; discriminate].
    unfold nextIt. cbn [itOk negb itType itLines itDir]. destruct (findEntry pat _) as [[[e m] r]|]; cbn [obind]; apply C; left; reflexivity.
  - destruct (fsDir fs p) as [l|] eqn:D.
    + unfold nextIt. cbn [itOk negb itType itLines itDir]. destruct (findEntry pat _) as [[[e m] r]|]; cbn [obind]; apply C; right; (split; [reflexivity|discriminate]).
    + destruct (fileTyEqb (fsType fs path) FLink) eqn:L; [|destruct fuel; discriminate].
      exfalso. destruct (fsType fs path); try discriminate. destruct (H eq_refl) as [Q | [_ Q]]; [discriminate|apply Q; reflexivity].
Qed.
(** "an iterator over a path that cannot be read ends at once" is false: /dev/stdin as a link to a terminal *)
Theorem C125_ends_at_once_refuted : exists fs path p,
  resolves fs path p /\ fsType fs p = FChar /\ forall fuel, entriesOf fs None fuel path = Fatal.
Proof.
  exists (mkFs (fun p => if strEqb p (B "/dev/stdin") then FLink else FChar) (fun _ => Some (B "/dev/pts/0")) (fun _ => None) (fun _ => None)), (B "/dev/stdin"), (B "/dev/pts/0").
  splits; [right; splits; [reflexivity|reflexivity|discriminate]|reflexivity|reflexivity].
Qed.
Example C125_case :
  let fs := mkFs (fun p => if strEqb p (B "/a") then FLink else FRegular) (fun _ => Some (B "/b"))
                 (fun _ => Some (B "x=1" ++ [10; 10] ++ B "pid 42" ++ [10] ++ B "last7")) (fun _ => None) in
  resolves fs (B "/a") (B "/b")
  /\ entriesOf fs None 9 (B "/a") = Ret [(B "x=1", []); ([], []); (B "pid 42", []); (B "last7", [])]
  /\ entriesOf fs (Some firstNumber) 9 (B "/a") = Ret [(B "x=1", B "1"); (B "pid 42", B "42"); (B "last7", B "7")].
Proof. cbv zeta. split; [right; splits; [reflexivity|reflexivity|discriminate]|]. split; vm_compute; reflexivity. Qed.

(** * C126: listings *)
(** an entry is in the listing iff it has that type and matches *)
Definition actual (fs : fsys) (dir : str) (e : str * option fileTy) : Prop :=
  match snd e with Some t => t = fsType fs (joinPath dir (fst e)) | None => True end.
Lemma fileTyEqb_eq a b : fileTyEqb a b = true <-> a = b.
Proof. destruct a, b; cbn; split; intros H; congruence. Qed.
Definition listed (fs : fsys) (ty : fileTy) (glob : option (str -> bool)) (dir name : str) : bool :=
  fileTyEqb (fsType fs (joinPath dir name)) ty && negb (strEqb name [46]) && negb (strEqb name [46; 46]) && match glob with Some g => g name | None => true end.
(** whether or not the file system tells the types of the entries: the names of the entries of that type, in readdir's order, but for . and .. *)
Theorem C126_names fs entries ty glob dir : ty <> FUnknown -> ty <> FNotExist -> (forall e, In e entries -> actual fs dir e) ->
  listDir fs entries ty false glob dir = filter (listed fs ty glob dir) (map fst entries)
  /\ listDir fs entries ty true glob dir = map (joinPath dir) (filter (listed fs ty glob dir) (map fst entries)).
Proof.
  intros N1 N2 H. induction entries as [|[name dt] entries IH]; [split; reflexivity|].
  assert (A : isType fs ty dir name dt = fileTyEqb (fsType fs (joinPath dir name)) ty).
  { specialize (H _ (or_introl eq_refl)). unfold actual in H. cbn [fst snd] in H. destruct dt as [t|]; [subst t|]; reflexivity. }
  destruct IH as [I1 I2]; [intros e X; apply H; right; exact X|].
  unfold listDir in *. cbn [flat_map map fst filter]. rewrite I1, I2. clear I1 I2.
  replace (match ty with FUnknown | FNotExist => false | _ => isType fs ty dir name dt end) with (isType fs ty dir name dt) by (destruct ty; congruence).
  rewrite A. generalize (filter (listed fs ty glob dir) (map fst entries)). intros tl. unfold listed. change (B ".") with [46]. change (B "..") with [46; 46].
  destruct (fileTyEqb (fsType fs (joinPath dir name)) ty); [|split; reflexivity]. cbn [andb].
  destruct (strEqb name [46]); [split; reflexivity|]. destruct (strEqb name [46; 46]); [split; reflexivity|]. cbn [orb andb negb].
  destruct glob as [g|]; [destruct (g name)|]; split; reflexivity.
Qed.
(** hence the same listing on a file system that tells the types and on one that does not *)
Theorem C126_same fs names tell tell' ty full glob dir :
  (forall n t, tell n = Some t -> t = fsType fs (joinPath dir n)) -> (forall n t, tell' n = Some t -> t = fsType fs (joinPath dir n)) ->
  listDir fs (map (fun n => (n, tell n)) names) ty full glob dir = listDir fs (map (fun n => (n, tell' n)) names) ty full glob dir.
Proof.
  intros H H'. destruct (fileTyEqb ty FUnknown) eqn:U; [|destruct (fileTyEqb ty FNotExist) eqn:V].
  - apply fileTyEqb_eq in U. subst ty. unfold listDir. induction names; [reflexivity|exact IHnames].
  - apply fileTyEqb_eq in V. subst ty. unfold listDir. induction names; [reflexivity|exact IHnames].
  - assert (K : forall t, (forall n t', t n = Some t' -> t' = fsType fs (joinPath dir n)) -> forall e, In e (map (fun n => (n, t n)) names) -> actual fs dir e).
    { intros t T e X. apply in_map_iff in X. destruct X as (n & <- & _). unfold actual. cbn [fst snd]. destruct (t n) eqn:E; [apply T; exact E|trivial]. }
    assert (N1 : ty <> FUnknown) by (intros ->; discriminate). assert (N2 : ty <> FNotExist) by (intros ->; discriminate).
    destruct (C126_names fs _ ty glob dir N1 N2 (K tell H)) as [A1 A2]. destruct (C126_names fs _ ty glob dir N1 N2 (K tell' H')) as [B1 B2].
    assert (M : forall t : str -> option fileTy, map fst (map (fun n => (n, t n)) names) = names) by (intros t; rewrite map_map; apply map_id).
    rewrite M in *. destruct full; congruence.
Qed.
Example C126_case :
  let fs := mkFs (fun p => if strEqb p (B "/d/sub") then FDirectory else if strEqb p (B "/d/..") then FDirectory else FRegular) (fun _ => None) (fun _ => None) (fun _ => None) in
  let es := [(B "..", None); (B "sub", None); (B "a.log", Some FRegular); (B "b", None)] in
  (forall e, In e es -> actual fs (B "/d") e)
  /\ listDir fs es FDirectory true None (B "/d/") = [B "/d/sub"]
  /\ listDir fs es FRegular false (Some (fun n => (2 <? Z.of_nat (List.length n)))) (B "/d") = [B "a.log"].
Proof. cbv zeta. splits; [|vm_compute; reflexivity|vm_compute; reflexivity]. intros e [<- | [<- | [<- | [<- | []]]]]; vm_compute; trivial. Qed.

(** * C127: pid files *)
Inductive denotes : str -> Z -> Prop :=
| dn_one c : 48 <= c <= 57 -> denotes [c] (c - 48)
| dn_more s v c : denotes s v -> 48 <= c <= 57 -> denotes (s ++ [c]) (10 * v + (c - 48)).
Definition noDigits (s : str) : Prop := forall c, In c s -> ~ (48 <= c <= 57).
(** the first number of a text *)
Definition firstNum (s ds : str) : Prop :=
  exists pre rest, s = pre ++ ds ++ rest /\ noDigits pre /\ (rest = [] \/ exists c r, rest = c :: r /\ ~ (48 <= c <= 57)).

Lemma denotes_facts ds v : denotes ds v -> valueGo ds 0 = v /\ forallb isDig ds = true /\ ds <> [].
Proof.
  induction 1 as [c H|s v c H (IH1 & IH2 & IH3) HC].
  - splits; [cbn; lia|cbn; unfold isDig; lia|discriminate].
  - splits; [|rewrite forallb_app, IH2; cbn; unfold isDig; lia|destruct s; discriminate].
    unfold valueGo in *. rewrite fold_left_app, IH1. reflexivity.
Qed.
Lemma noDigits_first s : noDigits s -> firstNumber s = None.
Proof.
  induction s as [|c s IH]; intros H; [reflexivity|]. cbn [firstNumber].
  assert (isDig c = false) as -> by (specialize (H c (or_introl eq_refl)); unfold isDig; lia). apply IH. intros x X. apply H. right. exact X.
Qed.
Lemma digitRun_run ds rest : forallb isDig ds = true -> (rest = [] \/ exists c r, rest = c :: r /\ ~ (48 <= c <= 57)) -> digitRun (ds ++ rest) = ds.
Proof.
  intros H S. induction ds as [|c ds IH]; cbn [app digitRun].
  - destruct S as [-> | (c & r & -> & N)]; [reflexivity|]. cbn [digitRun]. assert (isDig c = false) as -> by (unfold isDig; lia). reflexivity.
  - cbn [forallb] in H. apply andb_prop in H. destruct H as [-> H]. rewrite IH by exact H. reflexivity.
Qed.
Lemma first_run pre ds rest : noDigits pre -> ds <> [] -> forallb isDig ds = true -> (rest = [] \/ exists c r, rest = c :: r /\ ~ (48 <= c <= 57)) ->
  firstNumber (pre ++ ds ++ rest) = Some ds.
Proof.
  intros P N H S. induction pre as [|c pre IH]; cbn [app firstNumber].
  - destruct ds as [|d ds]; [contradiction|]. cbn [app firstNumber]. pose proof H as H'. cbn [forallb] in H'. apply andb_prop in H'. destruct H' as [-> _].
    f_equal. change (d :: ds ++ rest) with ((d :: ds) ++ rest). apply digitRun_run; assumption.
  - assert (isDig c = false) as -> by (specialize (P c (or_introl eq_refl)); unfold isDig; lia). apply IH. intros x X. apply P. right. exact X.
Qed.
Lemma linesGo_more rest : forall w, w <> [] -> exists tl r, linesGo w rest = (w ++ tl) :: r
  /\ ((rest = [] \/ exists c r, rest = c :: r /\ ~ (48 <= c <= 57)) -> (tl = [] \/ exists c r, tl = c :: r /\ ~ (48 <= c <= 57))).
Proof.
  induction rest as [|c rest IH]; intros w N; cbn [linesGo].
  - exists [], []. rewrite app_nil_r. destruct w; [contradiction|]. auto.
  - destruct (Z.eqb_spec c 10).
    + exists [], (linesGo [] rest). rewrite app_nil_r. auto.
    + destruct (IH (w ++ [c])) as (tl & r & E & _); [destruct w; discriminate|]. exists (c :: tl), r. rewrite E, <- app_assoc. split; [reflexivity|].
      intros [X | (c' & r' & X & Y)]; [discriminate|]. injection X as <- <-. right. exists c, tl. auto.
Qed.
Lemma linesGo_digits ds : forall cur rest, forallb isDig ds = true -> linesGo cur (ds ++ rest) = linesGo (cur ++ ds) rest.
Proof.
  induction ds as [|d ds IH]; intros cur rest H; cbn [app linesGo]; [rewrite app_nil_r; reflexivity|].
  cbn [forallb] in H. apply andb_prop in H. destruct H as [D H]. assert (d =? 10 = false) as -> by (unfold isDig in D; lia).
  rewrite IH by exact H. rewrite <- app_assoc. reflexivity.
Qed.
Lemma lines_number pre ds rest : ds <> [] -> forallb isDig ds = true -> (rest = [] \/ exists c r, rest = c :: r /\ ~ (48 <= c <= 57)) ->
  forall cur, noDigits cur -> noDigits pre -> exists e r, findEntry (Some firstNumber) (linesGo cur (pre ++ ds ++ rest)) = Some (e, ds, r).
Proof.
  intros N H S. induction pre as [|c pre IH]; intros cur C P; cbn [app].
  - rewrite linesGo_digits by exact H. destruct (linesGo_more rest (cur ++ ds)) as (tl & r & E & T); [destruct cur; [exact N|discriminate]|].
    rewrite E. cbn [findEntry]. rewrite <- app_assoc, first_run by auto. eauto.
  - assert (P' : noDigits pre) by (intros x X; apply P; right; exact X). cbn [linesGo]. destruct (Z.eqb_spec c 10).
    + cbn [findEntry]. rewrite noDigits_first by exact C. apply IH; [intros x []|exact P'].
    + apply IH; [|exact P']. intros x X. apply in_app_iff in X. destruct X as [X | [<- | []]]; [apply C; exact X|apply P; left; reflexivity].
Qed.
Lemma lines_nonumber s : forall cur, noDigits cur -> noDigits s -> findEntry (Some firstNumber) (linesGo cur s) = None.
Proof.
  induction s as [|c s IH]; intros cur C P; cbn [linesGo].
  - destruct cur; [reflexivity|]. cbn [findEntry]. rewrite noDigits_first by exact C. reflexivity.
  - assert (P' : noDigits s) by (intros x X; apply P; right; exact X). destruct (Z.eqb_spec c 10).
    + cbn [findEntry]. rewrite noDigits_first by exact C. apply IH; [intros x []|exact P'].
    + apply IH; [|exact P']. intros x X. apply in_app_iff in X. destruct X as [X | [<- | []]]; [apply C; exact X|apply P; left; reflexivity].
Qed.
Lemma newIter_file fs pat path p s : resolves fs path p -> fsType fs p = FRegular -> fsFile fs p = Some s ->
  newIter fs pat path = match findEntry pat (linesOf s) with
                        | Some (e, m, r) => Ret (mkIter FRegular (Some r) None e m true)
                        | None => Ret (mkIter FRegular (Some []) None [] [] false)
                        end.
Proof.
  intros R T F. unfold newIter. rewrite (openIt_resolves fs path p 38 R), T, F. cbn [obind itOk option_map]. unfold nextIt. cbn [itOk negb itType itLines itDir itEntry itMatched].
  reflexivity.
Qed.
Lemma self_resolves fs path : fsType fs path = FRegular -> resolves fs path path.
Proof. intros T. left. rewrite T. split; [discriminate|reflexivity]. Qed.
(** a pid file that can be read: free iff its first number is this process's or no process's; a text without a number is free;
    a number of 32 bits that is negative as pid_t asks about a process group; a number beyond 32 bits is an exception *)
Theorem C127_read fs acc kill me path p s : acc path = AccessOk -> resolves fs path p -> fsType fs p = FRegular -> fsFile fs p = Some s ->
  (noDigits s -> isPidFileFree fs acc kill me path = Ret (Some true)) /\
  (forall ds v, firstNum s ds -> denotes ds v -> v <= 2147483647 ->
     exists b, isPidFileFree fs acc kill me path = Ret (Some b) /\ (b = true <-> v = me \/ kill v = KillNone)) /\
  (forall ds v, firstNum s ds -> denotes ds v -> 2147483647 < v <= 4294967295 ->
     exists b, isPidFileFree fs acc kill me path = Ret (Some b) /\ (b = true <-> v - 4294967296 = me \/ kill (v - 4294967296) = KillNone)) /\
  (forall ds v, firstNum s ds -> denotes ds v -> 4294967295 < v -> isPidFileFree fs acc kill me path = Ret None).
Proof.
  intros A R T F. unfold isPidFileFree. rewrite A, (newIter_file fs (Some firstNumber) path p s R T F). unfold linesOf. splits.
  - intros N. rewrite lines_nonumber by (try exact N; intros x []). reflexivity.
  - intros ds v (pre & rest & -> & P & S) D V. destruct (denotes_facts ds v D) as (E & X & Y).
    destruct (lines_number pre ds rest Y X S [] (fun x Z => match Z with end) P) as (e & r & ->). cbn [obind itOk negb itMatched].
    unfold toUint32. rewrite E. assert (0 <= v) by (clear -D; induction D; lia). assert (v <=? 4294967295 = true) as -> by lia.
    replace (wrap32 v) with v by (unfold wrap32; lia). exists (isPidFree kill me v). split; [reflexivity|]. unfold isPidFree.
    destruct (Z.eqb_spec v me); [split; auto|]. destruct (kill v); split; try discriminate; auto; intros [W | W]; congruence.
  - intros ds v (pre & rest & -> & P & S) D V. destruct (denotes_facts ds v D) as (E & X & Y).
    destruct (lines_number pre ds rest Y X S [] (fun x Z => match Z with end) P) as (e & r & ->). cbn [obind itOk negb itMatched].
    unfold toUint32. rewrite E. assert (0 <= v) by (clear -D; induction D; lia). assert (v <=? 4294967295 = true) as -> by lia.
    replace (wrap32 v) with (v - 4294967296) by (unfold wrap32; lia). exists (isPidFree kill me (v - 4294967296)). split; [reflexivity|]. unfold isPidFree.
    destruct (Z.eqb_spec (v - 4294967296) me); [split; auto|]. destruct (kill (v - 4294967296)); split; try discriminate; auto; intros [W | W]; congruence.
  - intros ds v (pre & rest & -> & P & S) D V. destruct (denotes_facts ds v D) as (E & X & Y).
    destruct (lines_number pre ds rest Y X S [] (fun x Z => match Z with end) P) as (e & r & ->). cbn [obind itOk negb itMatched].
    unfold toUint32. rewrite E. assert (v <=? 4294967295 = false) as -> by lia. reflexivity.
Qed.
Lemma digits_value s : forall acc, forallb isDig s = true -> snd (digits s acc) = valueGo s acc.
Proof.
  induction s as [|c s IH]; intros acc H; [reflexivity|]. cbn [forallb] in H. apply andb_prop in H. destruct H as [D H]. cbn [digits].
  unfold isDig in D. rewrite D. specialize (IH (acc * 10 + (c - 48)) H). destruct (digits s _) as [n z]. cbn [snd] in *. rewrite IH. unfold valueGo. cbn [fold_left]. f_equal. lia.
Qed.
Lemma denotes_all s : s <> [] -> forallb isDig s = true -> denotes s (valueGo s 0).
Proof.
  induction s as [|c s IH] using rev_ind; intros N H; [contradiction|]. rewrite forallb_app in H. apply andb_prop in H. destruct H as [H C].
  cbn [forallb] in C. rewrite Bool.andb_true_r in C. unfold isDig in C. unfold valueGo. rewrite fold_left_app. cbn [fold_left].
  destruct s as [|d s]; [apply (dn_one c); lia|]. apply (dn_more (d :: s) (valueGo (d :: s) 0) c); [apply IH; [discriminate|exact H]|lia].
Qed.
Lemma decZ_denotes v : 0 <= v -> denotes (decZ v) v.
Proof.
  intros H. destruct (decZ_nonneg v H) as (N & D & V). specialize (V [] eq_refl). rewrite app_nil_r in V.
  assert (E : valueGo (decZ v) 0 = v) by (rewrite <- digits_value by exact D; rewrite V; reflexivity). rewrite <- E at 2. apply denotes_all; assumption.
Qed.
Lemma written_number v t : 0 <= v -> firstNum (decZ v ++ 10 :: t) (decZ v).
Proof. intros H. exists [], (10 :: t). splits; [reflexivity|intros x []|right; exists 10, t; split; [reflexivity|lia]]. Qed.
(** what makePidFile writes is read back as that process; it answers OK iff the directory and the file could be made *)
Theorem C127_written fs acc kill reader mkdir fopen me path pid : 0 < me <= 2147483647 -> 0 <= pid <= 2147483647 ->
  let '(ok, content) := makePidFile mkdir fopen (fun x => x) me path pid in
  (ok = true <-> path <> [] /\ mkdir = true /\ fopen = true) /\ (ok = true <-> content <> None) /\
  (acc path = AccessOk -> fsType fs path = FRegular -> content <> None -> fsFile fs path = content ->
     exists b, isPidFileFree fs acc kill reader path = Ret (Some b)
       /\ (b = true <-> (if pid =? 0 then me else pid) = reader \/ kill (if pid =? 0 then me else pid) = KillNone)).
Proof.
  intros HM HP. destruct (makePidFile mkdir fopen (fun x => x) me path pid) as [ok content] eqn:E. unfold makePidFile in E.
  destruct path as [|c path]; [injection E as <- <-; splits; try (split; [discriminate|intros (X & _); congruence]); [split; [discriminate|congruence]|congruence]|].
  destruct mkdir; cbn [negb] in E; [|injection E as <- <-; splits; try (split; [discriminate|intros (_ & X & _); congruence]); [split; [discriminate|congruence]|congruence]].
  destruct fopen; cbn [negb] in E; [|injection E as <- <-; splits; try (split; [discriminate|intros (_ & _ & X); congruence]); [split; [discriminate|congruence]|congruence]].
  injection E as <- <-. splits; [split; [intros _; splits; try reflexivity; discriminate|reflexivity]|split; [discriminate|reflexivity]|].
  intros A T _ F. set (v := if pid =? 0 then me else pid) in *. assert (0 <= v <= 2147483647) by (unfold v; destruct (pid =? 0); lia).
  destruct (C127_read fs acc kill reader (c :: path) (c :: path) _ A (self_resolves fs _ T) T F) as (_ & K & _ & _).
  apply (K (decZ v) v); [apply written_number; lia|apply decZ_denotes; lia|lia].
Qed.
(** access: no file is free, a file that may not be read is not *)
Theorem C127_access fs acc kill me path :
  (acc path = AccessNoEnt -> isPidFileFree fs acc kill me path = Ret (Some true)) /\
  (acc path = AccessOther -> isPidFileFree fs acc kill me path = Ret (Some false)).
Proof. unfold isPidFileFree. split; intros ->; reflexivity. Qed.
(** "OK means that the file holds the pid" is false: the writes are not checked; a full disk leaves a file that is free for all *)
Theorem C127_ok_refuted : exists disk me path content, makePidFile true true disk me path 0 = (true, Some content)
  /\ noDigits content /\ (forall fs acc kill reader, acc path = AccessOk -> fsType fs path = FRegular -> fsFile fs path = Some content ->
       isPidFileFree fs acc kill reader path = Ret (Some true)).
Proof.
  exists (fun _ => []), 4242, (B "/var/run/nebula.pid"), []. splits; [reflexivity|intros x []|].
  intros fs acc kill reader A T F. destruct (C127_read fs acc kill reader (B "/var/run/nebula.pid") (B "/var/run/nebula.pid") [] A (self_resolves fs _ T) T F) as (K & _ & _ & _).
  apply K. intros x [].
Qed.
(** "a status is returned for all contents" is false: a date in digits is a number beyond 32 bits *)
Theorem C127_throws_refuted : exists s, forall fs acc kill me path, acc path = AccessOk -> fsType fs path = FRegular -> fsFile fs path = Some s ->
  isPidFileFree fs acc kill me path = Ret None.
Proof.
  exists (B "20201225103000"). intros fs acc kill me path A T F.
  destruct (C127_read fs acc kill me path path _ A (self_resolves fs _ T) T F) as (_ & _ & _ & K).
  apply (K (B "20201225103000") 20201225103000); [exists [], []; splits; [reflexivity|intros x []|auto]| |lia].
  exact (denotes_all (B "20201225103000") ltac:(vm_compute; discriminate) eq_refl).
Qed.

(** ** One daemon *)
(** A machine: the processes, the daemons among them, the pid file. Starting a daemon checks the file and, if it is free, forks and lets
    the child write it (daemonize, ProcessUtils.cpp:82-100). *)
Record host := mkHost { hAlive : list Z; hDaemons : list Z; hFile : option str }.
Definition pidPath : str := B "/run/d.pid".
Definition hostFs (h : host) : fsys := mkFs (fun _ => match hFile h with Some _ => FRegular | None => FNotExist end) (fun _ => None) (fun _ => hFile h) (fun _ => None).
Definition hostAcc (h : host) (p : str) : accessed := match hFile h with Some _ => AccessOk | None => AccessNoEnt end.
Definition hostKill (h : host) (p : Z) : killed := if existsb (Z.eqb p) (hAlive h) then KillOk else KillNone.
Definition isFree (h : host) (me : Z) : Prop := isPidFileFree (hostFs h) (hostAcc h) (hostKill h) me pidPath = Ret (Some true).
Definition hWrite (h : host) (c : Z) : host := mkHost (c :: hAlive h) (c :: hDaemons h) (snd (makePidFile true true (fun x => x) c pidPath 0)).
Inductive hstep : host -> host -> Prop :=
| hs_spawn h p : 0 < p <= 2147483647 -> ~ In p (hAlive h) -> hstep h (mkHost (p :: hAlive h) (hDaemons h) (hFile h))
| hs_exit h p : hstep h (mkHost (filter (fun q => negb (q =? p)) (hAlive h)) (filter (fun q => negb (q =? p)) (hDaemons h)) (hFile h))
| hs_start h me c : ~ In me (hDaemons h) -> 0 < c <= 2147483647 -> ~ In c (hAlive h) -> isFree h me -> hstep h (hWrite h c).
Inductive hreach : host -> Prop :=
| hr_init : hreach (mkHost [] [] None)
| hr_step h h' : hreach h -> hstep h h' -> hreach h'.
Definition hinv (h : host) : Prop :=
  match hDaemons h with
  | [] => True
  | [d] => In d (hAlive h) /\ 0 < d <= 2147483647 /\ exists t, hFile h = Some (decZ d ++ 10 :: t)
  | _ => False
  end.
Lemma hinv_reach h : hreach h -> hinv h.
Proof.
  induction 1 as [|h h' R IH S]; [exact I|]. destruct S as [h p P N|h p|h me c N P F FR].
  - unfold hinv in *. cbn [hDaemons hAlive hFile]. destruct (hDaemons h) as [|d [|]]; auto. destruct IH as (A & B & C). splits; [right; exact A|lia|lia|exact C].
  - unfold hinv in *. cbn [hDaemons hAlive hFile]. destruct (hDaemons h) as [|d [|]]; [exact I| |contradiction].
    destruct IH as (A & B & C). cbn [filter]. destruct (negb (d =? p)) eqn:E; [|exact I]. splits; [apply filter_In; auto|lia|lia|exact C].
  - destruct (hDaemons h) as [|d ds] eqn:D.
    + unfold hinv, hWrite. cbn [hDaemons]. rewrite D. cbn [hAlive hFile]. splits; [left; reflexivity|lia|lia|]. exists []. reflexivity.
    + exfalso. unfold hinv in IH. rewrite D in IH. destruct ds; [|contradiction]. destruct IH as (A & B & t & C).
      destruct (C127_read (hostFs h) (hostAcc h) (hostKill h) me pidPath pidPath (decZ d ++ 10 :: t)) as (_ & K & _ & _).
      * unfold hostAcc. rewrite C. reflexivity.
      * left. split; [cbn; rewrite C; discriminate|reflexivity].
      * cbn. rewrite C. reflexivity.
      * cbn. exact C.
      * destruct (K (decZ d) d) as (b & E & Q); [apply written_number; lia|apply decZ_denotes; lia|lia|].
        unfold isFree in FR. rewrite FR in E. injection E as <-. destruct (proj1 Q eq_refl) as [X | X]; [apply N; left; exact X|].
        unfold hostKill in X. replace (existsb (Z.eqb d) (hAlive h)) with true in X; [discriminate|]. symmetry. apply existsb_exists. exists d. split; [exact A|apply Z.eqb_refl].
Qed.
(** in all executions in which nobody starts between a check and the write that follows, there is at most one daemon *)
Theorem C127_one_daemon h : hreach h -> (List.length (hDaemons h) <= 1)%nat.
Proof. intros R. apply hinv_reach in R. unfold hinv in R. destruct (hDaemons h) as [|d [|]]; cbn; lia. Qed.
(** and when it has ended, and its pid is not taken again, another can start *)
Theorem C127_restart h me : hreach h -> hDaemons h = [] -> (forall d t, hFile h = Some (decZ d ++ 10 :: t) -> 0 < d <= 2147483647 -> ~ In d (hAlive h)) ->
  isFree h me.
Proof.
  intros R D H. assert (F : match hFile h with None => True | Some s => exists d t, s = decZ d ++ 10 :: t /\ 0 < d <= 2147483647 end).
  { clear D H. induction R as [|h h' R IH S]; [exact I|]. destruct S as [h p|h p|h m c N P]; try exact IH. unfold hWrite. cbn. exists c, []. split; [reflexivity|exact P]. }
  unfold isFree. destruct (hFile h) as [s|] eqn:E; [|unfold isPidFileFree, hostAcc; rewrite E; reflexivity]. destruct F as (d & t & -> & P).
  destruct (C127_read (hostFs h) (hostAcc h) (hostKill h) me pidPath pidPath (decZ d ++ 10 :: t)) as (_ & K & _ & _).
  - unfold hostAcc. rewrite E. reflexivity.
  - left. split; [cbn; rewrite E; discriminate|reflexivity].
  - cbn. rewrite E. reflexivity.
  - cbn. exact E.
  - destruct (K (decZ d) d) as (b & X & Q); [apply written_number; lia|apply decZ_denotes; lia|lia|]. rewrite X. do 2 f_equal. apply Q. right.
    unfold hostKill. replace (existsb (Z.eqb d) (hAlive h)) with false; [reflexivity|]. symmetry. apply Bool.not_true_is_false. intros Y.
    apply existsb_exists in Y. destruct Y as (y & Y & Z). apply Z.eqb_eq in Z. subst y. exact (H d t eq_refl P Y).
Qed.
(** "the pid file keeps a second daemon from starting" is false when two start at the same time: both checks before both writes *)
Theorem C127_race_refuted : exists h me1 me2 c1 c2, hreach h /\ In me1 (hAlive h) /\ In me2 (hAlive h) /\ me1 <> me2 /\ c1 <> c2
  /\ isFree h me1 /\ isFree h me2 /\ hDaemons (hWrite (hWrite h c1) c2) = [c2; c1].
Proof.
  exists (mkHost [8; 7] [] None), 7, 8, 9, 10. splits; try reflexivity; try (cbn; lia); try lia.
  apply (hr_step (mkHost [7] [] None)); [|apply hs_spawn; cbn; lia]. apply (hr_step (mkHost [] [] None)); [constructor|apply hs_spawn; cbn; lia].
Qed.
Example C127_case :
  let fs := mkFs (fun _ => FRegular) (fun _ => None) (fun _ => Some (B "pid:" ++ [10] ++ B " 17 18")) (fun _ => None) in
  isPidFileFree fs (fun _ => AccessOk) (fun p => if p =? 17 then KillPerm else KillNone) 5 (B "/x") = Ret (Some false)
  /\ isPidFileFree fs (fun _ => AccessOk) (fun p => if p =? 17 then KillPerm else KillNone) 17 (B "/x") = Ret (Some true)
  /\ firstNum (B "pid:" ++ [10] ++ B " 17 18") (B "17") /\ denotes (B "17") 17.
Proof.
  cbv zeta. split; [vm_compute; reflexivity|]. split; [vm_compute; reflexivity|]. split.
  - exists (B "pid:" ++ [10] ++ B " "), (B " 18"). splits; [reflexivity|intros c X; cbn in X; lia|right; exists 32, (B "18"); split; [reflexivity|lia]].
  - exact (denotes_all (B "17") ltac:(vm_compute; discriminate) eq_refl).
Qed.

Print Assumptions C125_lines.
Print Assumptions C125_file.
Print Assumptions C125_dir.
Print Assumptions C125_unreadable.
Print Assumptions C125_link.
Print Assumptions C125_no_abort.
Print Assumptions C125_ends_at_once_refuted.
Print Assumptions C126_names.
Print Assumptions C126_same.
Print Assumptions C127_read.
Print Assumptions C127_written.
Print Assumptions C127_access.
Print Assumptions C127_ok_refuted.
Print Assumptions C127_throws_refuted.
Print Assumptions C127_one_daemon.
Print Assumptions C127_restart.
Print Assumptions C127_race_refuted.
