(** Property C69, continued: the text naming the statistics is read word by word, in order. *)
From Coq Require Import String List.
From Verif Require Import Prelude Trans ValueBase ValueModel EvalModel FuncModel StatsModel ValueProofs StatsProps StatsRegProps WebProps CloneProofs.
Import ListNotations.
Open Scope Z_scope.

(** * Specification *)
Definition blank (c : Z) : Prop := c = 32 \/ c = 9 \/ c = 10 \/ c = 13.
(** A word with blanks around it *)
Definition wordIn (part w : str) : Prop := exists u v, part = u ++ w ++ v /\ Forall blank u /\ Forall blank v /\ w <> [] /\ Forall (fun c => ~ blank c /\ c <> 44 /\ c <> 0) w.
Definition methodName (m : statsMethod) : str := match m with MSum => B "sum" | MCount => B "count" | MAvg => B "avg" | MRate => B "rate" end.

Section S.
Context (toDouble : str -> option f64).
Inductive asks (w : str) : list statsMethod -> list (str * f64) -> Prop :=
  | AMethod m : lower w = methodName m -> asks w [m] []
  | APct ds N : lower w = 112 :: ds -> toDouble ds = Some (f64ofZ N) -> (1 <= List.length ds <= 6)%nat ->
      asks w [] [(112 :: ds, f64div (f64ofZ N) (f64ofZ (10 ^ Z.max 0 (Z.of_nat (List.length ds) - 2))))]
  | ALong ds : lower w = 112 :: ds -> ds = [] \/ (6 < List.length ds)%nat -> asks w [] []
  | ANoNumber ds : lower w = 112 :: ds -> toDouble ds = None -> asks w [] []
  | AOther : (forall m, lower w <> methodName m) -> (forall ds, lower w <> 112 :: ds) -> asks w [] [].
Inductive asksAll : list str -> list statsMethod -> list (str * f64) -> Prop :=
  | AllNil : asksAll [] [] []
  | AllCons part w parts ms ps ms' ps' : wordIn part w -> asks w ms ps -> asksAll parts ms' ps' -> asksAll (part :: parts) (ms ++ ms') (ps ++ ps').

Lemma isWs_blank c : isWs c = true <-> blank c.
Proof. unfold isWs, blank. rewrite !orb_true_iff, !Z.eqb_eq. tauto. Qed.
Lemma dropWs_blank u s : Forall blank u -> dropWs (u ++ s) = dropWs s.
Proof. induction 1 as [| c u H _ IH]; [reflexivity |]. cbn [app dropWs]. apply isWs_blank in H. rewrite H. exact IH. Qed.
Lemma dropWs_word w s : w <> [] -> Forall (fun c => ~ blank c) w -> dropWs (w ++ s) = w ++ s.
Proof. intros N F. destruct F as [| c w H _]; [contradiction |]. cbn [app dropWs]. destruct (isWs c) eqn:E; [apply isWs_blank in E; contradiction | reflexivity]. Qed.
Lemma trim_word part w : wordIn part w -> trimWs part = w.
Proof.
  intros (u & v & -> & Fu & Fv & N & F). assert (F' : Forall (fun c => ~ blank c) w) by (eapply Forall_impl; [| exact F]; intros c (Hc & _); exact Hc).
  unfold trimWs. rewrite dropWs_blank, dropWs_word, rev_app_distr, dropWs_blank; [| apply Forall_rev; assumption | assumption | assumption | assumption].
  rewrite <- (app_nil_r (rev w)). rewrite dropWs_word; [rewrite app_nil_r; apply rev_involutive | | apply Forall_rev; exact F'].
  intros Q. apply (f_equal (@List.length Z)) in Q. rewrite rev_length in Q. destruct w; [contradiction | discriminate].
Qed.
Lemma methodOf_name p m : methodOf p = Some m <-> p = methodName m.
Proof.
  unfold methodOf. split.
  - destruct (strEqb p (B "sum")) eqn:E1; [apply strEqb_iff in E1; intros [= <-]; exact E1 |]. destruct (strEqb p (B "count")) eqn:E2; [apply strEqb_iff in E2; intros [= <-]; exact E2 |].
    destruct (strEqb p (B "avg")) eqn:E3; [apply strEqb_iff in E3; intros [= <-]; exact E3 |]. destruct (strEqb p (B "rate")) eqn:E4; [apply strEqb_iff in E4; intros [= <-]; exact E4 | discriminate].
  - intros ->. destruct m; reflexivity.
Qed.
Lemma methodOf_none p : (forall m, p <> methodName m) -> methodOf p = None.
Proof. intros H. destruct (methodOf p) as [m |] eqn:E; [apply methodOf_name in E; destruct (H m E) | reflexivity]. Qed.
Lemma method_p ds m : 112 :: ds <> methodName m.
Proof. destruct m; discriminate. Qed.

(** Methods and percentiles separated by commas, in any letter case and with blanks around them, are read in the order
    given; anything else between the commas is passed over without disturbing its neighbours. *)
Theorem C69_text_read : forall parts ms ps, parts <> [] -> asksAll parts ms ps -> parseStats toDouble (joinStr (B ",") parts) = (ms, ps).
Proof.
  intros parts ms ps N A. unfold parseStats. rewrite split_names; [| exact N |].
  - clear N. induction A as [| part w parts ms ps ms' ps' Hw Ha A IH]; [reflexivity |]. cbn [parseParts]. rewrite IH, (trim_word _ _ Hw). destruct Ha.
    + rewrite H. replace (methodOf (methodName m)) with (Some m) by (symmetry; apply methodOf_name; reflexivity). reflexivity.
    + rewrite H, (methodOf_none _ (method_p ds)). cbn [startsP]. rewrite (C69_percentile_value toDouble ds N H0 H1). reflexivity.
    + rewrite H, (methodOf_none _ (method_p ds)). cbn [startsP]. rewrite (C69_percentile_refused toDouble ds 112 H0). reflexivity.
    + rewrite H, (methodOf_none _ (method_p ds)). cbn [startsP]. unfold strToPct. cbn [tl]. rewrite H0. destruct ((0 <? _)%nat && _)%bool; reflexivity.
    + rewrite (methodOf_none _ H). destruct (startsP (lower w)) eqn:E; [| reflexivity].
      destruct (lower w) as [| c ds] eqn:El; [discriminate |]. exfalso. apply (H0 ds). f_equal. clear - E. cbn [startsP] in E.
      destruct c as [| q |]; try discriminate E. do 7 (destruct q as [q | q |]; try discriminate E). reflexivity.
  - clear N. induction A as [| part w parts ms ps ms' ps' Hw Ha A IH]; constructor; [| exact IH].
    destruct Hw as (u & v & -> & Fu & Fv & N & F). rewrite Forall_forall in Fu, Fv, F. unfold blank in Fu, Fv. unfold nameOk. splits.
    + destruct u; [destruct w; [contradiction | discriminate] | discriminate].
    + rewrite !in_app_iff. intros [I | [I | I]]; [specialize (Fu _ I); lia | destruct (F _ I) as (_ & Q & _); contradiction | specialize (Fv _ I); lia].
    + rewrite !in_app_iff. intros [I | [I | I]]; [specialize (Fu _ I); lia | destruct (F _ I) as (_ & _ & Q); contradiction | specialize (Fv _ I); lia].
Qed.
End S.

Example C69_text_ex : let D := (fun s => if strEqb s (B "999") then Some (f64ofZ 999) else None) in
  asksAll D [B " Sum"; B "p999 "; B "bogus"; B "RATE"] [MSum; MRate] [(B "p999", f64div (f64ofZ 999) (f64ofZ 10))] /\
  parseStats D (B " Sum,p999 ,bogus,RATE") = ([MSum; MRate], [(B "p999", f64div (f64ofZ 999) (f64ofZ 10))]).
Proof.
  intros D. assert (A : asksAll D [B " Sum"; B "p999 "; B "bogus"; B "RATE"] [MSum; MRate] [(B "p999", f64div (f64ofZ 999) (f64ofZ 10))]).
  { assert (W : forall w, forallb (fun c => negb (isWs c) && negb (c =? 44) && negb (c =? 0)) w = true -> Forall (fun c => ~ blank c /\ c <> 44 /\ c <> 0) w).
    { intros w Hw. rewrite forallb_forall in Hw. apply Forall_forall. intros c I. specialize (Hw c I). rewrite !andb_true_iff, !negb_true_iff in Hw.
      destruct Hw as ((H1 & H2) & H3). splits; [intros Q; apply isWs_blank in Q; congruence | apply Z.eqb_neq; assumption | apply Z.eqb_neq; assumption]. }
    apply (AllCons D _ (B "Sum") _ [MSum] [] [MRate] [(B "p999", f64div (f64ofZ 999) (f64ofZ 10))]); [| apply AMethod; reflexivity |].
    { exists [32], []. splits; [reflexivity | repeat constructor | constructor | discriminate | apply W; reflexivity]. }
    apply (AllCons D _ (B "p999") _ [] [(B "p999", f64div (f64ofZ 999) (f64ofZ 10))] [MRate] []); [| apply (APct D _ (B "999") 999); [reflexivity | reflexivity | cbn; lia] |].
    { exists [], [32]. splits; [reflexivity | constructor | repeat constructor | discriminate | apply W; reflexivity]. }
    apply (AllCons D _ (B "bogus") _ [] [] [MRate] []); [| apply AOther; [intros []; discriminate | discriminate] |].
    { exists [], []. splits; [reflexivity | constructor | constructor | discriminate | apply W; reflexivity]. }
    apply (AllCons D _ (B "RATE") _ [MRate] [] [] []); [| apply AMethod; reflexivity | constructor].
    exists [], []. splits; [reflexivity | constructor | constructor | discriminate | apply W; reflexivity]. }
  split; [exact A |]. apply (C69_text_read D [B " Sum"; B "p999 "; B "bogus"; B "RATE"]); [discriminate | exact A].
Qed.
Print Assumptions C69_text_read.
