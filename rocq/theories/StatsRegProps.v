(** Property C69, continued: what is published is what was asked for. *)
From Coq Require Import String List.
From Verif Require Import Prelude Trans ValueBase ValueModel EvalModel FuncModel StatsModel ValueProofs StatsProps.
Import ListNotations.
Open Scope Z_scope.

(** * Specification *)
(** The last registration of a name *)
Definition names (o : statsOp) (n : str) : bool := match o with RegS m _ | RegH m _ _ _ _ => strEqb n m | Add _ _ => false end.
Fixpoint lastReg (ops : list statsOp) (n : str) : option statsOp :=
  match ops with [] => None | o :: ops' => match lastReg ops' n with Some o' => Some o' | None => if names o n then Some o else None end end.
Definition statsText (o : statsOp) : str := match o with RegS _ t | RegH _ _ _ _ t => t | Add _ _ => [] end.

Lemma lastReg_snoc ops o n : lastReg (ops ++ [o]) n = if names o n then Some o else lastReg ops n.
Proof. induction ops as [|p ops IH]; cbn [app lastReg]; [destruct (names o n); reflexivity|]. rewrite IH. destruct (names o n); reflexivity. Qed.

Section S.
Context (toDouble : str -> option f64) (debug : bool).
Notation run := (statsRun toDouble debug).

(** After any history, the statistics kept for a name are those its last registration asked for; the percentiles are
    those of the last registration if that was of a histogram. *)
Definition keeps (s : statsMgr) (n : str) (o : option statsOp) : Prop :=
  match o with
  | None => findName n (nameMap s) = None
  | Some o => exists i, findName n (nameMap s) = Some i /\ ciMethods i = fst (parseStats toDouble (statsText o)) /\
      (isRegS o = false -> ciPcts i = snd (parseStats toDouble (statsText o)))
  end.
Theorem C69_statistics_asked_for : forall ops s rs, run mgrInit ops = Ret (s, rs) -> forall n, keeps s n (lastReg ops n).
Proof.
  induction ops as [|o ops IH] using rev_ind; intros s rs H n; [apply Ret_inj in H; injection H as <- <-; reflexivity|].
  rewrite run_snoc in H. destruct (run mgrInit ops) as [[s1 rs1]| | |] eqn:E1; try discriminate. cbn [obind] in H.
  destruct (statsStep toDouble debug s1 o) as [[s2 r]| | |] eqn:E2; try discriminate. cbn [obind] in H. apply Ret_inj in H. injection H as <- <-.
  specialize (IH s1 rs1 eq_refl n). rewrite lastReg_snoc. destruct o as [m st|m b mn mx st|id v]; cbn [statsStep names] in *.
  - destruct (registerStats toDouble debug s1 m st) as [[s3 i3]| | |] eqn:R; try discriminate. apply Ret_inj in E2. injection E2 as <- <-. unfold registerStats in R. destruct (parseStats toDouble st) as [ms ps] eqn:Ep.
    destruct (findName m (nameMap s1)) as [i|] eqn:F.
    + destruct (debug && negb (0 <? ciId i)); try discriminate. apply Ret_inj in R. injection R as <- _. destruct (strEqb n m) eqn:En.
      * apply strEqb_eq in En. subst m. cbn [keeps nameMap]. rewrite find_set, strEqb_refl, F. eexists. split; [reflexivity|]. cbn [ciMethods ciPcts statsText isRegS]. rewrite Ep. split; [reflexivity|discriminate].
      * unfold keeps in *. cbn [nameMap]. rewrite find_set. rewrite En. exact IH.
    + apply Ret_inj in R. injection R as <- _. destruct (strEqb n m) eqn:En.
      * apply strEqb_eq in En. subst m. cbn [keeps nameMap]. rewrite find_snoc, F, strEqb_refl. eexists. split; [reflexivity|]. cbn [ciMethods ciPcts statsText isRegS]. rewrite Ep. split; [reflexivity|discriminate].
      * unfold keeps in *. cbn [nameMap]. rewrite find_snoc, En. destruct (findName n (nameMap s1)); exact IH.
  - destruct (registerHisto toDouble debug s1 m b mn mx st) as [[s3 i3]| | |] eqn:R; try discriminate. apply Ret_inj in E2. injection E2 as <- <-. unfold registerHisto in R. destruct (parseStats toDouble st) as [ms ps] eqn:Ep.
    destruct (findName m (nameMap s1)) as [i|] eqn:F.
    + destruct (debug && negb (ciId i <? 0)); try discriminate. apply Ret_inj in R. injection R as <- _. destruct (strEqb n m) eqn:En.
      * apply strEqb_eq in En. subst m. cbn [keeps nameMap]. rewrite find_set, strEqb_refl, F. eexists. split; [reflexivity|]. cbn [ciMethods ciPcts statsText isRegS]. rewrite Ep. split; reflexivity.
      * unfold keeps in *. cbn [nameMap]. rewrite find_set. rewrite En. exact IH.
    + apply Ret_inj in R. injection R as <- _. destruct (strEqb n m) eqn:En.
      * apply strEqb_eq in En. subst m. cbn [keeps nameMap]. rewrite find_snoc, F, strEqb_refl. eexists. split; [reflexivity|]. cbn [ciMethods ciPcts statsText isRegS]. rewrite Ep. split; reflexivity.
      * unfold keeps in *. cbn [nameMap]. rewrite find_snoc, En. destruct (findName n (nameMap s1)); exact IH.
  - destruct (addValue debug s1 id v) as [s3| | |] eqn:R; try discriminate. apply Ret_inj in E2. injection E2 as <- <-. unfold addValue in R.
    assert (N : nameMap s3 = nameMap s1).
    { destruct (0 <? id); [|destruct (id <? 0); [|discriminate]].
      - destruct (nth_error _ _); [|destruct debug; discriminate]. apply Ret_inj in R. subst s3. reflexivity.
      - destruct (nth_error _ _) as [[? ?]|]; [|destruct debug; discriminate]. apply Ret_inj in R. subst s3. reflexivity. }
    unfold keeps in *. rewrite N. exact IH.
Qed.

(** A percentile pN with one to six digits is N divided by the power of ten that leaves two digits before the point;
    longer and empty texts are refused. *)
Theorem C69_percentile_value : forall ds N, toDouble ds = Some (f64ofZ N) -> (1 <= List.length ds <= 6)%nat ->
  strToPct toDouble (112 :: ds) = Some (f64div (f64ofZ N) (f64ofZ (10 ^ Z.max 0 (Z.of_nat (List.length ds) - 2)))).
Proof.
  intros ds N H Hl. unfold strToPct. cbn [tl]. rewrite H. destruct (List.length ds) as [|[|[|[|[|[|[|n]]]]]]]; try lia; reflexivity.
Qed.
Theorem C69_percentile_refused : forall ds c, ds = [] \/ (6 < List.length ds)%nat -> strToPct toDouble (c :: ds) = None.
Proof.
  intros ds c H. unfold strToPct. cbn [tl]. destruct H as [-> | H]; [reflexivity|]. replace (List.length ds <=? 6)%nat with false by (symmetry; apply Nat.leb_gt; lia). rewrite andb_false_r. reflexivity.
Qed.
End S.

(** Registered twice: the second registration counts. *)
Definition exD (s : str) : option f64 := if strEqb s (B "999") then Some (f64ofZ 999) else None.
Example C69_asked_ex : exists s rs, statsRun exD true mgrInit [RegH (B "h") 10 0 100 (B "avg"); RegS (B "b") (B "sum"); RegH (B "h") 10 0 100 (B "p999, rate")] = Ret (s, rs) /\
  findName (B "h") (nameMap s) = Some (mkInfo (-1) [MRate] [(B "p999", f64div (f64ofZ 999) (f64ofZ 10))]).
Proof. do 2 eexists. split; [vm_compute; reflexivity|]. vm_compute. reflexivity. Qed.

Print Assumptions C69_statistics_asked_for. Print Assumptions C69_percentile_value. Print Assumptions C69_percentile_refused.
