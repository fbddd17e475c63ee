(** Properties C48 and C69: statistics counters and metric names. *)
From Coq Require Import String List.
From Verif Require Import Prelude Trans ValueBase ValueModel ValueProofs EvalModel FuncModel FuncProofs StatsModel.
Import ListNotations.
Open Scope Z_scope.

(** * Specification *)
(** The values a history adds under an id, oldest first. *)
Fixpoint addedTo (id : Z) (ops : list statsOp) : list Z :=
  match ops with
  | [] => []
  | Add i v :: ops' => if i =? id then v :: addedTo id ops' else addedTo id ops'
  | _ :: ops' => addedTo id ops'
  end.
(** The name a call registers. *)
Definition regName (o : statsOp) : option str := match o with RegS n _ => Some n | RegH n _ _ _ _ => Some n | Add _ _ => None end.
Definition isRegS (o : statsOp) : bool := match o with RegS _ _ => true | _ => false end.
(** No name is registered both as a series and as a histogram. *)
Definition oneKind (ops : list statsOp) : Prop :=
  forall o1 o2 n, In o1 ops -> In o2 ops -> regName o1 = Some n -> regName o2 = Some n -> isRegS o1 = isRegS o2.
(** Call [o] of the history returned [id]. *)
Definition issued (ops : list statsOp) (rs : list (option Z)) (o : statsOp) (id : Z) : Prop :=
  In (o, Some id) (combine ops rs).

Lemma addedTo_app id a b : addedTo id (a ++ b) = addedTo id a ++ addedTo id b.
Proof. induction a as [|o a IH]; [reflexivity|]. destruct o; cbn; auto. destruct (_ =? _); cbn; rewrite IH; reflexivity. Qed.

Lemma find_set {A} n m (i : A) l : findName m (setName n i l) =
  if strEqb m n then match findName n l with Some _ => Some i | None => None end else findName m l.
Proof.
  induction l as [|[k j] l IH]; cbn.
  - destruct (strEqb m n); reflexivity.
  - destruct (strEqb n k) eqn:E1; cbn.
    + apply strEqb_eq in E1. subst k. destruct (strEqb m n); reflexivity.
    + destruct (strEqb m k) eqn:E2; [|exact IH].
      apply strEqb_eq in E2. subst k. destruct (strEqb m n) eqn:E3; [|reflexivity].
      apply strEqb_eq in E3. subst n. rewrite strEqb_refl in E1. discriminate.
Qed.
Lemma find_snoc {A} n m (i : A) l : findName m (l ++ [(n, i)]) =
  match findName m l with Some j => Some j | None => if strEqb m n then Some i else None end.
Proof. induction l as [|[k j] l IH]; cbn; [reflexivity|]. destruct (strEqb m k); auto. Qed.
Lemma find_length {A} (l : list (str * A)) n i : length (setName n i l) = length l.
Proof. induction l as [|[k j] l IH]; cbn; [reflexivity|]. destruct (strEqb n k); cbn; auto. Qed.

Section S.
Context (toDouble : str -> option f64) (debug : bool).
Notation run := (statsRun toDouble debug).
Notation step := (statsStep toDouble debug).

Lemma run_snoc ops o s : run s (ops ++ [o]) =
  let* (s1, rs) := run s ops in let* (s2, r) := step s1 o in Ret (s2, rs ++ [r]).
Proof.
  revert s. induction ops as [|p ops IH]; intros s; cbn [app statsRun obind].
  - destruct (step s o) as [[s2 r]| | |]; reflexivity.
  - destruct (step s p) as [[s1 r]| | |]; cbn [obind]; try reflexivity. rewrite IH.
    destruct (run s1 ops) as [[s2 rs]| | |]; cbn [obind]; try reflexivity.
    destruct (step s2 o) as [[s3 q]| | |]; reflexivity.
Qed.
Lemma run_length ops : forall s s' rs, run s ops = Ret (s', rs) -> length rs = length ops.
Proof.
  induction ops as [|p ops IH]; intros s s' rs E; cbn [statsRun] in E.
  - apply Ret_inj in E. injection E as _ <-. reflexivity.
  - destruct (step s p) as [[s1 r]| | |]; try discriminate E. cbn [obind] in E.
    destruct (run s1 ops) as [[s2 qs]| | |] eqn:Er; try discriminate E. apply Ret_inj in E. injection E as _ <-.
    cbn. f_equal. eauto.
Qed.

(** What holds after a successful history. *)
Record inv (ops : list statsOp) (rs : list (option Z)) (s : statsMgr) : Prop := mkInv {
  i_size : (length (series s) + length (histos s) <= length ops)%nat;
  i_range : forall n i, findName n (nameMap s) = Some i ->
    0 < ciId i <= Z.of_nat (length (series s)) \/ - Z.of_nat (length (histos s)) <= ciId i < 0;
  i_inj : forall n m i j, findName n (nameMap s) = Some i -> findName m (nameMap s) = Some j -> ciId i = ciId j -> n = m;
  i_read : forall id l, readById s id = Some l -> l = addedTo id ops;
  i_adds : forall id v, In (Add id v) ops -> readById s id <> None;
  i_log : forall o id n, issued ops rs o id -> regName o = Some n -> exists i, findName n (nameMap s) = Some i /\ ciId i = id;
  i_kind : forall n i, findName n (nameMap s) = Some i -> exists o, In o ops /\ regName o = Some n /\ isRegS o = (0 <? ciId i)
}.

Lemma read_range s id : readById s id <> None <->
  0 < id <= Z.of_nat (length (series s)) \/ - Z.of_nat (length (histos s)) <= id < 0.
Proof.
  unfold readById. destruct (Z.ltb_spec 0 id).
  - rewrite nth_error_Some. lia.
  - destruct (Z.ltb_spec id 0); [|split; [congruence|lia]].
    destruct (nth_error (histos s) (Z.to_nat (- (id + 1)))) as [[p l]|] eqn:E.
    + apply nth_some_lt in E. split; [lia|congruence].
    + apply nth_error_None in E. split; [congruence|lia].
Qed.

Lemma read_addS nm ss hs id : readById (mkMgr nm (ss ++ [[]]) hs) id =
  if id =? Z.of_nat (length ss) + 1 then Some [] else readById (mkMgr nm ss hs) id.
Proof.
  unfold readById. cbn [series histos]. destruct (Z.ltb_spec 0 id), (Z.eqb_spec id (Z.of_nat (length ss) + 1)); try lia; try reflexivity.
  - rewrite nth_error_app2 by lia. replace (Z.to_nat (id - 1) - length ss)%nat with O by lia. reflexivity.
  - destruct (Z.ltb_spec id (Z.of_nat (length ss) + 1)).
    + apply nth_error_app1. lia.
    + transitivity (@None (list Z)); [|symmetry]; apply nth_error_None; rewrite ?app_length; cbn; lia.
Qed.
Lemma read_addH nm ss hs p id : readById (mkMgr nm ss (hs ++ [(p, [])])) id =
  if id =? - (Z.of_nat (length hs) + 1) then Some [] else readById (mkMgr nm ss hs) id.
Proof.
  unfold readById. cbn [series histos]. destruct (Z.ltb_spec 0 id), (Z.eqb_spec id (- (Z.of_nat (length hs) + 1))); try lia; try reflexivity.
  - destruct (Z.ltb_spec id 0); [|lia]. rewrite nth_error_app2 by lia.
    replace (Z.to_nat (- (id + 1)) - length hs)%nat with O by lia. reflexivity.
  - destruct (Z.ltb_spec id 0); [|reflexivity]. destruct (Z.ltb_spec (- (Z.of_nat (length hs) + 1)) id).
    + rewrite nth_error_app1 by lia. reflexivity.
    + replace (nth_error (hs ++ [(p, [])]) (Z.to_nat (- (id + 1)))) with (@None (Z * Z * Z * list Z))
        by (symmetry; apply nth_error_None; rewrite app_length; cbn; lia).
      replace (nth_error hs (Z.to_nat (- (id + 1)))) with (@None (Z * Z * Z * list Z))
        by (symmetry; apply nth_error_None; lia). reflexivity.
Qed.

Lemma inv_init : inv [] [] mgrInit.
Proof. split; cbn; try (intros; discriminate); try (intros; contradiction); try lia. intros id l. unfold readById. cbn.
  destruct (0 <? id); [destruct (Z.to_nat _); discriminate|]. destruct (id <? 0); [|discriminate]. destruct (Z.to_nat _); discriminate. Qed.

Lemma issued_snoc ops rs o r p id : length rs = length ops -> issued (ops ++ [o]) (rs ++ [r]) p id ->
  issued ops rs p id \/ (p = o /\ r = Some id).
Proof.
  unfold issued. intros L. revert rs L. induction ops as [|q ops IH]; intros [|t rs] L H; try discriminate L; cbn in *.
  - destruct H as [H | []]. injection H as <- ->. auto.
  - destruct H as [H | H]; auto. destruct (IH rs) as [G | G]; auto.
Qed.

Lemma inv_old ops rs s s' o n i i' : inv ops rs s -> length rs = length ops -> regName o = Some n ->
  findName n (nameMap s) = Some i -> ciId i' = ciId i ->
  s' = mkMgr (setName n i' (nameMap s)) (series s) (histos s) -> inv (ops ++ [o]) (rs ++ [Some (ciId i)]) s'.
Proof.
  intros [H1 H2 H3 H4 H5 H6 H7] Hl Ho Hf Hi ->.
  assert (Hold : forall m j, findName m (setName n i' (nameMap s)) = Some j ->
            exists j0, findName m (nameMap s) = Some j0 /\ ciId j = ciId j0).
  { intros m j. rewrite find_set, Hf. destruct (strEqb m n) eqn:E; intros Hj.
    - apply strEqb_eq in E. subst m. injection Hj as <-. eauto.
    - eauto. }
  split; cbn [nameMap series histos].
  - rewrite app_length. cbn. lia.
  - intros m j Hj. destruct (Hold m j Hj) as (j0 & E & ->). eauto.
  - intros m k j l Hj Hk Heq. destruct (Hold m j Hj) as (j0 & E & E'). destruct (Hold k l Hk) as (l0 & F & F').
    apply (H3 m k j0 l0); auto. congruence.
  - intros id l. unfold readById at 1. cbn [series histos]. fold (readById s id). intros E.
    rewrite addedTo_app. rewrite (H4 id l E). destruct o; cbn; rewrite ?app_nil_r; try reflexivity. discriminate Ho.
  - intros id v Hin. apply in_app_iff in Hin. destruct Hin as [Hin | [-> | []]]; [|discriminate Ho]. exact (H5 id v Hin).
  - intros p id m Hp Hm. apply issued_snoc in Hp; [|assumption]. destruct Hp as [Hp | [-> Hp]].
    + destruct (H6 p id m Hp Hm) as (j & Ej & Ei). rewrite find_set, Hf. destruct (strEqb m n) eqn:E; [|eauto].
      apply strEqb_eq in E. subst m. exists i'. split; [reflexivity|]. congruence.
    + injection Hp as <-. rewrite Ho in Hm. injection Hm as <-. rewrite find_set, strEqb_refl, Hf. eauto.
  - intros m j Hj. destruct (Hold m j Hj) as (j0 & E & ->). destruct (H7 m j0 E) as (q & Hq & Hq').
    exists q. split; [apply in_app_iff; auto|assumption].
Qed.

Lemma inv_step ops rs s o s' r : inv ops rs s -> length rs = length ops -> Z.of_nat (length ops) < 2 ^ 31 - 1 ->
  step s o = Ret (s', r) -> inv (ops ++ [o]) (rs ++ [r]) s'.
Proof.
  intros I Hl Hmax E. pose proof I as I0. destruct I as [H1 H2 H3 H4 H5 H6 H7].
  destruct o as [n st|n b mn mx st|id v]; cbn [statsStep] in E.
  - unfold registerStats in E. destruct (parseStats toDouble st) as [ms ps]. destruct (findName n (nameMap s)) as [i|] eqn:Hf.
    + destruct (debug && negb (0 <? ciId i)); [discriminate E|]. cbn [obind] in E. apply Ret_inj in E. injection E as <- <-.
      apply (inv_old ops rs s _ (RegS n st) n i (mkInfo (ciId i) ms (ciPcts i))); auto.
    + cbn [obind] in E. apply Ret_inj in E. injection E as <- <-.
      assert (Hw : wrap32 (Z.of_nat (length (series s ++ [[]]))) = Z.of_nat (length (series s)) + 1).
      { rewrite app_length. cbn. unfold wrap32. rewrite Z.mod_small; lia. }
      rewrite Hw.
      assert (Hnew : forall m j, findName m (nameMap s ++ [(n, mkInfo (Z.of_nat (length (series s)) + 1) ms [])]) = Some j ->
                findName m (nameMap s) = Some j \/ (m = n /\ ciId j = Z.of_nat (length (series s)) + 1)).
      { intros m j. rewrite find_snoc. destruct (findName m (nameMap s)) as [k|]; auto.
        destruct (strEqb m n) eqn:Em; [|discriminate]. intros Hj. injection Hj as <-. apply strEqb_eq in Em. auto. }
      split; cbn [nameMap series histos].
      * rewrite !app_length. cbn. lia.
      * intros m j Hj. rewrite app_length. cbn. destruct (Hnew m j Hj) as [Ej | [_ Ej]]; [|lia]. specialize (H2 m j Ej). lia.
      * intros m k j l Hj Hk Heq. destruct (Hnew m j Hj) as [Ej | [-> Ej]], (Hnew k l Hk) as [Ek | [-> Ek]]; eauto.
        -- specialize (H2 m j Ej). lia.
        -- specialize (H2 k l Ek). lia.
      * intros id l. rewrite read_addS. destruct (Z.eqb_spec id (Z.of_nat (length (series s)) + 1)) as [-> |].
        -- intros G. injection G as <-. rewrite addedTo_app. cbn. rewrite app_nil_r.
           (* nothing can have been added under the new id *)
           assert (Hno : forall v, ~ In (Add (Z.of_nat (length (series s)) + 1) v) ops).
           { intros v Hin. apply H5 in Hin. apply read_range in Hin. lia. }
           clear - Hno. induction ops as [|o ops IH]; [reflexivity|].
           destruct o as [| |i w]; cbn; try (apply IH; intros w' Hw'; apply (Hno w'); right; assumption).
           destruct (Z.eqb_spec i (Z.of_nat (length (series s)) + 1)) as [-> |].
           ++ exfalso. apply (Hno w). left. reflexivity.
           ++ apply IH. intros w' Hw'. apply (Hno w'). right. assumption.
        -- intros G. rewrite addedTo_app. cbn. rewrite app_nil_r. apply H4. destruct s; exact G.
      * intros id v Hin. apply in_app_iff in Hin. destruct Hin as [Hin | [Hin | []]]; [|discriminate Hin].
        rewrite read_addS. destruct (_ =? _); [discriminate|]. specialize (H5 id v Hin). destruct s; exact H5.
      * intros p id m Hp Hm. apply issued_snoc in Hp; [|assumption]. destruct Hp as [Hp | [-> Hp]].
        -- destruct (H6 p id m Hp Hm) as (j & Ej & Ei). exists j. rewrite find_snoc, Ej. auto.
        -- injection Hp as <-. injection Hm as <-. rewrite find_snoc, Hf, strEqb_refl. eauto.
      * intros m j Hj. destruct (Hnew m j Hj) as [Ej | [-> Ej]].
        -- destruct (H7 m j Ej) as (q & Hq & Hq'). exists q. split; [apply in_app_iff; auto|assumption].
        -- exists (RegS n st). splits; [apply in_app_iff; right; left; reflexivity|reflexivity|]. rewrite Ej. cbn.
           symmetry. apply Z.ltb_lt. lia.
  - unfold registerHisto in E. destruct (parseStats toDouble st) as [ms ps]. destruct (findName n (nameMap s)) as [i|] eqn:Hf.
    + destruct (debug && negb (ciId i <? 0)); [discriminate E|]. cbn [obind] in E. apply Ret_inj in E. injection E as <- <-.
      apply (inv_old ops rs s _ (RegH n b mn mx st) n i (mkInfo (ciId i) ms ps)); auto.
    + cbn [obind] in E. apply Ret_inj in E. injection E as <- <-.
      assert (Hw : wrap32 (u64 (- Z.of_nat (length (histos s ++ [(b, mn, mx, @nil Z)])))) = - (Z.of_nat (length (histos s)) + 1)).
      { rewrite app_length. cbn. unfold wrap32, u64. lia. }
      rewrite Hw.
      assert (Hnew : forall m j, findName m (nameMap s ++ [(n, mkInfo (- (Z.of_nat (length (histos s)) + 1)) ms ps)]) = Some j ->
                findName m (nameMap s) = Some j \/ (m = n /\ ciId j = - (Z.of_nat (length (histos s)) + 1))).
      { intros m j. rewrite find_snoc. destruct (findName m (nameMap s)) as [k|]; auto.
        destruct (strEqb m n) eqn:Em; [|discriminate]. intros Hj. injection Hj as <-. apply strEqb_eq in Em. auto. }
      split; cbn [nameMap series histos].
      * rewrite !app_length. cbn. lia.
      * intros m j Hj. rewrite app_length. cbn. destruct (Hnew m j Hj) as [Ej | [_ Ej]]; [|lia]. specialize (H2 m j Ej). lia.
      * intros m k j l Hj Hk Heq. destruct (Hnew m j Hj) as [Ej | [-> Ej]], (Hnew k l Hk) as [Ek | [-> Ek]]; eauto.
        -- specialize (H2 m j Ej). lia.
        -- specialize (H2 k l Ek). lia.
      * intros id l. rewrite read_addH. destruct (Z.eqb_spec id (- (Z.of_nat (length (histos s)) + 1))) as [-> |].
        -- intros G. injection G as <-. rewrite addedTo_app. cbn. rewrite app_nil_r.
           assert (Hno : forall v, ~ In (Add (- (Z.of_nat (length (histos s)) + 1)) v) ops).
           { intros v Hin. apply H5 in Hin. apply read_range in Hin. lia. }
           clear - Hno. induction ops as [|o ops IH]; [reflexivity|].
           destruct o as [| |i w]; cbn; try (apply IH; intros w' Hw'; apply (Hno w'); right; assumption).
           destruct (Z.eqb_spec i (- (Z.of_nat (length (histos s)) + 1))) as [-> |].
           ++ exfalso. apply (Hno w). left. reflexivity.
           ++ apply IH. intros w' Hw'. apply (Hno w'). right. assumption.
        -- intros G. rewrite addedTo_app. cbn. rewrite app_nil_r. apply H4. destruct s; exact G.
      * intros id v Hin. apply in_app_iff in Hin. destruct Hin as [Hin | [Hin | []]]; [|discriminate Hin].
        rewrite read_addH. destruct (_ =? _); [discriminate|]. specialize (H5 id v Hin). destruct s; exact H5.
      * intros p id m Hp Hm. apply issued_snoc in Hp; [|assumption]. destruct Hp as [Hp | [-> Hp]].
        -- destruct (H6 p id m Hp Hm) as (j & Ej & Ei). exists j. rewrite find_snoc, Ej. auto.
        -- injection Hp as <-. injection Hm as <-. rewrite find_snoc, Hf, strEqb_refl. eauto.
      * intros m j Hj. destruct (Hnew m j Hj) as [Ej | [-> Ej]].
        -- destruct (H7 m j Ej) as (q & Hq & Hq'). exists q. split; [apply in_app_iff; auto|assumption].
        -- exists (RegH n b mn mx st). splits; [apply in_app_iff; right; left; reflexivity|reflexivity|]. rewrite Ej. cbn.
           symmetry. apply Z.ltb_ge. lia.
  - destruct (addValue debug s id v) as [s1| | |] eqn:Ea; try discriminate E. cbn [obind] in E. apply Ret_inj in E. injection E as <- <-.
    assert (Hs : nameMap s1 = nameMap s /\ length (series s1) = length (series s) /\ length (histos s1) = length (histos s) /\
                 readById s id <> None /\
                 forall k l, readById s1 k = Some l -> exists l0, readById s k = Some l0 /\ l = l0 ++ (if id =? k then [v] else [])).
    { unfold addValue in Ea. destruct (Z.ltb_spec 0 id) as [Hid|Hid].
      - destruct (nth_error (series s) (Z.to_nat (id - 1))) as [l0|] eqn:En; [|destruct debug; discriminate Ea].
        apply Ret_inj in Ea. subst s1. cbn [nameMap series histos]. rewrite supd_length. splits; auto.
        + apply read_range. apply nth_some_lt in En. lia.
        + intros k l. unfold readById. cbn [series histos]. destruct (Z.ltb_spec 0 k).
          * rewrite nth_supd by (apply nth_some_lt in En; exact En).
            destruct (Nat.eqb_spec (Z.to_nat (k - 1)) (Z.to_nat (id - 1))), (Z.eqb_spec id k); try lia; intros G.
            -- subst k. injection G as <-. rewrite En. eauto.
            -- exists l. rewrite app_nil_r. auto.
          * destruct (Z.eqb_spec id k); [lia|]. exists l. rewrite app_nil_r. auto.
      - destruct (Z.ltb_spec id 0); [|discriminate Ea].
        destruct (nth_error (histos s) (Z.to_nat (- (id + 1)))) as [[p l0]|] eqn:En; [|destruct debug; discriminate Ea].
        apply Ret_inj in Ea. subst s1. cbn [nameMap series histos]. rewrite supd_length. splits; auto.
        + apply read_range. apply nth_some_lt in En. lia.
        + intros k l. unfold readById. cbn [series histos]. destruct (Z.ltb_spec 0 k).
          * destruct (Z.eqb_spec id k); [lia|]. exists l. rewrite app_nil_r. auto.
          * destruct (Z.ltb_spec k 0); [|discriminate].
            rewrite nth_supd by (apply nth_some_lt in En; exact En).
            destruct (Nat.eqb_spec (Z.to_nat (- (k + 1))) (Z.to_nat (- (id + 1)))), (Z.eqb_spec id k); try lia; intros G.
            -- subst k. injection G as <-. rewrite En. eauto.
            -- exists l. rewrite app_nil_r. auto. }
    destruct Hs as (N & L1 & L2 & Hr & Hread).
    split; rewrite ?N, ?L1, ?L2; eauto.
    + rewrite app_length. cbn. lia.
    + intros k l G. destruct (Hread k l G) as (l0 & E0 & ->). rewrite addedTo_app, (H4 k l0 E0). reflexivity.
    + intros k w Hin. rewrite read_range, L1, L2, <- read_range.
      apply in_app_iff in Hin. destruct Hin as [Hin | [Hin | []]]; [eauto|]. injection Hin as <- <-. assumption.
    + intros p k n Hp Hn. apply issued_snoc in Hp; [|assumption]. destruct Hp as [Hp | [_ Hp]]; [eauto|discriminate Hp].
    + intros n i Hi. destruct (H7 n i Hi) as (q & Hq & Hq'). exists q. split; [apply in_app_iff; auto|assumption].
Qed.

Lemma issued_step ops : forall s rs o id, run mgrInit ops = Ret (s, rs) -> issued ops rs o id ->
  exists ops1 s1 rs1 s2, (length ops1 < length ops)%nat /\ run mgrInit ops1 = Ret (s1, rs1) /\ step s1 o = Ret (s2, Some id).
Proof.
  induction ops as [|p ops IH] using rev_ind; intros s rs o id E H.
  - apply Ret_inj in E. injection E as <- <-. destruct H.
  - rewrite run_snoc in E. destruct (run mgrInit ops) as [[s1 rs1]| | |] eqn:E1; try discriminate E. cbn [obind] in E.
    destruct (step s1 p) as [[s2 r]| | |] eqn:E2; try discriminate E. apply Ret_inj in E. injection E as <- <-.
    rewrite app_length. cbn. apply issued_snoc in H; [|eapply run_length; eauto]. destruct H as [H | [-> ->]].
    + destruct (IH s1 rs1 o id eq_refl H) as (o1 & t1 & q1 & t2 & L & R & S0). exists o1, t1, q1, t2. splits; auto. lia.
    + exists ops, s1, rs1, s2. splits; auto. lia.
Qed.

Lemma inv_run ops : forall s rs, Z.of_nat (length ops) < 2 ^ 31 -> run mgrInit ops = Ret (s, rs) -> inv ops rs s.
Proof.
  induction ops as [|o ops IH] using rev_ind; intros s rs Hmax E.
  - apply Ret_inj in E. injection E as <- <-. apply inv_init.
  - rewrite run_snoc in E. destruct (run mgrInit ops) as [[s1 rs1]| | |] eqn:E1; try discriminate E. cbn [obind] in E.
    destruct (step s1 o) as [[s2 r]| | |] eqn:E2; try discriminate E. apply Ret_inj in E. injection E as <- <-.
    rewrite app_length in Hmax. cbn in Hmax. eapply inv_step; eauto; try (eapply run_length; eauto); try lia. apply IH; [lia|reflexivity].
Qed.

(** * C48 *)

(** Registrations of the same name get the same id and of different names different ids. *)
Theorem C48_unique_ids : forall ops s rs, Z.of_nat (length ops) < 2 ^ 31 -> run mgrInit ops = Ret (s, rs) ->
  forall o1 o2 n1 n2 id1 id2, issued ops rs o1 id1 -> issued ops rs o2 id2 -> regName o1 = Some n1 -> regName o2 = Some n2 ->
  (n1 = n2 <-> id1 = id2).
Proof.
  intros ops s rs Hmax E o1 o2 n1 n2 id1 id2 H1 H2 E1 E2. destruct (inv_run ops s rs Hmax E) as [_ _ Hinj _ _ Hlog _].
  destruct (Hlog o1 id1 n1 H1 E1) as (i & Hi & <-). destruct (Hlog o2 id2 n2 H2 E2) as (j & Hj & <-).
  split; [intros -> ; congruence|]. eauto.
Qed.

(** Each id addresses its own counter: it holds exactly the values added under that id, and the name leads to it. *)
Theorem C48_addressing : forall ops s rs, Z.of_nat (length ops) < 2 ^ 31 -> run mgrInit ops = Ret (s, rs) ->
  forall o n id, issued ops rs o id -> regName o = Some n ->
  readById s id = Some (addedTo id ops) /\ readByName s n = Some (addedTo id ops).
Proof.
  intros ops s rs Hmax E o n id H1 E1. destruct (inv_run ops s rs Hmax E) as [_ Hrange _ Hread _ Hlog _].
  destruct (Hlog o id n H1 E1) as (i & Hi & <-). unfold readByName. rewrite Hi.
  specialize (Hrange n i Hi). apply read_range in Hrange.
  destruct (readById s (ciId i)) as [l|] eqn:El; [|congruence]. rewrite (Hread _ _ El). auto.
Qed.

(** Series have positive ids and histograms negative ones, if no name is used for both or DCHECK is on. *)
Theorem C48_sign : forall ops s rs, Z.of_nat (length ops) < 2 ^ 31 -> run mgrInit ops = Ret (s, rs) -> oneKind ops \/ debug = true ->
  forall o id n, issued ops rs o id -> regName o = Some n -> if isRegS o then 0 < id else id < 0.
Proof.
  intros ops s rs Hmax E Hk o id n H1 E1.
  assert (Hz : id <> 0).
  { destruct (inv_run ops s rs Hmax E) as [_ Hrange _ _ _ Hlog _]. destruct (Hlog o id n H1 E1) as (i & Hi & <-).
    specialize (Hrange n i Hi). lia. }
  enough (isRegS o = (0 <? id)) as -> by (destruct (Z.ltb_spec 0 id); lia).
  destruct Hk as [Hk | Hk].
  - destruct (inv_run ops s rs Hmax E) as [_ _ _ _ _ Hlog Hkind]. destruct (Hlog o id n H1 E1) as (i & Hi & <-).
    destruct (Hkind n i Hi) as (q & Hq & Hqn & <-). apply (Hk o q n); auto. unfold issued in H1.
    eapply in_combine_l; eauto.
  - (* every registration checks the sign *)
    destruct (issued_step ops s rs o id E H1) as (ops1 & s1 & rs1 & s2 & L & R1 & S1).
    destruct (inv_run ops1 s1 rs1) as [Hsz _ _ _ _ _ _]; [lia|assumption|]. rewrite Hk in S1.
    destruct o as [m st|m b mn mx st|k v]; [| |discriminate E1]; cbn [statsStep isRegS] in *.
    + unfold registerStats in S1. destruct (parseStats toDouble st) as [ms ps].
      destruct (findName m (nameMap s1)) as [i|].
      * destruct (0 <? ciId i) eqn:Ei; [|discriminate S1]. cbn in S1. injection S1 as _ <-. auto.
      * cbn [obind] in S1. injection S1 as _ <-. symmetry. apply Z.ltb_lt. rewrite app_length. cbn. unfold wrap32.
        rewrite Z.mod_small; lia.
    + unfold registerHisto in S1. destruct (parseStats toDouble st) as [ms ps].
      destruct (findName m (nameMap s1)) as [i|].
      * destruct (ciId i <? 0) eqn:Ei; [|discriminate S1]. cbn in S1. injection S1 as _ <-. symmetry. apply Z.ltb_ge.
        apply Z.ltb_lt in Ei. lia.
      * cbn [obind] in S1. injection S1 as _ <-. symmetry. apply Z.ltb_ge. rewrite app_length. cbn. unfold wrap32, u64. lia.
Qed.

(** Adding under ids issued before never fails, and registering never fails when each name has one kind. *)
Definition usesIssued (ops : list statsOp) : Prop :=
  forall ops1 id v ops2, ops = ops1 ++ Add id v :: ops2 ->
  forall s rs, run mgrInit ops1 = Ret (s, rs) -> exists o n, regName o = Some n /\ issued ops1 rs o id.
Theorem C48_no_failure : forall ops, Z.of_nat (length ops) < 2 ^ 31 -> oneKind ops -> usesIssued ops ->
  exists s rs, run mgrInit ops = Ret (s, rs).
Proof.
  induction ops as [|o ops IH] using rev_ind; intros Hmax Hk Hu; [eexists; eexists; reflexivity|].
  rewrite app_length in Hmax. cbn in Hmax.
  destruct IH as (s & rs & E).
  - lia.
  - intros o1 o2 n I1 I2. apply Hk; apply in_app_iff; auto.
  - intros ops1 id v ops2 ->. apply (Hu ops1 id v (ops2 ++ [o])). rewrite <- app_assoc. reflexivity.
  - rewrite run_snoc, E. cbn [obind]. destruct (inv_run ops s rs) as [_ Hrange _ _ _ Hlog Hkind]; [lia|assumption|].
    assert (Hsign : forall n i, regName o = Some n -> findName n (nameMap s) = Some i -> (0 <? ciId i) = isRegS o).
    { intros n i Ho Hf. destruct (Hkind n i Hf) as (q & Hq & Hqn & <-). apply (Hk q o n); auto; apply in_app_iff; auto.
      right. left. reflexivity. }
    destruct o as [n st|n b mn mx st|id v]; cbn [statsStep].
    + unfold registerStats. destruct (parseStats toDouble st). destruct (findName n (nameMap s)) as [i|] eqn:Hf.
      * rewrite (Hsign n i eq_refl Hf). cbn [isRegS negb andb]. rewrite andb_false_r. cbn [obind]. eauto.
      * cbn [obind]. eauto.
    + unfold registerHisto. destruct (parseStats toDouble st). destruct (findName n (nameMap s)) as [i|] eqn:Hf.
      * pose proof (Hsign n i eq_refl Hf) as Hs. cbn [isRegS] in Hs. specialize (Hrange n i Hf).
        replace (ciId i <? 0) with true by (symmetry; apply Z.ltb_lt; apply Z.ltb_ge in Hs; lia).
        cbn [negb andb]. rewrite andb_false_r. cbn [obind]. eauto.
      * cbn [obind]. eauto.
    + destruct (Hu ops id v [] eq_refl s rs E) as (q & n & Hq & Hi).
      destruct (Hlog q id n Hi Hq) as (i & Hf & <-). specialize (Hrange n i Hf). unfold addValue.
      destruct (Z.ltb_spec 0 (ciId i)).
      * destruct (nth_error (series s) (Z.to_nat (ciId i - 1))) eqn:En; [cbn [obind]; eauto|].
        apply nth_error_None in En. lia.
      * destruct (Z.ltb_spec (ciId i) 0); [|lia].
        destruct (nth_error (histos s) (Z.to_nat (- (ciId i + 1)))) as [[p l]|] eqn:En; [cbn [obind]; eauto|].
        apply nth_error_None in En. lia.
Qed.
End S.

(** "histogram ids are negative" is false without DCHECK: a name already used for a series. *)
Theorem C48_sign_refuted : forall toDouble, exists s,
  statsRun toDouble false mgrInit [RegS (B "q") (B "sum"); RegH (B "q") 10 0 100 (B "avg")] = Ret (s, [Some 1; Some 1]).
Proof. intros D. eexists. vm_compute. reflexivity. Qed.

Example C48_ex : forall D,
  exists s, statsRun D true mgrInit
      [RegS (B "a") (B "sum"); RegH (B "h") 10 0 100 (B "avg"); RegS (B "b") (B "rate"); Add 2 7; Add (-1) 30; RegS (B "a") (B "avg"); Add 1 5; Add 2 8]
    = Ret (s, [Some 1; Some (-1); Some 2; None; None; Some 1; None; None]) /\
    readByName s (B "b") = Some [7; 8] /\ readByName s (B "h") = Some [30] /\ readById s 1 = Some [5].
Proof. intros D. eexists. split; [vm_compute; reflexivity|]. splits; vm_compute; reflexivity. Qed.

(** * C69: metric names *)

Section Split1.
(** Splitting at a one-byte delimiter. *)
Context (d : Z).
Lemma split_tok (s : str) : forall fuel tok, ~ In d s -> (length s < fuel)%nat -> splitFrom fuel [d] s tok = [tok ++ s].
Proof.
  induction s as [|c s IH]; intros fuel tok Hn Hf; destruct fuel as [|fuel]; try (cbn in Hf; lia); cbn.
  - rewrite app_nil_r. reflexivity.
  - assert (d =? c = false) as -> by (apply Z.eqb_neq; intros ->; apply Hn; left; reflexivity). cbn [andb].
    rewrite IH; [rewrite <- app_assoc; reflexivity|intros H; apply Hn; right; assumption|cbn in Hf; lia].
Qed.
Lemma split_piece (s t : str) : forall fuel tok, ~ In d s -> (length s + length t + 1 < fuel)%nat ->
  exists fuel', splitFrom fuel [d] (s ++ d :: t) tok = (tok ++ s) :: splitFrom fuel' [d] t [] /\ (length t < fuel')%nat.
Proof.
  induction s as [|c s IH]; intros fuel tok Hn Hf; destruct fuel as [|fuel]; try (cbn in Hf; lia); cbn.
  - rewrite Z.eqb_refl. cbn. exists fuel. rewrite app_nil_r. split; [reflexivity|cbn in Hf; lia].
  - assert (d =? c = false) as -> by (apply Z.eqb_neq; intros ->; apply Hn; left; reflexivity). cbn [andb].
    destruct (IH fuel (tok ++ [c])) as (f' & E & H); [intros H; apply Hn; right; assumption|cbn in Hf; lia|].
    exists f'. rewrite E, <- app_assoc. auto.
Qed.
End Split1.

Definition plain (s : str) : Prop := s <> [] /\ ~ In 46 s.
Lemma split3 (a b c : str) : plain a -> plain b -> plain c -> splitNonEmpty (B ".") (a ++ B "." ++ b ++ B "." ++ c) = [a; b; c].
Proof.
  intros [Na Ha] [Nb Hb] [Nc Hc]. unfold splitNonEmpty, follySplit. change (B ".") with [46].
  change ([46] ++ b ++ [46] ++ c) with (46 :: (b ++ 46 :: c)).
  destruct (split_piece 46 a (b ++ 46 :: c) (S (length (a ++ 46 :: b ++ 46 :: c))) []) as (f1 & -> & L1); auto.
  { rewrite !app_length. cbn. rewrite !app_length. cbn. lia. }
  destruct (split_piece 46 b c f1 []) as (f2 & -> & L2); auto.
  { rewrite app_length in L1. cbn in L1. lia. }
  rewrite split_tok by auto. cbn [app filter].
  assert (Hne : forall s, s <> [] -> strEqb s [] = false) by (intros [|]; [congruence|reflexivity]).
  rewrite !Hne by assumption. reflexivity.
Qed.

Lemma lower_B_method m : lower (methodName m) = methodName m.
Proof. destruct m; reflexivity. Qed.

Section M.
Context (toDouble : str -> option f64).

(** Every metric that readAllValue reports for a counter whose name is not empty and has no dot, and whose
    percentile names are lower case without dots as parseStats leaves them, is read by readValue under its
    reported name from the same counter, range and method. *)
Definition pctOk (p : str * f64) : Prop :=
  ~ In 46 (fst p) /\ lower (fst p) = fst p /\ startsP (fst p) = true /\ methodOf (fst p) = None /\ strToPct toDouble (fst p) = Some (snd p).
Theorem C69_published_readable : forall name i metric r q, plain name -> (forall p, In p (ciPcts i) -> pctOk p) ->
  In (metric, (r, q)) (published name i) -> parseMetric toDouble metric = Some (name, r, q).
Proof.
  intros name i metric r q Hn Hp Hin. unfold published in Hin. apply in_app_iff in Hin.
  assert (Hr : forall r, plain (rangeName r)).
  { intros r0. destruct r0; (split; [discriminate|]); cbn; intros H; repeat (destruct H as [H | H]; [discriminate|]); contradiction. }
  assert (Hrr : forall r, rangeOf (rangeName r) = Some r) by (intros []; reflexivity).
  destruct Hin as [Hin | Hin]; apply in_flat_map in Hin; destruct Hin as (x & Hx & Hin); apply in_map_iff in Hin;
    destruct Hin as (r0 & E & _); injection E as <- <- <-; unfold parseMetric, metricName.
  - rewrite split3; auto.
    + rewrite Hrr, lower_B_method. destruct x; reflexivity.
    + destruct x; (split; [discriminate|]); cbn; intros H; repeat (destruct H as [H | H]; [discriminate|]); contradiction.
  - destruct x as [nm d]. destruct (Hp _ Hx) as (D1 & D2 & D3 & D4 & D5). cbn [fst snd] in *. rewrite split3; auto.
    + rewrite Hrr, D2, D4, D3, D5. reflexivity.
    + split; [intros ->; discriminate D3|assumption].
Qed.

(** parseStats leaves the percentiles in that form, up to dots. *)
Lemma lower_idem s : lower (lower s) = lower s.
Proof.
  unfold lower. rewrite map_map. apply map_ext. intros c. unfold lowerByte.
  destruct ((65 <=? c) && (c <=? 90)) eqn:E; [|rewrite E; reflexivity].
  apply andb_prop in E. destruct E as [E1 E2]. apply Z.leb_le in E1, E2.
  replace (c + 32 <=? 90) with false by (symmetry; apply Z.leb_gt; lia). rewrite andb_false_r. reflexivity.
Qed.
Theorem C69_parsed_percentiles : forall stats p, In p (snd (parseStats toDouble stats)) -> ~ In 46 (fst p) -> pctOk p.
Proof.
  intros stats p. unfold parseStats. generalize (splitNonEmpty (B ",") stats). intros parts Hin Hdot.
  induction parts as [|q parts IH]; [destruct Hin|]. cbn [parseParts] in Hin.
  destruct (parseParts toDouble parts) as [ms ps] eqn:Ep. cbn [snd] in IH.
  destruct (methodOf (lower (trimWs q))) eqn:Em; [apply IH, Hin|].
  destruct (startsP (lower (trimWs q))) eqn:Es; [|apply IH, Hin].
  destruct (strToPct toDouble (lower (trimWs q))) as [d|] eqn:Ed; [|apply IH, Hin].
  cbn [snd] in Hin. destruct Hin as [<- | Hin]; [|apply IH, Hin].
  cbn [fst snd] in *. unfold pctOk. cbn [fst snd]. splits; auto. apply lower_idem.
Qed.
End M.

(** A counter name with a dot makes its metrics unreadable by name. *)
Theorem C69_dotted_name_refuted : forall toDouble, exists name i metric rq,
  name <> [] /\ In (metric, rq) (published name i) /\ parseMetric toDouble metric = None.
Proof.
  intros D. exists (B "a.b"), (mkInfo 1 [MSum] []), (B "a.b.sum.5"), (R5, QMethod MSum). splits.
  - discriminate.
  - left. reflexivity.
  - reflexivity.
Qed.
(** So does a percentile written with a dot, although registration accepts it. *)
Theorem C69_dotted_percentile_refuted : forall toDouble, toDouble (B "99.9") = Some (f64ofZ 99) ->
  exists metric rq, In (metric, rq) (published (B "lat") (mkInfo (-1) [] (snd (parseStats toDouble (B "p99.9"))))) /\
    parseMetric toDouble metric = None.
Proof.
  intros D HD. exists (B "lat.p99.9.5"), (R5, QPct (f64div (f64ofZ 99) (f64ofZ 100))). split.
  - unfold parseStats. change (splitNonEmpty (B ",") (B "p99.9")) with [B "p99.9"]. cbn [parseParts].
    change (lower (trimWs (B "p99.9"))) with (B "p99.9"). change (methodOf (B "p99.9")) with (@None statsMethod). cbv iota.
    change (startsP (B "p99.9")) with true. cbv iota. unfold strToPct. change (tl (B "p99.9")) with (B "99.9"). rewrite HD.
    left. reflexivity.
  - reflexivity.
Qed.

Example C69_ex : forall D, D (B "99") = Some (f64ofZ 99) ->
  parseMetric D (B "latency.p99.600") = Some (B "latency", R600, QPct (f64div (f64ofZ 99) (f64ofZ 1))) /\
  parseMetric D (B "query.RATE.60") = Some (B "query", R60, QMethod MRate).
Proof. intros D HD. split; [|reflexivity]. unfold parseMetric. change (splitNonEmpty (B ".") (B "latency.p99.600")) with [B "latency"; B "p99"; B "600"].
  cbv iota. change (rangeOf (B "600")) with (Some R600). cbv iota zeta. change (lower (B "p99")) with (B "p99").
  change (methodOf (B "p99")) with (@None statsMethod). cbv iota. change (startsP (B "p99")) with true. cbv iota.
  unfold strToPct. change (tl (B "p99")) with (B "99"). rewrite HD. reflexivity. Qed.

Print Assumptions C48_unique_ids.
Print Assumptions C48_addressing.
Print Assumptions C48_sign.
Print Assumptions C48_no_failure.
Print Assumptions C69_published_readable.
