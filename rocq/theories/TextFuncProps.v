(** C88: the case and trimming functions of FunctionManager.cpp:910-1052, called through the function table. *)
From Coq Require Import String List ZArith Lia Bool.
From Verif Require Import Prelude ValueBase ValueModel EvalModel FuncModel FuncTableModel FuncTableProofs FuncTableProps.
Import ListNotations.
Open Scope Z_scope.

(** * Specification *)
Definition blank (b : Z) : Prop := b = 32 \/ b = 9 \/ b = 10 \/ b = 13.
Definition startsBlank (s : str) : Prop := exists b s', s = b :: s' /\ blank b.
Definition endsBlank (s : str) : Prop := exists b s', s = s' ++ [b] /\ blank b.
(** [b'] is [b] with a capital ASCII letter made small: a relation, not the function of the model *)
Inductive smallOf : Z -> Z -> Prop :=
| smallCapital n : 0 <= n < 26 -> smallOf (65 + n) (97 + n)
| smallOther b : ~ 65 <= b <= 90 -> smallOf b b.
Definition bytesOf (s : str) : Prop := Forall (fun b => 0 <= b <= 255) s.
Definition sameButCase (a b : str) : Prop := exists c, Forall2 smallOf a c /\ Forall2 smallOf b c.

Lemma trimmed_blank b : trimmed b = true <-> blank b.
Proof. unfold trimmed, blank. split; intros H; [|destruct H as [-> | [-> | [-> | ->]]]; reflexivity]. lia. Qed.
Lemma ltrim_spec s : exists pre, s = pre ++ ltrim s /\ Forall blank pre /\ ~ startsBlank (ltrim s).
Proof.
  induction s as [|b s (pre & E & F & N)]; [exists []; splits; [reflexivity|constructor|intros (b & s' & E & _); discriminate E]|].
  cbn [ltrim]. destruct (trimmed b) eqn:T.
  - exists (b :: pre). splits; [cbn; rewrite <- E; reflexivity|constructor; [apply trimmed_blank; exact T|exact F]|exact N].
  - exists []. splits; [reflexivity|constructor|]. intros (c & s' & Es & Hc). injection Es as -> ->. apply trimmed_blank in Hc. congruence.
Qed.
Lemma rtrim_spec s : exists post, s = rtrim s ++ post /\ Forall blank post /\ ~ endsBlank (rtrim s).
Proof.
  destruct (ltrim_spec (rev s)) as (pre & E & F & N). exists (rev pre). unfold rtrim. splits.
  - apply (f_equal (@rev Z)) in E. rewrite rev_involutive, rev_app_distr in E. exact E.
  - apply Forall_rev. exact F.
  - intros (b & s' & Es & Hb). apply N. exists b, (rev s'). split; [|exact Hb].
    apply (f_equal (@rev Z)) in Es. rewrite rev_involutive, rev_app_distr in Es. exact Es.
Qed.
Lemma ltrim_ends s : ~ endsBlank s -> ~ endsBlank (ltrim s).
Proof.
  intros H (b & s' & E & Hb). destruct (ltrim_spec s) as (pre & Es & _). apply H. exists b, (pre ++ s').
  split; [|exact Hb]. rewrite Es, E. apply app_assoc.
Qed.

(** ltrim removes blanks from the left and nothing else, until something else is first; rtrim likewise from the right; trim both. *)
Theorem C88_trim : forall X W o s, exists pre l post r pre' m post',
  callFunction X W (B "ltrim") o [VStr s] = Some (Ret (VStr l)) /\ s = pre ++ l /\ Forall blank pre /\ ~ startsBlank l /\
  callFunction X W (B "rtrim") o [VStr s] = Some (Ret (VStr r)) /\ s = r ++ post /\ Forall blank post /\ ~ endsBlank r /\
  callFunction X W (B "trim") o [VStr s] = Some (Ret (VStr m)) /\ s = pre' ++ m ++ post' /\ Forall blank pre' /\ Forall blank post' /\
    ~ startsBlank m /\ ~ endsBlank m.
Proof.
  intros X W o s. destruct (ltrim_spec s) as (pre & El & Fl & Nl). destruct (rtrim_spec s) as (post & Er & Fr & Nr).
  destruct (ltrim_spec (rtrim s)) as (pre' & Em & Fm & Nm).
  exists pre, (ltrim s), post, (rtrim s), pre', (ltrim (rtrim s)), post.
  splits; try assumption; try reflexivity.
  - rewrite app_assoc, <- Em. exact Er.
  - apply ltrim_ends. exact Nr.
Qed.
(** Those clauses determine the result. *)
Lemma ltrim_unique pre l pre' l' : pre ++ l = pre' ++ l' -> Forall blank pre -> Forall blank pre' -> ~ startsBlank l -> ~ startsBlank l' -> l = l'.
Proof.
  revert pre'. induction pre as [|b pre IH]; intros [|b' pre'] E F F' N N'; cbn in E; [exact E| | |].
  - destruct N. exists b', (pre' ++ l'). inversion F'; subst. split; [reflexivity|assumption].
  - destruct N'. exists b, (pre ++ l). inversion F; subst. split; [reflexivity|assumption].
  - injection E as -> E. inversion F; inversion F'; subst. eapply IH; eassumption.
Qed.
Theorem C88_trim_unique : forall X W o s pre m post,
  s = pre ++ m ++ post -> Forall blank pre -> Forall blank post -> ~ startsBlank m -> ~ endsBlank m -> m <> [] ->
  callFunction X W (B "trim") o [VStr s] = Some (Ret (VStr m)).
Proof.
  intros X W o s pre m post -> Fp Fq Ns Ne Hm. transitivity (Some (Ret (VStr (ltrim (rtrim (pre ++ m ++ post)))))); [reflexivity|]. do 3 f_equal.
  destruct (rtrim_spec (pre ++ m ++ post)) as (post' & Er & Fr & Nr).
  assert (E1 : rtrim (pre ++ m ++ post) = pre ++ m).
  { remember (rtrim (pre ++ m ++ post)) as t0 eqn:Et0. clear Et0. apply (f_equal (@rev Z)) in Er. rewrite app_assoc, !rev_app_distr in Er. rewrite <- rev_app_distr in Er.
    assert (E := ltrim_unique _ _ _ _ Er). apply (f_equal (@rev Z)) in E.
    - rewrite !rev_involutive in E. symmetry. exact E.
    - apply Forall_rev; assumption.
    - apply Forall_rev; assumption.
    - intros (b & t & Et & Hb). destruct m as [|c m] using rev_ind; [congruence|]. rewrite !rev_app_distr in Et. cbn in Et. injection Et as -> _.
      apply Ne. exists b, m. split; [reflexivity|assumption].
    - intros (b & t & Et & Hb). apply Nr. exists b, (rev t). split; [|exact Hb]. apply (f_equal (@rev Z)) in Et. rewrite rev_involutive in Et. exact Et. }
  rewrite E1. destruct (ltrim_spec (pre ++ m)) as (pre' & El & Fl & Nl). symmetry. exact (ltrim_unique _ _ _ _ El Fp Fl Ns Nl).
Qed.
Example C88_trim_example : callFunction tX tW (B "trim") tO [VStr (B "	 a b  ")] = Some (Ret (VStr (B "a b"))) /\
  callFunction tX tW (B "ltrim") tO [VStr (B " a ")] = Some (Ret (VStr (B "a "))) /\ callFunction tX tW (B "rtrim") tO [VStr (B " a ")] = Some (Ret (VStr (B " a"))).
Proof. splits; reflexivity. Qed.

(** * Case *)
Lemma small_lower b : smallOf b (lowerByte b).
Proof.
  unfold lowerByte. destruct ((65 <=? b) && (b <=? 90)) eqn:E.
  - replace b with (65 + (b - 65)) at 1 by lia. replace (b + 32) with (97 + (b - 65)) by lia. constructor. lia.
  - constructor. lia.
Qed.
Lemma small_fun b c : smallOf b c -> c = lowerByte b.
Proof. intros [n H|x H]; unfold lowerByte; [destruct ((65 <=? 65 + n) && (65 + n <=? 90)) eqn:E; lia|destruct ((65 <=? x) && (x <=? 90)) eqn:E; lia]. Qed.
Lemma small_lower_all s : Forall2 smallOf s (lower s).
Proof. induction s; cbn; constructor; [apply small_lower|assumption]. Qed.
Lemma small_fun_all s c : Forall2 smallOf s c -> c = lower s.
Proof. induction 1; cbn; [reflexivity|]. f_equal; [apply small_fun; assumption|assumption]. Qed.
(** lower makes capital ASCII letters small and changes nothing else; upper is its counterpart. *)
Theorem C88_lower_upper : forall X W o s, exists l u,
  callFunction X W (B "lower") o [VStr s] = Some (Ret (VStr l)) /\ callFunction X W (B "tolower") o [VStr s] = Some (Ret (VStr l)) /\
  callFunction X W (B "upper") o [VStr s] = Some (Ret (VStr u)) /\ callFunction X W (B "toupper") o [VStr s] = Some (Ret (VStr u)) /\
  Forall2 smallOf s l /\ Forall2 smallOf u l /\ (forall b, In b u -> ~ 97 <= b <= 122).
Proof.
  intros X W o s. exists (lower s), (map upperByte s). splits; try reflexivity.
  - apply small_lower_all.
  - induction s as [|b s IH]; cbn; constructor; [|exact IH].
    replace (lowerByte b) with (lowerByte (upperByte b)); [apply small_lower|].
    unfold lowerByte, upperByte. repeat match goal with |- context [if ?c then _ else _] => destruct c eqn:? end; lia.
  - intros b H. apply in_map_iff in H as (c & <- & _). unfold upperByte. destruct ((97 <=? c) && (c <=? 122)) eqn:E; lia.
Qed.
Example C88_case_example : callFunction tX tW (B "lower") tO [VStr (B "Az9Z")] = Some (Ret (VStr (B "az9z"))) /\
  callFunction tX tW (B "upper") tO [VStr (B "Az9Z")] = Some (Ret (VStr (B "AZ9Z"))).
Proof. splits; reflexivity. Qed.

Lemma cstr_id s : ~ In 0 s -> cstr s = s.
Proof. induction s as [|b s IH]; intros H; [reflexivity|]. cbn in *. destruct (b =? 0) eqn:E; [destruct H; left; lia|]. f_equal. apply IH. tauto. Qed.
Lemma casecmp_zero a b : bytesOf a -> bytesOf b -> ~ In 0 a -> ~ In 0 b -> (casecmp a b = 0 <-> lower a = lower b).
Proof.
  revert b. induction a as [|x a IH]; intros [|y b] Ba Bb Na Nb; cbn; [tauto| | |].
  - inversion Bb; subst. cbn in Nb. split; [|discriminate]. unfold lowerByte. destruct ((65 <=? y) && (y <=? 90)) eqn:E; lia.
  - inversion Ba; subst. cbn in Na. split; [|discriminate]. unfold lowerByte. destruct ((65 <=? x) && (x <=? 90)) eqn:E; lia.
  - inversion Ba; inversion Bb; subst. cbn in Na, Nb. destruct (lowerByte x =? lowerByte y) eqn:E.
    + rewrite IH by tauto. split; intros H'; [f_equal; [lia|exact H']|]. injection H' as _ H'. exact H'.
    + split; [lia|]. intros H'. injection H' as E' _. lia.
Qed.
Lemma same_lower a b : sameButCase a b <-> lower a = lower b.
Proof.
  split; [intros (c & Ha & Hb); rewrite <- (small_fun_all _ _ Ha), <- (small_fun_all _ _ Hb); reflexivity|].
  intros E. exists (lower a). split; [apply small_lower_all|]. rewrite E. apply small_lower_all.
Qed.
(** strcasecmp gives zero exactly on texts that differ in case only, for texts without a NUL byte. *)
Theorem C88_strcasecmp_zero_partial : forall X W o a b, bytesOf a -> bytesOf b -> ~ In 0 a -> ~ In 0 b -> exists z,
  callFunction X W (B "strcasecmp") o [VStr a; VStr b] = Some (Ret (VInt z)) /\ (z = 0 <-> sameButCase a b).
Proof.
  intros X W o a b Ba Bb Na Nb. exists (casecmp (cstr a) (cstr b)). split; [reflexivity|].
  rewrite !cstr_id by assumption. rewrite casecmp_zero by assumption. symmetry. apply same_lower.
Qed.
(** False with a NUL byte: c_str() hides what follows it. *)
Theorem C88_strcasecmp_nul_refuted : exists a b, ~ sameButCase a b /\
  forall X W o, callFunction X W (B "strcasecmp") o [VStr a; VStr b] = Some (Ret (VInt 0)).
Proof.
  exists [97; 0; 98], [65; 0; 99]. split; [|reflexivity]. rewrite same_lower. discriminate.
Qed.
(** Swapping the arguments negates the result, and the results are consistent: it is a total preorder. *)
Theorem C88_strcasecmp_order : forall X W o a b c, bytesOf a -> bytesOf b -> bytesOf c -> exists x y z x',
  callFunction X W (B "strcasecmp") o [VStr a; VStr b] = Some (Ret (VInt x)) /\
  callFunction X W (B "strcasecmp") o [VStr b; VStr c] = Some (Ret (VInt y)) /\
  callFunction X W (B "strcasecmp") o [VStr a; VStr c] = Some (Ret (VInt z)) /\
  callFunction X W (B "strcasecmp") o [VStr b; VStr a] = Some (Ret (VInt x')) /\
  x' = - x /\ (x <= 0 -> y <= 0 -> z <= 0).
Proof.
  intros X W o a b c Ba Bb Bc. eexists _, _, _, _. do 4 (split; [reflexivity|]).
  assert (Bz : forall s, bytesOf s -> Forall (fun x => 0 < x) (cstr s)).
  { induction s as [|d s IH]; intros H; cbn; [constructor|]. inversion H; subst. destruct (d =? 0) eqn:E; constructor; [lia|apply IH; assumption]. }
  apply Bz in Ba, Bb, Bc. clear Bz.
  assert (L : forall d, 0 < d -> 0 < lowerByte d) by (intros d; unfold lowerByte; destruct ((65 <=? d) && (d <=? 90)) eqn:E; lia).
  revert Ba Bb Bc. generalize (cstr a), (cstr b), (cstr c). clear a b c. intros a b c Ba Bb Bc. split.
  - clear Ba Bb Bc c. revert b. induction a as [|d a IH]; intros [|e b]; cbn; try lia. rewrite (Z.eqb_sym (lowerByte e)).
    destruct (lowerByte d =? lowerByte e) eqn:E; [apply IH|lia].
  - revert b c Bb Bc. induction Ba as [|d a Hd Ba IH]; intros b c Bb Bc.
    + intros _ _. destruct Bc as [|f c Hf Bc]; cbn; [lia|]. specialize (L f Hf). lia.
    + destruct Bb as [|e b He Bb]; cbn; [specialize (L d Hd); lia|]. destruct Bc as [|f c Hf Bc]; cbn; [specialize (L e He); lia|].
      destruct (lowerByte d =? lowerByte e) eqn:E1; destruct (lowerByte e =? lowerByte f) eqn:E2; destruct (lowerByte d =? lowerByte f) eqn:E3; try lia.
      apply IH; assumption.
Qed.
Example C88_strcasecmp_example : callFunction tX tW (B "strcasecmp") tO [VStr (B "HeLLo"); VStr (B "hEllO")] = Some (Ret (VInt 0)) /\
  callFunction tX tW (B "strcasecmp") tO [VStr (B "a"); VStr (B "B")] = Some (Ret (VInt (-1))).
Proof. split; reflexivity. Qed.

Print Assumptions C88_trim.
Print Assumptions C88_trim_unique.
Print Assumptions C88_lower_upper.
Print Assumptions C88_strcasecmp_zero_partial.
Print Assumptions C88_strcasecmp_nul_refuted.
Print Assumptions C88_strcasecmp_order.
