From Verif Require Import Prelude Trans LatchModel.

Definition is_asleep (c : lcall) : bool := match c with LAsleep _ => true | _ => false end.
(** calls whose down has been counted *)
Definition counted (c : lcall) : bool :=
  match c with
  | LReturned KWait | LAsleep KWait | LAwake KWait => false
  | LReturned _ | LAsleep _ | LAwake _ => true
  | _ => false
  end.

Record linv (n : Z) (s : latch) : Prop := {
  li_count : lcounter s + ldowns s = n;
  li_range : 0 <= lcounter s;
  li_downs : ldowns s = count counted (lcalls s);
  li_nosleep : lcounter s = 0 -> Forall (fun c => is_asleep c = false) (lcalls s);
  li_returned : Forall (fun c => match c with LReturned KDown => True | LReturned _ | LThrew _ => lcounter s = 0
                                 | _ => True end) (lcalls s) }.

Lemma Forall_supd {A} (P : A -> Prop) i x l : Forall P l -> P x -> Forall P (supd i x l).
Proof.
  intros H Hx. revert i. induction H; intros [|i]; cbn; auto.
Qed.

Lemma lwake_counted c : counted (lwake c) = counted c.
Proof. destruct c as [[]|[]|[]|[]|[]]; reflexivity. Qed.
Lemma lwake_asleep c : is_asleep (lwake c) = false.
Proof. destruct c; reflexivity. Qed.
Lemma nth_map_lwake l i k : nth_error l i = Some (LStart k) -> nth_error (map lwake l) i = Some (LStart k).
Proof. intros H. rewrite nth_error_map, H. reflexivity. Qed.

Lemma linv_step n s s' : linv n s -> lstep s s' -> linv n s'.
Proof.
  intros [H1 H2 H3 H4 H5] Hs. destruct Hs as [s i k Hi|s i k Hi|s i k Hi].
  - unfold lbegin.
    assert (Hret : forall c, (forall k', c <> LAsleep k') -> (match c with LReturned KDown => True | LReturned _ | LThrew _ => lcounter s = 0 | _ => True end) ->
       counted c = false -> linv n (mkLatch (lcounter s) (ldowns s) (supd i c (lcalls s)))).
    { intros c Hc Hx Hcn. constructor; cbn; auto.
      - rewrite (count_supd _ _ _ _ _ Hi). cbn. rewrite Hcn. lia.
      - intros E. apply Forall_supd; [auto|]. destruct c; try reflexivity. destruct (Hc k0 eq_refl).
      - apply Forall_supd; assumption. }
    assert (Hdown : k <> KWait -> lcounter s <> 0 ->
       linv n (let '(s', c) := (if Z.eqb (lcounter s - 1) 0
          then (mkLatch (lcounter s - 1) (ldowns s + 1) (map lwake (lcalls s)), LReturned k)
          else (mkLatch (lcounter s - 1) (ldowns s + 1) (lcalls s), match k with KDownWait => LAsleep k | _ => LReturned k end))
          in mkLatch (lcounter s') (ldowns s') (supd i c (lcalls s')))).
    { intros Hk Hne. destruct (Z.eqb_spec (lcounter s - 1) 0) as [E | E].
      - constructor; cbn [lcounter ldowns lcalls]; try lia.
        + rewrite (count_supd _ _ _ _ _ (nth_map_lwake _ _ _ Hi)), count_map by apply lwake_counted.
          cbn. destruct k; try contradiction; cbn; lia.
        + intros _. apply Forall_supd; [|reflexivity]. rewrite Forall_map, Forall_forall. intros c _. apply lwake_asleep.
        + apply Forall_supd; [|destruct k; auto].
          rewrite Forall_map, Forall_forall. intros c _. destruct c as [[]|[]|[]|[]|[]]; cbn; auto.
      - constructor; cbn [lcounter ldowns lcalls]; try lia.
        + rewrite (count_supd _ _ _ _ _ Hi). cbn. destruct k; try contradiction; cbn; lia.
        + apply Forall_supd.
          * eapply Forall_impl; [|exact H5]. intros c Hc. destruct c as [[]|[]|[]|[]|[]]; cbn in *; auto; contradiction.
          * destruct k; cbn; auto. contradiction. }
    destruct k; cbn -[Z.eqb].
    + destruct (Z.eqb_spec (lcounter s) 0) as [E | E]; [apply Hret; cbn; congruence|]. apply Hdown; [discriminate|assumption].
    + destruct (Z.eqb_spec (lcounter s) 0) as [E | E]; [apply Hret; cbn; congruence|]. apply Hdown; [discriminate|assumption].
    + destruct (Z.eqb_spec (lcounter s) 0) as [E | E]; [apply Hret; cbn; congruence|].
      constructor; cbn; auto.
      * rewrite (count_supd _ _ _ _ _ Hi). cbn. lia.
      * intros E'. contradiction.
      * apply Forall_supd; cbn; auto.
  - constructor; cbn; auto.
    + rewrite (count_supd _ _ _ _ _ Hi). destruct k; cbn; lia.
    + intros E. apply Forall_supd; auto.
    + apply Forall_supd; cbn; auto.
  - constructor; cbn -[Z.eqb]; auto.
    + rewrite (count_supd _ _ _ _ _ Hi). destruct (Z.eqb (lcounter s) 0), k; cbn; try lia.
    + intros E. apply Forall_supd; auto. rewrite E. reflexivity.
    + apply Forall_supd; auto. destruct (Z.eqb_spec (lcounter s) 0); [destruct k; auto|exact I].
Qed.

Lemma linv_init n ks : 0 < n -> linv n (mkLatch n 0 (map LStart ks)).
Proof.
  intros Hn. constructor; cbn; try lia.
  - induction ks as [|[] ks IH]; cbn; lia.
  - rewrite Forall_map, Forall_forall. auto.
Qed.

(** * Barrier *)
Definition arrived (g : Z) (c : bcall) : bool :=
  match c with BStart => false | BAsleep h | BAwake h | BReturned h => Z.eqb g h end.
Definition blocked (c : bcall) : bool := match c with BAsleep _ | BAwake _ => true | _ => false end.
Definition is_complete (g : Z) (e : bevent) : bool := match e with EvComplete h => Z.eqb g h | _ => false end.
Definition is_arrive (g : Z) (e : bevent) : bool := match e with EvArrive h => Z.eqb g h | _ => false end.
Definition is_return (g : Z) (e : bevent) : bool := match e with EvReturn h => Z.eqb g h | _ => false end.

(** Every return of generation g comes after n arrivals of g and its completion. *)
Definition log_ok (n : Z) (l : list bevent) : Prop :=
  forall pre post g, l = pre ++ EvReturn g :: post ->
    count (is_arrive g) pre = n /\ count (is_complete g) pre = 1.

Record binv (n : Z) (s : barrier) : Prop := {
  bi_counter : bcounter s = n;
  bi_ages : 1 <= bages s <= n;
  bi_g : 0 <= bg s;
  bi_calls : Forall (fun c => match c with
     | BStart => True
     | BAsleep g => g = bg s
     | BAwake g => 0 <= g <= bg s
     | BReturned g => 0 <= g < bg s end) (bcalls s);
  bi_arr : forall g, count (arrived g) (bcalls s) = count (is_arrive g) (blog s);
  bi_cur : forall g, count (is_arrive g) (blog s) =
     (if Z.eqb g (bg s) then n - bages s else if (0 <=? g) && (g <? bg s) then n else 0);
  bi_comp : forall g, count (is_complete g) (blog s) = (if (0 <=? g) && (g <? bg s) then 1 else 0);
  bi_log : log_ok n (blog s) }.

Lemma log_ok_snoc n l e : log_ok n l ->
  (forall g, e = EvReturn g -> count (is_arrive g) l = n /\ count (is_complete g) l = 1) -> log_ok n (l ++ [e]).
Proof.
  intros Hl He pre post g E. destruct post as [|x post] using rev_ind.
  - apply app_inj_tail in E as [-> ->]. apply He. reflexivity.
  - clear IHpost. rewrite app_comm_cons, app_assoc in E. apply app_inj_tail in E as [-> _].
    eapply Hl. reflexivity.
Qed.

Ltac ifs := repeat match goal with |- context [if ?b then _ else _] => destruct b eqn:?; cbn [Z.add] end; try lia.

Lemma bwake_arrived g c : arrived g (bwake c) = arrived g c.
Proof. destruct c; reflexivity. Qed.

Lemma binv_step n s s' : 0 < n -> bg s' < 18446744073709551616 -> binv n s -> bstep false s s' -> binv n s'.
Proof.
  intros Hn Hbound [H1 H2 H3 H4 H5 H6 H7 H8] Hs. destruct Hs as [s i Hi|s i g Hi|s i g Hi].
  - unfold barrive in *. destruct (Z.eqb_spec (bages s - 1) 0) as [E | E].
    + assert (Hcur : count (is_arrive (bg s)) (blog s) = n - 1).
      { rewrite H6, Z.eqb_refl. lia. }
      constructor; cbn [bcounter bages bg bcalls blog] in *; try lia.
      * apply Forall_supd; [|lia]. rewrite Forall_map. eapply Forall_impl; [|exact H4].
        intros c Hc. destruct c; cbn in *; lia.
      * intros g. rewrite (count_supd _ _ _ BStart) by (rewrite nth_error_map, Hi; reflexivity).
        rewrite count_map by apply bwake_arrived. rewrite count_app. cbn. rewrite H5. ifs.
      * intros g. rewrite count_app. cbn. rewrite H6. ifs.
      * intros g. rewrite count_app. cbn. rewrite H7. ifs.
      * change [EvArrive (bg s); EvComplete (bg s); EvReturn (bg s)]
          with ([EvArrive (bg s)] ++ [EvComplete (bg s)] ++ [EvReturn (bg s)]).
        rewrite !app_assoc. repeat apply log_ok_snoc; auto; try discriminate.
        intros g Eg. injection Eg as <-. rewrite !count_app. cbn. rewrite Hcur, H7. rewrite !Z.eqb_refl. split; ifs.
    + constructor; cbn [bcounter bages bg bcalls blog] in *; try lia.
      * apply Forall_supd; [assumption|reflexivity].
      * intros g. rewrite (count_supd _ _ _ _ _ Hi), count_app. cbn. rewrite H5. ifs.
      * intros g. rewrite count_app. cbn. rewrite H6. ifs.
      * intros g. rewrite count_app. cbn. rewrite H7. ifs.
      * apply log_ok_snoc; [assumption|]. discriminate.
  - rewrite Forall_forall in H4. pose proof (H4 _ (nth_error_In _ _ Hi)) as Hg. cbn in Hg.
    rewrite <- Forall_forall in H4.
    constructor; cbn [bcounter bages bg bcalls blog] in *; auto.
    + apply Forall_supd; [assumption|lia].
    + intros h. rewrite (count_supd _ _ _ _ _ Hi). cbn. rewrite H5. ifs.
  - rewrite Forall_forall in H4. pose proof (H4 _ (nth_error_In _ _ Hi)) as Hg. cbn in Hg.
    rewrite <- Forall_forall in H4.
    destruct (gen_differs g s) eqn:E; unfold gen_differs, u64 in E; cbn [bg] in Hbound.
    + assert (Hlt : g < bg s).
      { destruct (Z.eq_dec g (bg s)); [|lia]. subst g. rewrite Z.eqb_refl in E. discriminate. }
      constructor; cbn [bcounter bages bg bcalls blog] in *; auto.
      * apply Forall_supd; [assumption|lia].
      * intros h. rewrite (count_supd _ _ _ _ _ Hi), count_app. cbn. rewrite H5. ifs.
      * intros h. rewrite count_app. cbn. rewrite H6. ifs.
      * intros h. rewrite count_app. cbn. rewrite H7. ifs.
      * apply log_ok_snoc; [assumption|]. intros h Eh. injection Eh as <-. rewrite H6, H7.
        replace (Z.eqb g (bg s)) with false by lia. replace ((0 <=? g) && (g <? bg s)) with true by lia. lia.
    + assert (Heq : g = bg s) by (rewrite !Z.mod_small in E by lia; lia).
      constructor; cbn [bcounter bages bg bcalls blog] in *; auto.
      * apply Forall_supd; [assumption|lia].
      * intros h. rewrite (count_supd _ _ _ _ _ Hi). cbn. rewrite H5. ifs.
Qed.

Lemma binv_init n k : 0 < n -> binv n (mkBarrier n n 0 (repeat BStart k) []).
Proof.
  intros Hn. constructor; cbn; try lia.
  - apply Forall_forall. intros c Hc. apply repeat_spec in Hc. subst c. exact I.
  - intros g. induction k as [|k IH]; cbn; lia.
  - intros g. destruct (Z.eqb g 0); [lia|]. destruct (Z.leb_spec 0 g), (Z.ltb_spec g 0); cbn; lia.
  - intros g. destruct (Z.leb_spec 0 g), (Z.ltb_spec g 0); cbn; lia.
  - intros pre post g E. destruct pre; discriminate.
Qed.

Lemma bg_mono t s s' : bstep t s s' -> bg s <= bg s' .
Proof. intros [? ? ?|? ? ? ?|? ? ? ?]; unfold barrive; cbn; try lia.
  - destruct (Z.eqb (bages s0 - 1) 0); cbn; lia.
  - destruct (gen_differs g s0); cbn; lia.
Qed.
Lemma bg_mono_steps t s s' : steps (bstep t) s s' -> bg s <= bg s'.
Proof. induction 1; [lia|]. apply bg_mono in H0. lia. Qed.

Lemma binv_reach n s s' : 0 < n -> steps (bstep false) s s' -> bg s' < 18446744073709551616 -> binv n s -> binv n s'.
Proof.
  intros Hn H. induction H as [|s1 s2 s3 H IH Hs]; intros Hb Hi; [assumption|].
  apply (binv_step n s2 s3); auto. apply IH; [|assumption]. apply bg_mono in Hs. lia.
Qed.

(** Number of calls that have arrived. *)
Definition begun (c : bcall) : bool := match c with BStart => false | _ => true end.
Record bcount (n : Z) (k : nat) (s : barrier) : Prop := {
  bc_len : length (bcalls s) = k;
  bc_counter : bcounter s = n;
  bc_ages : 1 <= bages s <= n;
  bc_begun : count begun (bcalls s) = n * bg s + (n - bages s) }.
Lemma bcount_step n k s s' : 0 < n -> bcount n k s -> bstep false s s' -> bcount n k s'.
Proof.
  intros Hn [H1 H2 H3 H4] Hs. destruct Hs as [s i Hi|s i g Hi|s i g Hi].
  - unfold barrive. destruct (Z.eqb_spec (bages s - 1) 0) as [E | E]; constructor; cbn [bcounter bages bg bcalls blog]; try lia.
    + rewrite supd_length, map_length. assumption.
    + rewrite (count_supd _ _ _ BStart) by (rewrite nth_error_map, Hi; reflexivity).
      rewrite count_map by (intros []; reflexivity). cbn. lia.
    + rewrite supd_length. assumption.
    + rewrite (count_supd _ _ _ _ _ Hi). cbn. lia.
  - constructor; cbn; auto; [rewrite supd_length; assumption|]. rewrite (count_supd _ _ _ _ _ Hi). cbn. lia.
  - destruct (gen_differs g s); constructor; cbn; auto; try (rewrite supd_length; assumption);
      rewrite (count_supd _ _ _ _ _ Hi); cbn; lia.
Qed.
Lemma bcount_init n k : 0 < n -> bcount n k (mkBarrier n n 0 (repeat BStart k) []).
Proof.
  intros Hn. constructor; cbn; try lia.
  - apply repeat_length.
  - replace (n * 0 + (n - n)) with 0 by lia. induction k as [|k IH]; cbn; lia.
Qed.
Lemma count_full {A} (f : A -> bool) l : Forall (fun x => f x = true) l -> count f l = Z.of_nat (length l).
Proof. induction 1 as [|x l Hx _ IH]; cbn [count length]; [reflexivity|]. rewrite Hx, IH. lia. Qed.

(** Kinds of the calls never change. *)
Definition lkindOf (c : lcall) : lkind :=
  match c with LStart k | LAsleep k | LAwake k | LReturned k | LThrew k => k end.
Lemma map_supd {A B} (f : A -> B) i x y l : nth_error l i = Some y -> f x = f y -> map f (supd i x l) = map f l.
Proof.
  revert i. induction l as [|a l IH]; intros [|i] H E; cbn in *; try discriminate.
  - injection H as ->. rewrite E. reflexivity.
  - rewrite (IH i) by assumption. reflexivity.
Qed.
Lemma lkinds_step s s' : lstep s s' -> map lkindOf (lcalls s') = map lkindOf (lcalls s).
Proof.
  assert (Hw : forall l, map lkindOf (map lwake l) = map lkindOf l).
  { intros l. rewrite map_map. apply map_ext. intros []; reflexivity. }
  intros [s0 i k Hi|s0 i k Hi|s0 i k Hi].
  - unfold lbegin. destruct k; repeat (match goal with |- context [Z.eqb ?a ?b] => destruct (Z.eqb a b) end); cbn.
    all: try (rewrite <- (Hw (lcalls s0)); eapply map_supd; [apply nth_map_lwake; eassumption|reflexivity]).
    all: eapply map_supd; [eassumption|reflexivity].
  - cbn. eapply map_supd; [eassumption|reflexivity].
  - cbn -[Z.eqb]. eapply map_supd; [eassumption|]. destruct (Z.eqb (lcounter s0) 0); reflexivity.
Qed.
Lemma lkinds_reach s s' : steps lstep s s' -> map lkindOf (lcalls s') = map lkindOf (lcalls s).
Proof. induction 1; [reflexivity|]. rewrite <- IHsteps. apply lkinds_step. assumption. Qed.
Definition is_down (k : lkind) : bool := match k with KWait => false | _ => true end.
