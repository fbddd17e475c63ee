(** C162, C163: the locks of the meta client. *)
From Coq Require Import List.
From Verif Require Import Prelude Trans MetaLockModel.
Import ListNotations.

(** * Specification *)
Definition reachable (js : list job) (cs : list (list call)) (s : sys) : Prop := steps step (system js cs) s.
Definition finished (s : sys) : Prop := forall t, In t s -> todo t = [] /\ held t = [].
(** no thread can do anything, and some has something to do *)
Definition deadlocked (s : sys) : Prop := ~ finished s /\ forall s', ~ step s s'.
(** two threads are about to access a member, and one to write it *)
Definition race (s : sys) (v : var) : Prop := exists i j hi hj mi mj ri rj, i <> j /\
  nth_error s i = Some (mkThr hi (Acc v mi :: ri)) /\ nth_error s j = Some (mkThr hj (Acc v mj :: rj)) /\ (mi = Wr \/ mj = Wr).
(** the callbacks of a job *)
Definition opt {A} (o : option (list A)) : list A := match o with Some l => l | None => [] end.
Definition callbacks (j : job) : list call :=
  match j with
  | Heartbeat cb => match cb with Some c => c | None => [] end
  | LoadData _ _ _ _ d1 d2 d3 => concat (opt d1) ++ concat (opt d2) ++ concat (opt d3)
  | LoadCfg _ items => concat (flat_map opt items)
  end.
(** the listener does not register or unregister a listener when it is called *)
Definition quiet (js : list job) : Prop := forall j, In j js -> ~ In Register (callbacks j).
(** nobody makes a call, from outside or from a callback *)
Definition nobody (c : call) (js : list job) (cs : list (list call)) : Prop := (forall l, In l cs -> ~ In c l) /\ (forall j, In j js -> ~ In c (callbacks j)).

(** * Proofs *)
Definition rank (l : lock) : nat := match l with LConfig => 0 | LListener => 1 | LCache => 2 | LLeaders => 3 | LHost => 4 | LLeaderIds => 5 end.
Definition lockOf (v : var) : option lock :=
  match v with VCache => Some LCache | VLeaders => Some LLeaders | VHost => Some LHost | VConfig => Some LConfig | VLeaderIds => Some LLeaderIds | VListener | VIndexNames => None end.
(** members that only the background thread writes *)
Definition owned (v : var) : bool := match v with VCache | VConfig | VLeaderIds | VListener | VIndexNames => true | VLeaders | VHost => false end.
Definition guarded (bg : bool) (h : list (lock * mode)) (v : var) (m : mode) : Prop :=
  match lockOf v, m with
  | None, _ => bg = true
  | Some l, Wr => In (l, Wr) h /\ (owned v = true -> bg = true)
  | Some l, Rd => (exists m', In (l, m') h) \/ (bg = true /\ owned v = true)
  end.
Section Fine.
Variable v0 : option var.
Fixpoint fine (bg : bool) (h : list (lock * mode)) (es : list ev) : Prop :=
  match es with
  | [] => h = []
  | Acq l m :: r => ((m = Rd /\ In (l, Rd) h) \/ Forall (fun p => (rank (fst p) < rank l)%nat) h) /\ fine bg ((l, m) :: h) r
  | Rel l :: r => fine bg (release l h) r
  | Acc v m :: r => (v0 = Some v -> guarded bg h v m) /\ fine bg h r
  | Wait :: r => h = [] /\ fine bg h r
  end.
(** a part that leaves the locks as it found them *)
Definition seg (bg : bool) (h : list (lock * mode)) (a : list ev) : Prop := forall b, fine bg h b -> fine bg h (a ++ b).
Lemma seg_nil bg h : seg bg h [].
Proof. intros b H. exact H. Qed.
Lemma seg_app bg h a b : seg bg h a -> seg bg h b -> seg bg h (a ++ b).
Proof. intros A B c H. rewrite <- app_assoc. apply A, B, H. Qed.
Lemma seg_concat bg h l : (forall a, In a l -> seg bg h a) -> seg bg h (concat l).
Proof. induction l as [|a l IH]; intros H; cbn [concat]; [apply seg_nil|]. apply seg_app; [apply H, in_eq|apply IH; intros b Hb; apply H; right; exact Hb]. Qed.
Lemma seg_flat {A} bg h (f : A -> list ev) l : (forall x, In x l -> seg bg h (f x)) -> seg bg h (flat_map f l).
Proof. intros H. rewrite flat_map_concat_map. apply seg_concat. intros a Ha. apply in_map_iff in Ha. destruct Ha as (x & <- & Hx). apply H, Hx. Qed.
Lemma seg_repeat bg h a n : seg bg h a -> forall b, In b (repeat a n) -> seg bg h b.
Proof. intros H b Hb. apply repeat_spec in Hb. subst. exact H. Qed.
Lemma seg_acc bg h v m a : (v0 = Some v -> guarded bg h v m) -> seg bg h a -> seg bg h (Acc v m :: a).
Proof. intros G A b H. cbn. split; [exact G|]. apply A, H. Qed.
Lemma seg_scope bg h l m a : ((m = Rd /\ In (l, Rd) h) \/ Forall (fun p => (rank (fst p) < rank l)%nat) h) -> seg bg ((l, m) :: h) a -> seg bg h (scope l m a).
Proof.
  intros R A b H. unfold scope. cbn [app fine]. split; [exact R|]. rewrite <- app_assoc. apply A. cbn. destruct l; cbn; exact H.
Qed.
Lemma seg_wait bg : seg bg [] [Wait].
Proof. intros b H. cbn. auto. Qed.

(** what holds while a callback runs *)
Inductive ctx : list (lock * mode) -> Prop := ctx_none : ctx [] | ctx_listener : ctx [(LListener, Wr)] | ctx_cfg : ctx [(LCache, Rd); (LConfig, Wr)].
Variables (names dl reg : Prop).
Hypothesis Hnames : v0 = Some VIndexNames -> names.
Hypothesis Hdl : v0 = Some VHost -> dl.
Hypothesis Hreg : v0 = Some VListener -> reg.
Lemma seg_lookup bg h : ctx h -> seg bg h lookup.
Proof.
  intros C. apply seg_scope; [|apply seg_acc; [|apply seg_nil]].
  - destruct C; [right; constructor|right; repeat constructor|left; split; [reflexivity|left; reflexivity]].
  - intros _. left. exists Rd. left. reflexivity.
Qed.
Lemma seg_call bg h c : ctx h -> (c = Register -> h = [] /\ ~ reg) -> (c = LookupByName -> bg = true \/ ~ names) -> (c = Download -> ~ dl) -> seg bg h (callEvents c).
Proof.
  intros C R N D. assert (K : forall l m a, (2 < rank l)%nat -> seg bg ((l, m) :: h) a -> seg bg h (scope l m a)).
  { intros l m a L A. apply seg_scope; [|exact A]. right. destruct C; repeat constructor; cbn; lia. }
  destruct c; cbn [callEvents].
  - apply seg_lookup, C.
  - apply seg_acc; [|apply seg_lookup, C]. intros E. cbn. destruct (N eq_refl) as [->|X]; [reflexivity|]. elim X. auto.
  - apply seg_app; [|apply seg_app; [apply seg_lookup, C|]].
    + apply K; [cbn; lia|]. apply seg_acc; [|apply seg_nil]. intros _. left. exists Rd. left. reflexivity.
    + apply K; [cbn; lia|]. apply seg_acc; [|apply seg_nil]. intros _. split; [left; reflexivity|discriminate].
  - apply K; [cbn; lia|]. apply seg_acc; [|apply seg_nil]. intros _. split; [left; reflexivity|discriminate].
  - apply K; [cbn; lia|]. apply seg_acc; [|apply seg_nil]. intros _. left. exists Rd. left. reflexivity.
  - apply K; [cbn; lia|]. apply seg_acc; [|apply seg_nil]. intros _. left. exists Rd. left. reflexivity.
  - apply K; [cbn; lia|]. apply seg_acc; [|apply seg_nil]. intros _. split; [left; reflexivity|discriminate].
  - apply seg_acc; [|apply seg_nil]. intros E. elim (D eq_refl). auto.
  - destruct (R eq_refl) as [-> X]. apply seg_scope; [right; constructor|]. apply seg_acc; [|apply seg_nil]. intros E. elim X. auto.
Qed.
Definition tame (l : list call) : Prop := ~ In Register l /\ (dl -> ~ In Download l).
Lemma seg_calls h l : ctx h -> tame l -> seg true h (callsEvents l).
Proof.
  intros C [R D]. apply seg_flat. intros c Hc. apply seg_call; [exact C|intros ->; contradiction|auto|intros -> X; exact (D X Hc)].
Qed.
Lemma seg_ask : seg true [] ask.
Proof. apply seg_app; [apply seg_call; [constructor|discriminate|discriminate|discriminate]|apply seg_wait]. Qed.
Lemma seg_write : seg true [] (scope LCache Wr [Acc VCache Wr]).
Proof. apply seg_scope; [right; constructor|]. apply seg_acc; [|apply seg_nil]. intros _. split; [left; reflexivity|reflexivity]. Qed.
Lemma tame_in (l : list (list call)) c : tame (concat l) -> In c l -> tame c.
Proof.
  intros [R D] H. split; [intros X; apply R, in_concat; eauto|]. intros Y X. apply (D Y), in_concat. eauto.
Qed.
Lemma seg_diff d : tame (concat (opt d)) -> seg true [] (diffEvents d).
Proof.
  intros T. apply seg_scope; [right; constructor|]. apply seg_acc; [intros _; reflexivity|]. destruct d as [l|]; [|apply seg_nil].
  apply seg_acc; [intros _; right; auto|]. apply seg_flat. intros c Hc. apply seg_calls; [constructor|]. exact (tame_in l c T Hc).
Qed.
Lemma seg_remote d : tame (concat (opt d)) -> seg true [] (remoteEvents d).
Proof.
  intros T. apply seg_scope; [right; constructor|]. apply seg_acc; [intros _; reflexivity|]. destruct d as [l|]; [|apply seg_nil].
  apply seg_app; [apply seg_lookup; constructor|]. apply seg_flat. intros c Hc. apply seg_app; [apply seg_lookup; constructor|].
  apply seg_calls; [constructor|]. exact (tame_in l c T Hc).
Qed.
Lemma in_firstn {A} k (l : list A) x : In x (firstn k l) -> In x l.
Proof. intros H. rewrite <- (firstn_skipn k l). apply in_or_app. left. exact H. Qed.
Lemma tame_app a b : tame (a ++ b) -> tame a /\ tame b.
Proof. intros [R D]. split; split; [intros X; apply R, in_or_app; auto|intros Y X; apply (D Y), in_or_app; auto|intros X; apply R, in_or_app; auto|intros Y X; apply (D Y), in_or_app; auto]. Qed.
Lemma seg_job j : tame (callbacks j) -> seg true [] (jobEvents j).
Proof.
  destruct j as [cb|k u s p d1 d2 d3|k items]; intros T; cbn [jobEvents callbacks] in *.
  - apply seg_acc; [intros _; reflexivity|]. apply seg_app; [|apply seg_ask]. destruct cb as [c|]; [|apply seg_nil].
    apply seg_app; [apply seg_calls; [constructor|exact T]|]. apply seg_acc; [intros _; right; auto|].
    apply seg_scope; [right; constructor|]. apply seg_acc; [|apply seg_nil]. intros _. split; [left; reflexivity|reflexivity].
  - apply tame_app in T. destruct T as [T1 T]. apply tame_app in T. destruct T as [T2 T3]. apply seg_concat. intros a Ha. apply in_firstn in Ha.
    assert (F : forall a, In a loadFt -> seg true [] a) by (intros b [<-|[<-|[]]]; [apply seg_ask|apply seg_write]).
    apply in_app_or in Ha. destruct Ha as [Ha|Ha].
    { destruct Ha as [<-|Ha]; [apply seg_ask|]. apply in_app_or in Ha. destruct Ha as [Ha|[<-|[]]]; [|apply seg_write]. exact (seg_repeat _ _ _ _ seg_ask _ Ha). }
    apply in_app_or in Ha. destruct Ha as [Ha|Ha]; [apply F, Ha|]. apply in_app_or in Ha. destruct Ha as [Ha|Ha]; [apply F, Ha|].
    apply in_app_or in Ha. destruct Ha as [[<-|[]]|Ha]; [apply seg_ask|]. apply in_app_or in Ha. destruct Ha as [Ha|Ha].
    { apply in_concat in Ha. destruct Ha as (x & Hx & Ha). apply repeat_spec in Hx. subst x.
      repeat (destruct Ha as [<-|Ha]; [first [apply seg_ask|apply seg_acc; [intros _; reflexivity|]; apply seg_acc; [intros _; reflexivity|apply seg_nil]]|]). destruct Ha. }
    apply in_app_or in Ha. destruct Ha as [[<-|[]]|Ha]; [apply seg_ask|].
    destruct Ha as [<-|[<-|[<-|[<-|[<-|[]]]]]]; [|apply seg_write|apply seg_diff, T1|apply seg_diff, T2|apply seg_remote, T3].
    apply seg_acc; [intros _; right; auto|]. apply seg_app; [apply seg_concat; apply seg_repeat, seg_lookup; constructor|].
    apply seg_scope; [right; constructor|]. apply seg_acc; [|apply seg_nil]. intros _. split; [left; reflexivity|discriminate].
  - apply seg_concat. intros a Ha. apply in_firstn in Ha. destruct Ha as [<-|[<-|[<-|[]]]]; [apply seg_ask|apply seg_ask|].
    apply seg_scope; [right; constructor|]. apply seg_flat. intros o Ho. unfold cfgItem. apply seg_acc; [intros _; right; auto|]. apply seg_app.
    + destruct o as [l|]; [|apply seg_nil]. apply seg_acc; [intros _; reflexivity|]. apply seg_scope; [right; repeat constructor|].
      apply seg_acc; [intros _; right; auto|]. apply seg_flat. intros c Hc. apply seg_calls; [constructor|]. apply (tame_in _ c T). apply in_flat_map. exists (Some l). auto.
    + apply seg_acc; [|apply seg_nil]. intros _. split; [left; reflexivity|reflexivity].
Qed.
End Fine.

Definition excl (s : sys) : Prop := forall i j ti tj l m, nth_error s i = Some ti -> nth_error s j = Some tj -> In (l, Wr) (held ti) -> In (l, m) (held tj) -> i = j /\ m = Wr.
Definition inv (v0 : option var) (s : sys) : Prop := (forall i t, nth_error s i = Some t -> fine v0 (Nat.eqb i 0) (held t) (todo t)) /\ excl s.
Lemma lock_eqb_eq a b : lock_eqb a b = true <-> a = b.
Proof. destruct a, b; cbn; split; intros H; first [reflexivity|discriminate]. Qed.
Lemma release_in l h p : In p (release l h) -> In p h.
Proof. induction h as [|q h IH]; cbn; [auto|]. destruct (lock_eqb (fst q) l); [auto|]. intros [->|H]; auto. Qed.
Lemma free_spec s l m : free s l m = true -> forall i t m', nth_error s i = Some t -> In (l, m') (held t) -> m' = Rd /\ m = Rd.
Proof.
  unfold free. intros F i t m' H I. rewrite forallb_forall in F. specialize (F t (nth_error_In _ _ H)). apply negb_true_iff in F.
  unfold holds in F. assert (X : forall p, In p (held t) -> (lock_eqb (fst p) l && (isWr (snd p) || isWr m))%bool = false).
  { intros p Hp. destruct (lock_eqb (fst p) l && (isWr (snd p) || isWr m))%bool eqn:E; [|reflexivity]. assert (existsb (fun p => (lock_eqb (fst p) l && (isWr (snd p) || isWr m))%bool) (held t) = true) as Y by (apply existsb_exists; eauto). congruence. }
  specialize (X _ I). cbn in X. assert (lock_eqb l l = true) as L by (apply lock_eqb_eq; reflexivity). rewrite L in X. destruct m', m; cbn in X; try discriminate. auto.
Qed.
Lemma free_not s l m : free s l m = false -> exists i t m', nth_error s i = Some t /\ In (l, m') (held t) /\ (m' = Wr \/ m = Wr).
Proof.
  unfold free. intros F. assert (X : exists t, In t s /\ holds l m (held t) = true).
  { induction s as [|t s IH]; cbn in F; [discriminate|]. destruct (holds l m (held t)) eqn:E; [exists t; cbn; auto|]. cbn in F. destruct (IH F) as (t' & I & H). exists t'. cbn. auto. }
  destruct X as (t & I & H). apply In_nth_error in I. destruct I as [i I]. unfold holds in H. apply existsb_exists in H. destruct H as ([l' m'] & J & H). cbn in H.
  apply andb_true_iff in H. destruct H as [E W]. apply lock_eqb_eq in E. subst l'. exists i, t, m'. splits; auto. apply orb_true_iff in W. destruct W as [W|W]; [left; destruct m'|right; destruct m]; auto; discriminate.
Qed.
Lemma inv_step v0 s s' : inv v0 s -> step s s' -> inv v0 s'.
Proof.
  intros [F X] T.
  (* a step of one thread that keeps it fine, and takes no lock that is not free *)
  assert (G : forall i t t', nth_error s i = Some t -> fine v0 (Nat.eqb i 0) (held t') (todo t') ->
    (forall l m, In (l, m) (held t') -> In (l, m) (held t) \/ free s l m = true) ->
    (forall l m, In (l, Wr) (held t') -> In (l, m) (held t') -> m = Wr) -> inv v0 (supd i t' s)).
  { intros i t t' N Fi Sub Own. pose proof (nth_some_lt _ _ _ N) as L. split.
    - intros k u H. rewrite nth_supd in H by exact L. destruct (Nat.eqb k i) eqn:E; [apply Nat.eqb_eq in E; subst k; injection H as <-; exact Fi|exact (F k u H)].
    - intros a b ta tb l m Ha Hb Wa Mb. rewrite nth_supd in Ha, Hb by exact L.
      destruct (Nat.eqb a i) eqn:Ea; destruct (Nat.eqb b i) eqn:Eb.
      + apply Nat.eqb_eq in Ea, Eb. subst a b. injection Ha as <-. injection Hb as <-. split; [reflexivity|]. exact (Own l m Wa Mb).
      + apply Nat.eqb_eq in Ea. subst a. injection Ha as <-. destruct (Sub _ _ Wa) as [Wa'|Fr]; [exact (X i b t tb l m N Hb Wa' Mb)|].
        destruct (free_spec s l Wr Fr b tb m Hb Mb) as [_ D]. discriminate.
      + apply Nat.eqb_eq in Eb. subst b. injection Hb as <-. destruct (Sub _ _ Mb) as [Mb'|Fr]; [exact (X a i ta t l m Ha N Wa Mb')|].
        destruct (free_spec s l m Fr a ta Wr Ha Wa) as [D _]. discriminate.
      + exact (X a b ta tb l m Ha Hb Wa Mb). }
  destruct T as [i h l m r N Fr|i h l r N|i h v m r N|i h r N]; pose proof (F i _ N) as Fi; cbn in Fi.
  - apply (G i _ _ N).
    + apply Fi.
    + cbn. intros l' m' [E|I]; [injection E as <- <-; right; exact Fr|left; exact I].
    + cbn. intros l' m' [E|I] [E'|I'].
      * congruence.
      * injection E as -> ->. destruct (free_spec s l' Wr Fr i _ m' N I') as [_ D]. discriminate.
      * injection E' as -> ->. destruct (free_spec s l' m' Fr i _ Wr N I) as [D _]. discriminate.
      * exact (proj2 (X i i _ _ l' m' N N I I')).
  - apply (G i _ _ N); cbn; [exact Fi|intros l' m' I; left; exact (release_in _ _ _ I)|].
    intros l' m' I I'. exact (proj2 (X i i _ _ l' m' N N (release_in _ _ _ I) (release_in _ _ _ I'))).
  - apply (G i _ _ N); cbn; [apply Fi|auto|]. intros l' m' I I'. exact (proj2 (X i i _ _ l' m' N N I I')).
  - apply (G i _ _ N); cbn; [apply Fi|auto|]. intros l' m' I I'. exact (proj2 (X i i _ _ l' m' N N I I')).
Qed.
Lemma inv_start v0 js cs : quiet js -> (v0 = Some VIndexNames -> forall l, In l cs -> ~ In LookupByName l) -> (v0 = Some VHost -> nobody Download js cs) ->
  (v0 = Some VListener -> forall l, In l cs -> ~ In Register l) -> inv v0 (system js cs).
Proof.
  intros Q N D R. split.
  - intros [|i] t H; cbn in H.
    + injection H as <-. unfold background. cbn [held todo Nat.eqb]. rewrite <- (app_nil_r (flat_map jobEvents js)).
      apply (seg_flat v0); [|reflexivity]. intros j Hj. apply (seg_job v0 (v0 = Some VIndexNames) (v0 = Some VHost) (v0 = Some VListener)); try (intros E; exact E).
      split; [apply Q, Hj|]. intros E. exact (proj2 (D E) j Hj).
    + apply nth_error_In in H. apply in_map_iff in H. destruct H as (l & <- & Hl). unfold caller. cbn [held todo Nat.eqb]. rewrite <- (app_nil_r (callsEvents l)).
      apply (seg_flat v0); [|reflexivity]. intros c Hc.
      apply (seg_call v0 (v0 = Some VIndexNames) (v0 = Some VHost) (v0 = Some VListener)); try (intros E; exact E); [constructor| | |].
      * intros ->. split; [reflexivity|]. intros E. exact (R E l Hl Hc).
      * intros ->. right. intros E. exact (N E l Hl Hc).
      * intros -> E. exact (proj1 (D E) l Hl Hc).
  - intros i j ti tj l m Hi _ W _. assert (held ti = []) as E; [|rewrite E in W; destruct W].
    destruct i as [|i]; cbn in Hi; [injection Hi as <-; reflexivity|]. apply nth_error_In, in_map_iff in Hi. destruct Hi as (c & <- & _). reflexivity.
Qed.
Lemma inv_at v0 js cs s : quiet js -> (v0 = Some VIndexNames -> forall l, In l cs -> ~ In LookupByName l) -> (v0 = Some VHost -> nobody Download js cs) ->
  (v0 = Some VListener -> forall l, In l cs -> ~ In Register l) -> reachable js cs s -> inv v0 s.
Proof. intros Q N D R H. apply (inv_reachable step (inv v0) (fun a b => inv_step v0 a b) _ _ H). apply inv_start; assumption. Qed.
(** a thread that waits for a lock waits for one of a higher rank in the end *)
Lemma no_cycle s : inv None s -> (forall s', ~ step s s') -> forall n i h l m r, (6 - rank l <= n)%nat -> nth_error s i = Some (mkThr h (Acq l m :: r)) -> False.
Proof.
  intros [F X] St. induction n as [|n IH]; intros i h l m r Hn N; [destruct l; cbn in Hn; lia|].
  destruct (free s l m) eqn:Fr; [exact (St _ (step_acq s i h l m r N Fr))|]. destruct (free_not _ _ _ Fr) as (j & t & m' & Nj & Hj & W).
  destruct t as [hj es]. cbn in Hj. pose proof (F j _ Nj) as Fj. cbn [held todo] in Fj. destruct es as [|[l2 m2|l2|v mm|] es]; cbn in Fj.
  - rewrite Fj in Hj. destruct Hj.
  - destruct Fj as [[[E I]|R] _].
    + subst m2. destruct (free s l2 Rd) eqn:Fr2; [exact (St _ (step_acq s j hj l2 Rd es Nj Fr2))|].
      destruct (free_not _ _ _ Fr2) as (k & tk & mk & Nk & Hk & [->|D]); [|discriminate]. destruct (X k j tk _ l2 Rd Nk Nj Hk I) as [_ D]. discriminate.
    + rewrite Forall_forall in R. specialize (R _ Hj). cbn in R. apply (IH j hj l2 m2 es); [|exact Nj]. destruct l, l2; cbn in *; lia.
  - exact (St _ (step_rel s j hj l2 es Nj)).
  - exact (St _ (step_acc s j hj v mm es Nj)).
  - exact (St _ (step_wait s j hj es Nj)).
Qed.
Lemma inv_progress s : inv None s -> ~ deadlocked s.
Proof.
  intros I [U St]. apply U. intros t Ht. apply In_nth_error in Ht. destruct Ht as [i N]. destruct t as [h [|[l m|l|v m|] r]]; cbn.
  - split; [reflexivity|]. exact (proj1 I i _ N).
  - elim (no_cycle s I St 6 i h l m r (Nat.le_sub_l _ _) N).
  - elim (St _ (step_rel s i h l r N)).
  - elim (St _ (step_acc s i h v m r N)).
  - elim (St _ (step_wait s i h r N)).
Qed.
Definition work (s : sys) : nat := fold_right (fun t n => (length (todo t) + n)%nat) 0%nat s.
Lemma work_supd s i t t' : nth_error s i = Some t -> S (length (todo t')) = length (todo t) -> S (work (supd i t' s)) = work s.
Proof.
  revert i. induction s as [|u s IH]; intros [|i] N L; cbn in *; try discriminate.
  - injection N as ->. lia.
  - specialize (IH i N L). unfold work in *. lia.
Qed.
Lemma work_step s s' : step s s' -> S (work s') = work s.
Proof. intros T. destruct T as [i h l m r N Fr|i h l r N|i h v m r N|i h r N]; eapply work_supd; try exact N; reflexivity. Qed.

(** * C162 *)
(** No execution of the background thread and any number of other threads comes to a deadlock. *)
Theorem C162_no_deadlock : forall js cs s, quiet js -> reachable js cs s -> ~ deadlocked s.
Proof. intros js cs s Q H. apply inv_progress. apply (inv_at None js cs s Q); try discriminate. exact H. Qed.
(** a step of one thread, as a function *)
Definition go (s : sys) (i : nat) : option sys :=
  match nth_error s i with
  | Some (mkThr h (Acq l m :: r)) => if free s l m then Some (supd i (mkThr ((l, m) :: h) r) s) else None
  | Some (mkThr h (Rel l :: r)) => Some (supd i (mkThr (release l h) r) s)
  | Some (mkThr h (Acc _ _ :: r)) | Some (mkThr h (Wait :: r)) => Some (supd i (mkThr h r) s)
  | _ => None
  end.
Lemma go_step s i s' : go s i = Some s' -> step s s'.
Proof.
  unfold go. destruct (nth_error s i) as [[h [|[l m|l|v m|] r]]|] eqn:N; try discriminate.
  - destruct (free s l m) eqn:F; [|discriminate]. intros H. injection H as <-. apply step_acq; assumption.
  - intros H. injection H as <-. apply step_rel. exact N.
  - intros H. injection H as <-. apply step_acc with (v := v) (m := m). exact N.
  - intros H. injection H as <-. apply step_wait. exact N.
Qed.
Lemma step_go s s' : step s s' -> exists i, go s i = Some s' /\ (i < length s)%nat.
Proof.
  intros T. destruct T as [i h l m r N F|i h l r N|i h v m r N|i h r N]; exists i; (split; [unfold go; rewrite N; rewrite ?F; reflexivity|exact (nth_some_lt _ _ _ N)]).
Qed.
Lemma progress s : inv None s -> finished s \/ exists s', step s s'.
Proof.
  intros I. destruct (existsb (fun i => match go s i with Some _ => true | None => false end) (seq 0 (length s))) eqn:E.
  - right. apply existsb_exists in E. destruct E as (i & _ & H). destruct (go s i) as [s'|] eqn:G; [|discriminate]. exists s'. exact (go_step _ _ _ G).
  - assert (St : forall s', ~ step s s').
    { intros s' T. destruct (step_go _ _ T) as (i & G & L). assert (X : existsb (fun i => match go s i with Some _ => true | None => false end) (seq 0 (length s)) = true); [|congruence].
      apply existsb_exists. exists i. rewrite G. split; [apply in_seq; lia|reflexivity]. }
    left. intros t Ht. destruct (In_nth_error _ _ Ht) as [i N]. destruct t as [h [|[l m|l|v m|] r]]; cbn.
    + split; [reflexivity|]. exact (proj1 I i _ N).
    + elim (no_cycle s I St 6 i h l m r (Nat.le_sub_l _ _) N).
    + elim (St _ (step_rel s i h l r N)).
    + elim (St _ (step_acc s i h v m r N)).
    + elim (St _ (step_wait s i h r N)).
Qed.
(** From wherever an execution is, all threads can be brought to the end of what they do, with all locks released ... *)
Theorem C162_finishes : forall js cs s, quiet js -> reachable js cs s -> exists s', steps step s s' /\ finished s'.
Proof.
  intros js cs s Q H. assert (I : inv None s) by (apply (inv_at None js cs s Q); [discriminate|discriminate|discriminate|exact H]). clear H.
  remember (work s) as n eqn:E. revert s E I. induction n as [n IH] using lt_wf_ind. intros s E I. destruct (progress s I) as [F|[s' T]]; [exists s; split; [apply steps_refl|exact F]|].
  destruct (IH (work s')) with (s := s') as (s'' & R & F); [pose proof (work_step _ _ T); lia|reflexivity|exact (inv_step None s s' I T)|].
  exists s''. split; [exact (steps_cons step _ _ _ T R)|exact F].
Qed.
(** ... and no execution goes on for ever. *)
Theorem C162_ends : forall js cs (run : nat -> sys), run 0%nat = system js cs -> ~ (forall n, step (run n) (run (S n))).
Proof.
  intros js cs run _ H. assert (G : forall n, (work (run n) + n = work (run 0))%nat).
  { induction n as [|n IH]; [lia|]. pose proof (work_step _ _ (H n)). lia. }
  specialize (G (S (work (run 0%nat)))). lia.
Qed.
(** No thread waits for the meta server with a lock in hand. *)
Theorem C162_waits_without_locks : forall js cs s t r, quiet js -> reachable js cs s -> In t s -> todo t = Wait :: r -> held t = [].
Proof.
  intros js cs s t r Q H Ht E. destruct (In_nth_error _ _ Ht) as [i N].
  assert (I : inv None s) by (apply (inv_at None js cs s Q); [discriminate|discriminate|discriminate|exact H]). pose proof (proj1 I i t N) as F. rewrite E in F. apply F.
Qed.
Fixpoint goes (s : sys) (l : list nat) : option sys := match l with [] => Some s | i :: l' => match go s i with Some s' => goes s' l' | None => None end end.
Lemma goes_steps l : forall s s', goes s l = Some s' -> steps step s s'.
Proof.
  induction l as [|i l IH]; intros s s' H; cbn in H; [injection H as <-; apply steps_refl|]. destruct (go s i) as [s1|] eqn:G; [|discriminate].
  exact (steps_cons step _ _ _ (go_step _ _ _ G) (IH _ _ H)).
Qed.
(** A listener that unregisters itself when it is called never returns: the thread waits for the lock it holds. *)
Definition selfish : list job := [LoadData 20 0 0 0 (Some [[Register]]) None None].
Theorem C162_callback_refuted : exists s, reachable selfish [] s /\ deadlocked s.
Proof.
  destruct (goes (system selfish []) (repeat 0%nat 39)) as [s|] eqn:G; [|vm_compute in G; discriminate]. exists s. split; [exact (goes_steps _ _ _ G)|].
  vm_compute in G. injection G as <-. split.
  - intros F. destruct (F _ (or_introl eq_refl)) as [D _]. discriminate.
  - intros s' T. destruct (step_go _ _ T) as (i & X & L). cbn in L. destruct i as [|i]; [|lia]. vm_compute in X. discriminate.
Qed.

(** * C163 *)
(** A lock that a thread holds for writing is held by nobody else. *)
Theorem C163_exclusive : forall js cs s i j ti tj l m, quiet js -> reachable js cs s -> nth_error s i = Some ti -> nth_error s j = Some tj ->
  In (l, Wr) (held ti) -> In (l, m) (held tj) -> i = j.
Proof.
  intros js cs s i j ti tj l m Q H Ni Nj W M. assert (I : inv None s) by (apply (inv_at None js cs s Q); [discriminate|discriminate|discriminate|exact H]).
  exact (proj1 (proj2 I i j ti tj l m Ni Nj W M)).
Qed.
(** No member is accessed by two threads at a time of which one writes, but for three of them: the names of indexes, if somebody looks up an index by name; the address of the
    leader, if somebody downloads or ingests; the listener, if it is registered or unregistered meanwhile. *)
Theorem C163_no_race : forall js cs s v, quiet js -> (v = VIndexNames -> forall l, In l cs -> ~ In LookupByName l) -> (v = VHost -> nobody Download js cs) ->
  (v = VListener -> forall l, In l cs -> ~ In Register l) -> reachable js cs s -> ~ race s v.
Proof.
  intros js cs s v Q N D R H (i & j & hi & hj & mi & mj & ri & rj & Dij & Ni & Nj & W).
  assert (I : inv (Some v) s).
  { apply (inv_at (Some v) js cs s Q); [intros E; injection E as ->; auto|intros E; injection E as ->; auto|intros E; injection E as ->; auto|exact H]. }
  destruct I as [F X]. pose proof (proj1 (F i _ Ni) eq_refl) as Gi. pose proof (proj1 (F j _ Nj) eq_refl) as Gj. cbn [held] in Gi, Gj.
  assert (K : forall a b ha hb ra rb ma mb, a <> b -> nth_error s a = Some (mkThr ha ra) -> nth_error s b = Some (mkThr hb rb) ->
    guarded (Nat.eqb a 0) ha v ma -> guarded (Nat.eqb b 0) hb v mb -> ma = Wr -> False).
  { clear - X. intros a b ha hb ra rb ma mb Dab Na Nb Ga Gb ->. unfold guarded in *. destruct (lockOf v) as [l|].
    - destruct Ga as [Wa Oa]. assert (Z : (exists m, In (l, m) hb) \/ (Nat.eqb b 0 = true /\ owned v = true)) by (destruct mb; [exact Gb|destruct Gb; eauto]).
      destruct Z as [[m M]|[B O]]; [exact (Dab (proj1 (X a b _ _ l m Na Nb Wa M)))|]. apply Nat.eqb_eq in B. specialize (Oa O). apply Nat.eqb_eq in Oa. congruence.
    - apply Nat.eqb_eq in Ga. apply Nat.eqb_eq in Gb. congruence. }
  destruct W as [W|W]; [exact (K i j _ _ _ _ _ _ Dij Ni Nj Gi Gj W)|exact (K j i _ _ _ _ _ _ (not_eq_sym Dij) Nj Ni Gj Gi W)].
Qed.
(** For these three: an index looked up by name while the background thread writes the names, *)
Theorem C163_index_names_refuted : exists js cs s, quiet js /\ reachable js cs s /\ race s VIndexNames.
Proof.
  exists [LoadData 30 0 1 0 None None None], [[LookupByName]].
  destruct (goes (system [LoadData 30 0 1 0 None None None] [[LookupByName]]) (repeat 0%nat 45)) as [s|] eqn:G; [|vm_compute in G; discriminate]. exists s.
  split; [intros j [<-|[]]; cbn; tauto|]. split; [exact (goes_steps _ _ _ G)|]. vm_compute in G. injection G as <-.
  exists 0%nat, 1%nat. do 6 eexists. split; [discriminate|]. split; [reflexivity|]. split; [reflexivity|]. left. reflexivity.
Qed.
(** the leader's address read for a download while an answer changes it, *)
Theorem C163_download_refuted : exists js cs s, quiet js /\ reachable js cs s /\ race s VHost.
Proof.
  exists [], [[Download]; [Elsewhere]]. destruct (goes (system [] [[Download]; [Elsewhere]]) [2%nat]) as [s|] eqn:G; [|vm_compute in G; discriminate]. exists s.
  split; [intros j []|]. split; [exact (goes_steps _ _ _ G)|]. vm_compute in G. injection G as <-.
  exists 1%nat, 2%nat. do 6 eexists. split; [discriminate|]. split; [reflexivity|]. split; [reflexivity|]. right. reflexivity.
Qed.
(** and the listener read for a heartbeat while it is unregistered. *)
Theorem C163_listener_refuted : exists js cs s, quiet js /\ reachable js cs s /\ race s VListener.
Proof.
  exists [Heartbeat None], [[Register]]. destruct (goes (system [Heartbeat None] [[Register]]) [1%nat]) as [s|] eqn:G; [|vm_compute in G; discriminate]. exists s.
  split; [intros j [<-|[]]; cbn; tauto|]. split; [exact (goes_steps _ _ _ G)|]. vm_compute in G. injection G as <-.
  exists 0%nat, 1%nat. do 6 eexists. split; [discriminate|]. split; [reflexivity|]. split; [reflexivity|]. right. reflexivity.
Qed.

(** * Concrete cases *)
(** a load with callbacks that ask the client, a nested option, and two threads *)
Definition exJobs : list job := [Heartbeat (Some [Lookup]); LoadData 60 2 2 3 (Some [[Lookup; StorageLeader]; []]) None (Some [[LookupByName]]); LoadCfg 3 [Some [[StorageLeader]]; None]].
Definition exCalls : list (list call) := [[StorageLeader; SetLeader; Lookup]; [Register; Send; Elsewhere; LookupByName]].
(** round robin: the first that can go on *)
Fixpoint play (n : nat) (s : sys) : sys :=
  match n with
  | O => s
  | S n' => match fold_left (fun o i => match o with Some _ => o | None => go s ((n' + i) mod 3) end) [0%nat; 1%nat; 2%nat] None with Some s' => play n' s' | None => s end
  end.
Example quiet_case : quiet exJobs.
Proof. intros j [<-|[<-|[<-|[]]]]; cbn; intuition discriminate. Qed.
Example finished_case : forallb (fun t => match todo t, held t with [], [] => true | _, _ => false end) (play 400 (system exJobs exCalls)) = true.
Proof. vm_compute. reflexivity. Qed.
(** a state in which one thread waits for another *)
Example waiting_case : exists s, reachable [] [[SetLeader]; [LeaderInfos]] s /\ go s 2 = None /\ go s 1 <> None.
Proof.
  destruct (goes (system [] [[SetLeader]; [LeaderInfos]]) [1%nat]) as [s|] eqn:G; [|vm_compute in G; discriminate]. exists s. split; [exact (goes_steps _ _ _ G)|].
  vm_compute in G. injection G as <-. split; [reflexivity|discriminate].
Qed.

Print Assumptions C162_no_deadlock. Print Assumptions C162_finishes. Print Assumptions C162_ends. Print Assumptions C162_waits_without_locks. Print Assumptions C162_callback_refuted.
Print Assumptions C163_exclusive. Print Assumptions C163_no_race. Print Assumptions C163_index_names_refuted. Print Assumptions C163_download_refuted. Print Assumptions C163_listener_refuted.
