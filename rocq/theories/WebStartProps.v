(** Property C172: starting the web service. *)
From Verif Require Import Prelude Trans ValueBase WebStartModel.
From Coq Require Import String List.
Import ListNotations.
Open Scope Z_scope.

(** the ports the flags name in the end: those asked for, or, for 0, those the server got *)
Definition portsOf (o : served) (flags : Z * Z) : Z * Z :=
  match o with Serves a b => (if fst flags =? 0 then a else fst flags, if snd flags =? 0 then b else snd flags) | Throws _ => flags end.
Definition inv (o : served) (flags : Z * Z) (s : wst) : Prop :=
  (match vL s with LRun => vDone s = false /\ vStatus s = None /\ vPorts s = flags | LLock | LSet => vDone s = false /\ vStatus s = statusOf o /\ vPorts s = portsOf o flags
   | LNotify | LEnd => vDone s = true /\ vStatus s = statusOf o /\ vPorts s = portsOf o flags end) /\
  (vLock s = Some Main <-> vM s = MCheck) /\ (vLock s = Some Listener <-> vL s = LSet) /\
  (match vM s with MRet st => st = statusOf o /\ vDone s = true /\ vAlive s = false | _ => vAlive s = true end) /\
  (vM s = MSleep -> vL s <> LEnd) /\
  (vBad s = true -> vL s = LEnd).
Lemma inv_init o flags : inv o flags (wInit flags).
Proof. unfold inv, wInit. cbn. splits; auto; try discriminate; split; discriminate. Qed.
Lemma inv_step o flags s s' : inv o flags s -> wstepS o s s' -> inv o flags s'.
Proof.
  intros I T. revert I. destruct T as [s s' T|s s' E]; [destruct T as [s s' E|s s' E]|]; intros (I1 & I2 & I3 & I4 & I5 & I6);
    destruct s as [M L D St K A P Bd]; cbn in *.
  - unfold lnext in E. cbn in E. destruct L; cbn in *.
    + destruct I1 as (-> & -> & ->). destruct o as [a b|e]; injection E as <-; unfold inv; cbn; splits; auto; try tauto; try (intros; congruence); try (intuition congruence).
      destruct M; try (destruct I4 as (_ & Q & _); discriminate Q); subst A; destruct Bd; cbn; try discriminate; intros _; discriminate (I6 eq_refl).
    + destruct K; [discriminate E|]. injection E as <-. unfold inv; cbn. splits; auto; try tauto; try (intuition congruence).
      destruct M; try (destruct I4 as (_ & Q & _); destruct I1; congruence); subst A; destruct Bd; cbn; try discriminate; intros _; discriminate (I6 eq_refl).
    + injection E as <-. unfold inv; cbn. splits; auto; try tauto; try (intuition congruence).
      * destruct M; intuition congruence.
      * destruct M; try (destruct I4 as (_ & Q & _); destruct I1; congruence); subst A; destruct Bd; cbn; try discriminate; intros _; discriminate (I6 eq_refl).
    + injection E as <-. unfold inv; cbn. splits; auto; try tauto; try (intuition congruence); destruct M; intuition congruence.
    + discriminate E.
  - unfold mnext in E. cbn in E. destruct M; cbn in *; try discriminate E.
    + destruct K; [discriminate E|]. injection E as <-. unfold inv; cbn. splits; auto; try tauto; try (intuition congruence).
    + destruct D; injection E as <-; unfold inv; cbn; splits; auto; try tauto; try (intuition congruence); destruct L; intuition congruence.
  - unfold spurious in E. cbn in E. destruct M; try discriminate E. injection E as <-. unfold inv; cbn. splits; auto; try tauto; try (intuition congruence).
Qed.

Definition reach (o : served) (flags : Z * Z) (s : wst) : Prop := steps (wstepS o) (wInit flags) s.
Lemma inv_reach o flags s : reach o flags s -> inv o flags s.
Proof. intros R. exact (inv_reachable (wstepS o) (inv o flags) (inv_step o flags) _ _ R (inv_init o flags)). Qed.

(** In every execution, with wake-ups for nothing or without: the call returns only after the server has started or failed, with exactly that outcome,
    and the flags then name the ports of the server. *)
Theorem C172_answer : forall o flags s st, reach o flags s -> vM s = MRet st ->
  (st = None <-> exists a b, o = Serves a b) /\ (forall e, st = Some e <-> o = Throws e) /\ vPorts s = portsOf o flags /\ vDone s = true.
Proof.
  intros o flags s st R E. destruct (inv_reach _ _ _ R) as (I1 & _ & _ & I4 & _). rewrite E in I4. destruct I4 as (-> & D & _).
  splits; [| |destruct (vL s); intuition congruence|exact D].
  - destruct o as [a b|e]; cbn; split; [intros _; exists a, b; reflexivity|reflexivity|discriminate|intros (a & b & Q); discriminate Q].
  - intros e. destruct o as [a b|e']; cbn; split; intros Q; try discriminate Q; injection Q as ->; reflexivity.
Qed.

(** No wake-up is lost: a state in which nobody can go on, even when a wait ends only by a notification, is one in which the call has returned. *)
Theorem C172_no_deadlock : forall o flags s, reach o flags s -> (forall s', ~ wstep o s s') -> (exists st, vM s = MRet st) /\ vL s = LEnd.
Proof.
  intros o flags s R N. destruct (inv_reach _ _ _ R) as (I1 & I2 & I3 & I4 & I5 & I6). destruct s as [M L D St K A P Bd]; cbn in *.
  assert (EL : L = LEnd \/ (L = LLock /\ exists h, K = Some h)).
  { destruct L; try (left; reflexivity); try (exfalso; eapply N; apply ws_l; reflexivity).
    right. split; [reflexivity|]. destruct K as [h|]; [eexists; reflexivity|]. exfalso. eapply N; apply ws_l; reflexivity. }
  assert (EM : (exists st, M = MRet st) \/ M = MSleep \/ (M = MLock /\ exists h, K = Some h)).
  { destruct M as [| | |st]; [|exfalso; eapply N; apply ws_m; reflexivity|right; left; reflexivity|left; exists st; reflexivity].
    right. right. split; [reflexivity|]. destruct K as [h|]; [eexists; reflexivity|]. exfalso. eapply N; apply ws_m; reflexivity. }
  assert (EK : K <> Some Listener) by (intros Q; apply I3 in Q; destruct EL as [->|(-> & _)]; discriminate Q).
  assert (EK' : K <> Some Main).
  { intros Q. apply I2 in Q. destruct EM as [(st & ->)|[->|(-> & _)]]; discriminate Q. }
  assert (EN : K = None) by (destruct K as [[|]|]; congruence). subst K.
  destruct EL as [->|(_ & h & Q)]; [|discriminate Q]. split; [|reflexivity].
  destruct EM as [Q|[->|(_ & h & Q)]]; [exact Q| |discriminate Q]. exfalso. apply I5; reflexivity.
Qed.

(** And it comes to that: an execution in which waits end only by a notification has at most eight steps. *)
Inductive nsteps (o : served) : nat -> wst -> wst -> Prop :=
| ns_0 s : nsteps o 0 s s
| ns_S n s s1 s2 : wstep o s s1 -> nsteps o n s1 s2 -> nsteps o (S n) s s2.
Definition togo (s : wst) : nat :=
  match vL s with LRun => 6 | LLock => 5 | LSet => 4 | LNotify => 3 | LEnd => 0 end + match vM s with MLock => 2 | MCheck => 1 | MSleep | MRet _ => 0 end.
Lemma togo_step o s s' : wstep o s s' -> (togo s' < togo s)%nat.
Proof.
  intros [s0 s1 E|s0 s1 E]; destruct s0 as [M L D St K A P Bd]; unfold togo; cbn in *.
  - unfold lnext in E. cbn in E. destruct L; try discriminate E.
    + destruct o; injection E as <-; cbn; lia.
    + destruct K; [discriminate E|]. injection E as <-. cbn. lia.
    + injection E as <-. cbn. lia.
    + injection E as <-. cbn. destruct M; cbn; lia.
  - unfold mnext in E. cbn in E. destruct M; try discriminate E.
    + destruct K; [discriminate E|]. injection E as <-. cbn. lia.
    + destruct D; injection E as <-; cbn; lia.
Qed.
Theorem C172_terminates : forall o flags n s, nsteps o n (wInit flags) s -> (n <= 8)%nat.
Proof.
  intros o flags n s T. assert (Q : forall n a b, nsteps o n a b -> (n + togo b <= togo a)%nat).
  { clear. intros n a b T. induction T as [|n a b c E T IH]; [lia|]. apply togo_step in E. lia. }
  apply Q in T. unfold togo at 2 in T. cbn in T. lia.
Qed.

(** Nothing of the caller's frame is used after its end before the notification: the mutex, the flag and the Status are safe. *)
Theorem C172_only_notify : forall o flags s, reach o flags s -> vBad s = true -> vL s = LEnd.
Proof. intros o flags s R. exact (proj2 (proj2 (proj2 (proj2 (proj2 (inv_reach _ _ _ R)))))). Qed.
(** And a caller that is asleep when the notification comes is safe. *)
Theorem C172_asleep_safe : forall o flags s s', reach o flags s -> vM s = MSleep -> lnext o s = Some s' -> vBad s' = false.
Proof.
  intros o flags s s' R E T. destruct (inv_reach _ _ _ R) as (I1 & _ & _ & I4 & _ & I6). destruct s as [M L D St K A P Bd]; cbn in *. subst M A.
  unfold lnext in T. cbn in T. destruct L; try discriminate T;
    (destruct Bd; [discriminate (I6 eq_refl)|]); [destruct o|destruct K; [discriminate T|]| |]; injection T as <-; reflexivity.
Qed.
Ltac golis := eapply ns_S; [apply ws_l; cbn; reflexivity|].
Ltac gomain := eapply ns_S; [apply ws_m; cbn; reflexivity|].
(** But notify_all is called after the mutex is released: for every server and every choice of ports a caller that looks between the two returns, and the
    condition variable that is notified no longer exists; no wake-up for nothing is needed. *)
Theorem C172_notify_refuted : forall o flags, exists s st, nsteps o 6 (wInit flags) s /\ vM s = MRet st /\ vBad s = true.
Proof.
  intros o flags. destruct o as [a b|e]; do 2 eexists; (split; [|split]);
    try (golis; golis; golis; gomain; gomain; golis; apply ns_0); reflexivity.
Qed.
(** had the thread notified while it holds the mutex, no execution would use a variable after its end *)
Definition lnextFixed (o : served) (s : wst) : option wst :=
  match vL s with
  | LSet => Some (mkW (match vM s with MSleep => MLock | p => p end) LEnd true (vStatus s) None (vAlive s) (vPorts s) (vBad s || negb (vAlive s)))
  | _ => lnext o s
  end.
Inductive fstep (o : served) : wst -> wst -> Prop :=
| fs_l s s' : lnextFixed o s = Some s' -> fstep o s s'
| fs_m s s' : mnext s = Some s' -> fstep o s s'
| fs_sp s s' : spurious s = Some s' -> fstep o s s'.
Definition finv (s : wst) : Prop :=
  vBad s = false /\ vL s <> LNotify /\ (vL s <> LEnd -> vDone s = false /\ vAlive s = true).
Theorem C172_notify_inside : forall o flags s, steps (fstep o) (wInit flags) s -> vBad s = false.
Proof.
  intros o flags s R. assert (I : finv s); [|exact (proj1 I)].
  refine (inv_reachable (fstep o) finv _ _ _ R _); [|unfold finv; cbn; splits; auto; discriminate].
  clear. intros s s' (I1 & I2 & I3) T. revert I1 I2 I3. destruct T as [s s' E|s s' E|s s' E]; intros I1 I2 I3; destruct s as [M L D St K A P Bd]; cbn in *; subst Bd.
  - unfold lnextFixed, lnext in E. cbn in E. destruct L; try discriminate E; try congruence; destruct (I3 ltac:(discriminate)) as [-> ->].
    + destruct o; injection E as <-; unfold finv; cbn; splits; auto; discriminate.
    + destruct K; [discriminate E|]. injection E as <-. unfold finv; cbn; splits; auto; discriminate.
    + injection E as <-. unfold finv; cbn; splits; auto; try discriminate. congruence.
  - unfold mnext in E. cbn in E. destruct M; try discriminate E.
    + destruct K; [discriminate E|]. injection E as <-. unfold finv; cbn; splits; auto.
    + destruct D; injection E as <-; unfold finv; cbn; splits; auto. intros Q. destruct (I3 Q) as [Q' _]. discriminate Q'.
  - unfold spurious in E. cbn in E. destruct M; try discriminate E. injection E as <-. unfold finv; cbn; splits; auto.
Qed.

(** * The object *)
(** any number of calls of start, each with what the server would do *)
Fixpoint calls (w : webObj) (l : list (option served)) : webObj * list started :=
  match l with [] => (w, []) | o :: t => let (w1, r) := startObj w o in let (w2, rs) := calls w1 t in (w2, r :: rs) end.
(** Only the first call does anything; every later one answers OK, whatever the first one answered. *)
Theorem C172_first_only : forall o l,
  snd (calls newObj (o :: l)) =
  (match o with None => Thrown | Some (Serves _ _) => Answers None | Some (Throws e) => Answers (Some e) end) :: repeat (Answers None) (length l).
Proof.
  intros o l. assert (Q : forall w l, oStarted w = true -> calls w l = (w, repeat (Answers None) (length l))).
  { clear. intros w l E. induction l as [|o l IH]; [reflexivity|]. cbn [calls]. unfold startObj. rewrite E, IH. reflexivity. }
  destruct o as [[a b|e]|]; cbn [calls startObj oStarted newObj]; rewrite Q by reflexivity; reflexivity.
Qed.
(** so a service that failed to start says OK when asked again *)
Theorem C172_again_refuted : forall e, exists l, calls newObj [Some (Throws e); Some (Throws e)] = (fst (calls newObj [Some (Throws e)]), l) /\
  l = [Answers (Some e); Answers None].
Proof. intros e. eexists. split; reflexivity. Qed.
(** Routes can be added exactly until start is called for the first time, and the destructor is safe exactly when the first call did not throw: a service that was
    never started, and one whose ports could not be bound, is destroyed through a null pointer. *)
Theorem C172_lifetime : forall l,
  (routerOf (fst (calls newObj l)) = Ret tt <-> l = []) /\ (routerOf (fst (calls newObj l)) = Fatal <-> l <> []) /\
  (endObj (fst (calls newObj l)) = Ret tt <-> exists o t, l = Some o :: t) /\
  (endObj (fst (calls newObj l)) = UB <-> l = [] \/ exists t, l = None :: t).
Proof.
  intros l. assert (Q : forall w l, oStarted w = true -> fst (calls w l) = w).
  { clear. intros w l E. revert w E. induction l as [|o l IH]; intros w E; [reflexivity|]. cbn [calls]. unfold startObj. rewrite E.
    specialize (IH w E). destruct (calls w l). exact IH. }
  destruct l as [|o l].
  - cbn. splits; split; try reflexivity; try discriminate; try congruence; auto. intros (o & t & E). discriminate E.
  - assert (E : fst (calls newObj (o :: l)) = match o with None => mkObj true true false | Some _ => mkObj true true true end).
    { destruct o as [o|]; cbn [calls startObj oStarted newObj]; match goal with |- context [calls ?w l] => pose proof (Q w l eq_refl) as E; destruct (calls w l); exact E end. }
    rewrite E. destruct o as [o|]; cbn; splits; split; try reflexivity; try discriminate; try congruence; eauto;
      try (intros (? & ? & R); discriminate R); try (intros [R|(? & R)]; discriminate R).
Qed.

(** * Cases *)
Example web_ok : exists s, nsteps (Serves 11000 11002) 8 (wInit (0, 11002)) s /\ vM s = MRet None /\ vPorts s = (11000, 11002) /\ vBad s = false.
Proof.
  eexists. split; [|split; [|split]].
  - gomain. gomain. golis. golis. golis. golis. gomain. gomain. apply ns_0.
  - reflexivity.
  - reflexivity.
  - reflexivity.
Qed.
Example web_asleep : exists s, reach (Throws (B "in use"%string)) (0, 0) s /\ vM s = MSleep /\ vL s = LNotify.
Proof.
  eexists. split; [|split].
  - do 2 (eapply steps_cons; [apply wss, ws_m; cbn; reflexivity|]). do 3 (eapply steps_cons; [apply wss, ws_l; cbn; reflexivity|]). apply steps_refl.
  - reflexivity.
  - reflexivity.
Qed.
Example web_calls : calls newObj [None; Some (Serves 1 2)] = (mkObj true true false, [Thrown; Answers None]).
Proof. reflexivity. Qed.

Print Assumptions C172_answer.
Print Assumptions C172_no_deadlock.
Print Assumptions C172_terminates.
Print Assumptions C172_only_notify.
Print Assumptions C172_asleep_safe.
Print Assumptions C172_notify_refuted.
Print Assumptions C172_notify_inside.
Print Assumptions C172_first_only.
Print Assumptions C172_again_refuted.
Print Assumptions C172_lifetime.
