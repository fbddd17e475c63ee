(** Theorems for C20. *)
From Verif Require Import Prelude EitherModel EitherSpec EitherProofs.

(** C20, EitherOr: every allowed history over n objects runs without undefined behaviour or failing
    CHECK; afterwards every object is in exactly the state it should be in and returns the value last
    stored, the wrong accessor fails its CHECK, and the members constructed but not yet destroyed are
    exactly those of the non-void objects (nothing leaks, nothing is destroyed twice). *)
Theorem C20_either_or_history :
  forall (L R : Type) (n : nat) (os : list (eop L R)), eops_ok n (fun _ => None) os ->
  exists w, runE estep (einit n) os = Ret w /\
    ctors w = dtors w + nonvoid (earun (fun _ => None) os) n /\
    forall i, (i < n)%nat ->
      match earun (fun _ => None) os i with
      | None => tag (cellAt w i) = 0 /\ eLeft w i = Fatal /\ eRight w i = Fatal
      | Some (inl l) => tag (cellAt w i) = 1 /\ eLeft w i = Ret l /\ eRight w i = Fatal
      | Some (inr r) => tag (cellAt w i) = 2 /\ eLeft w i = Fatal /\ eRight w i = Ret r
      end.
Proof.
  intros L R n os Hok.
  destruct (erun_ok n estep (estep_ok n) os _ _ Hok (einit_rep n)) as (w & Hw & [Hl Hc Hn]).
  exists w. splits; auto. intros i Hi. specialize (Hc i Hi). unfold eLeft, eRight, readL, readR.
  destruct (earun (fun _ => None) os i) as [[l|r]|]; rewrite Hc; cbn; auto.
Qed.
Print Assumptions C20_either_or_history.

(** C20, StatusOr: the same, where status() checks and value() does not. *)
Theorem C20_status_or_history :
  forall (L R : Type) (n : nat) (os : list (eop L R)), eops_ok n (fun _ => None) os ->
  exists w, runE sostep (einit n) os = Ret w /\
    ctors w = dtors w + nonvoid (earun (fun _ => None) os) n /\
    forall i, (i < n)%nat ->
      match earun (fun _ => None) os i with
      | None => tag (cellAt w i) = 0 /\ sStatus w i = Fatal /\ sValue w i = UB
      | Some (inl l) => tag (cellAt w i) = 1 /\ sStatus w i = Ret l /\ sValue w i = UB
      | Some (inr r) => tag (cellAt w i) = 2 /\ sStatus w i = Fatal /\ sValue w i = Ret r
      end.
Proof.
  intros L R n os Hok.
  destruct (erun_ok n sostep (sstep_ok n) os _ _ Hok (einit_rep n)) as (w & Hw & [Hl Hc Hn]).
  exists w. splits; auto. intros i Hi. specialize (Hc i Hi). unfold sStatus, sValue, readL, readR.
  destruct (earun (fun _ => None) os i) as [[l|r]|]; rewrite Hc; cbn; auto.
Qed.
Print Assumptions C20_status_or_history.

Definition c20_ops : list (eop Z bool) :=
  [EAssignLeft 0 7; ECopy 1 0; EMove 2 0; EAssignRight 1 true; ECtorMove 0 1; ECopy 0 0; EMove 2 2;
   EAssignLeftOf 1 2; ETakeRight 0].
Example C20_example :
  eops_ok 3 (fun _ => None) c20_ops /\
  map (earun (fun _ => None) c20_ops) [0; 1; 2]%nat = [None; Some (inl 7); Some (inl 7)].
Proof.
  split; [|vm_compute; reflexivity]. cbn.
  splits; try lia; try exact I.
  - exists 7. reflexivity.
  - exists true. reflexivity.
Qed.

(** After every object has been destroyed no member is alive: constructors and destructors balance. *)
Theorem C20_no_leak :
  forall (L R : Type) (n : nat) (os : list (eop L R)), eops_ok n (fun _ => None) os ->
  (forall i, (i < n)%nat -> earun (fun _ => None) os i = None) ->
  exists w w', runE estep (einit n) os = Ret w /\ runE sostep (einit n) os = Ret w' /\
    ctors w = dtors w /\ ctors w' = dtors w'.
Proof.
  intros L R n os Hok Hv.
  assert (H0 : nonvoid (earun (fun _ => None) os) n = 0).
  { clear Hok. induction n as [|n IH]; cbn; [reflexivity|]. rewrite IH, Hv by (try intros; try apply Hv; lia). reflexivity. }
  destruct (C20_either_or_history L R n os Hok) as (w & Hw & Hc & _).
  destruct (C20_status_or_history L R n os Hok) as (w' & Hw' & Hc' & _).
  exists w, w'. splits; auto; lia.
Qed.
Print Assumptions C20_no_leak.

(** Assigning an object a reference to its own content uses the content after destroying it, in both
    classes (only whole-object self-assignment is guarded). *)
Theorem C20_self_content_assignment_refuted :
  forall (L R : Type) (l : L) (r : R),
  @estep L R (eSetLeft (einit 1) 0 l) (EAssignLeftOf 0 0) = UB /\
  @sostep L R (eSetRight (einit 1) 0 r) (EAssignRightOf 0 0) = UB.
Proof. intros. split; reflexivity. Qed.
Print Assumptions C20_self_content_assignment_refuted.
