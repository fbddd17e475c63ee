(** Property C20, the functions on ErrorOr. *)
From Verif Require Import Prelude EitherModel EitherSpec EitherProofs ErrorOrModel.

(** After any allowed history: an object is an error, or ok; the error can be read from the former, and the value exactly from those that
    have one, and taking the value leaves an object that is ok and has none; everything else stops the program. *)
Theorem C20_error_or : forall (L R : Type) (n : nat) (os : list (eop L R)), eops_ok n (fun _ => None) os ->
  exists w, runE estep (einit n) os = Ret w /\ forall i, (i < n)%nat ->
    match earun (fun _ => None) os i with
    | None => errOk w i = true /\ errHasValue w i = false /\ errError w i = Fatal /\ errValue w i = Fatal /\ errTake w i = Fatal
    | Some (inl e) => errOk w i = false /\ errHasValue w i = false /\ errError w i = Ret e /\ errValue w i = Fatal /\ errTake w i = Fatal
    | Some (inr v) => errOk w i = true /\ errHasValue w i = true /\ errError w i = Fatal /\ errValue w i = Ret v /\
        exists w', errTake w i = Ret (w', v) /\ errOk w' i = true /\ errHasValue w' i = false
    end.
Proof.
  intros L R n os Hok. destruct (erun_ok n estep (estep_ok n) os _ _ Hok (einit_rep n)) as (w & Hw & [Hl Hc Hn]).
  exists w. split; [exact Hw|]. intros i Hi. specialize (Hc i Hi). unfold errOk, errHasValue, errError, errValue, errTake, eLeft, eRight, eTakeRight.
  destruct (earun (fun _ => None) os i) as [[e|v]|] eqn:A; unfold readL, readR, killR; rewrite Hc; cbn [tag val Z.eqb Pos.eqb negb]; splits; try reflexivity.
  eexists. split; [cbn [obind]; reflexivity|].
  assert (T : forall (w0 : eworld L R) t, length (cells w0) = length (cells w) -> tag (cellAt (setTag w0 i t) i) = t).
  { intros w0 t E. unfold setTag, setCell, cellAt. cbn [cells]. rewrite StatusProofs.nth_put by lia. rewrite Nat.eqb_refl. reflexivity. }
  rewrite T by (cbn [cells setCell]; apply StatusProofs.put_length). split; reflexivity.
Qed.
(** ok() does not mean that there is a value: of an empty object it cannot be read. *)
Theorem C20_ok_without_value_refuted : exists w : eworld Z bool, runE estep (einit 1) [EAssignRight 0 true; ETakeRight 0] = Ret w /\
  errOk w 0 = true /\ errHasValue w 0 = false /\ errValue w 0 = Fatal.
Proof. eexists. split; [vm_compute; reflexivity|]. splits; reflexivity. Qed.
Example C20_error_or_ex : eops_ok 2 (fun _ => None) [@EAssignLeft Z bool 0 (-8); EAssignRight 1 true] /\
  (let* w := runE estep (einit 2) [@EAssignLeft Z bool 0 (-8); EAssignRight 1 true] in
   let* e := errError w 0 in let* v := errValue w 1 in Ret (errOk w 0, e, errOk w 1, v)) = Ret (false, -8, true, true).
Proof. split; [cbn; splits; auto; lia|reflexivity]. Qed.
Print Assumptions C20_error_or. Print Assumptions C20_ok_without_value_refuted.
