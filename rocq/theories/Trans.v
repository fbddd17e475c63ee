(** Transition systems: reachability and invariants. *)
From Verif Require Import Prelude.

Inductive steps {S : Type} (step : S -> S -> Prop) : S -> S -> Prop :=
| steps_refl s : steps step s s
| steps_snoc s1 s2 s3 : steps step s1 s2 -> step s2 s3 -> steps step s1 s3.

Lemma steps_trans {S} (step : S -> S -> Prop) a b c : steps step a b -> steps step b c -> steps step a c.
Proof. intros H1 H2. induction H2; [assumption|]. eapply steps_snoc; [apply IHsteps; assumption|eassumption]. Qed.
Lemma steps_one {S} (step : S -> S -> Prop) a b : step a b -> steps step a b.
Proof. intros H. eapply steps_snoc; [apply steps_refl|assumption]. Qed.
Lemma steps_cons {S} (step : S -> S -> Prop) a b c : step a b -> steps step b c -> steps step a c.
Proof. intros H. apply steps_trans, steps_one, H. Qed.

Lemma inv_reachable {S} (step : S -> S -> Prop) (inv : S -> Prop) :
  (forall s s', inv s -> step s s' -> inv s') -> forall s s', steps step s s' -> inv s -> inv s'.
Proof. intros Hi s s' H. induction H; eauto. Qed.

(** Updating one element of a list of threads. *)
Fixpoint supd {A} (i : nat) (x : A) (l : list A) : list A :=
  match l, i with
  | [], _ => []
  | _ :: l', O => x :: l'
  | y :: l', S i' => y :: supd i' x l'
  end.
Lemma supd_length {A} i (x : A) l : length (supd i x l) = length l.
Proof. revert i. induction l as [|a l IH]; intros [|i]; cbn; auto. Qed.
Lemma nth_supd {A} i k (x : A) l : (i < length l)%nat ->
  nth_error (supd i x l) k = if Nat.eqb k i then Some x else nth_error l k.
Proof. revert i k. induction l as [|a l IH]; intros [|i] [|k] H; cbn in *; try lia; auto. apply IH. lia. Qed.
Lemma nth_some_lt {A} (l : list A) i x : nth_error l i = Some x -> (i < length l)%nat.
Proof. intros H. apply nth_error_Some. congruence. Qed.

(** Counting elements of a list that satisfy a boolean test. *)
Fixpoint count {A} (f : A -> bool) (l : list A) : Z :=
  match l with [] => 0 | x :: l' => (if f x then 1 else 0) + count f l' end.
Lemma count_supd {A} (f : A -> bool) i x y l : nth_error l i = Some y ->
  count f (supd i x l) = count f l - (if f y then 1 else 0) + (if f x then 1 else 0).
Proof.
  revert i. induction l as [|a l IH]; intros [|i] H; cbn in *; try discriminate.
  - injection H as ->. lia.
  - rewrite (IH i H). lia.
Qed.
Lemma count_map {A} (f : A -> bool) (g : A -> A) l : (forall x, f (g x) = f x) -> count f (map g l) = count f l.
Proof. intros H. induction l as [|a l IH]; cbn; [reflexivity|]. rewrite H, IH. reflexivity. Qed.
Lemma count_nonneg {A} (f : A -> bool) l : 0 <= count f l.
Proof. induction l as [|a l IH]; cbn; [lia|]. destruct (f a); lia. Qed.
Lemma count_app {A} (f : A -> bool) l1 l2 : count f (l1 ++ l2) = count f l1 + count f l2.
Proof. induction l1 as [|a l IH]; cbn; lia. Qed.
Lemma count_pos {A} (f : A -> bool) l x : In x l -> f x = true -> 1 <= count f l.
Proof.
  induction l as [|a l IH]; cbn; [contradiction|]. intros [-> | Hin] Hf.
  - rewrite Hf. pose proof (count_nonneg f l). lia.
  - specialize (IH Hin Hf). destruct (f a); lia.
Qed.
