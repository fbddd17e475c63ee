(** Association lists with pairwise distinct keys: the model of std::unordered_map and std::map. The order of
    the entries is an iteration order. *)
From Verif Require Import Prelude.

Section A.
Context {K V : Type} (eqb : K -> K -> bool).
(** find *)
Fixpoint aget (k : K) (l : list (K * V)) : option V :=
  match l with [] => None | (k', v) :: l' => if eqb k k' then Some v else aget k l' end.
(** m[k] = v *)
Fixpoint aset (k : K) (v : V) (l : list (K * V)) : list (K * V) :=
  match l with [] => [(k, v)] | (k', v') :: l' => if eqb k k' then (k, v) :: l' else (k', v') :: aset k v l' end.
(** erase *)
Fixpoint adel (k : K) (l : list (K * V)) : list (K * V) :=
  match l with [] => [] | (k', v') :: l' => if eqb k k' then l' else (k', v') :: adel k l' end.
(** emplace: keeps an existing entry *)
Definition aadd (k : K) (v : V) (l : list (K * V)) : list (K * V) :=
  match aget k l with Some _ => l | None => l ++ [(k, v)] end.
Definition akeys (l : list (K * V)) : list K := map fst l.

Context (eqb_ok : forall a b, eqb a b = true <-> a = b).

Lemma eqb_self a : eqb a a = true.
Proof using eqb_ok. apply eqb_ok. reflexivity. Qed.
Lemma eqb_no a b : a <> b -> eqb a b = false.
Proof using eqb_ok. intros H. destruct (eqb a b) eqn:E; [|reflexivity]. apply eqb_ok in E. congruence. Qed.

Lemma aget_aset k v l k' : aget k' (aset k v l) = if eqb k' k then Some v else aget k' l.
Proof using eqb_ok.
  induction l as [|[k0 v0] l IH]; cbn; [reflexivity|].
  destruct (eqb k k0) eqn:E; cbn.
  - apply eqb_ok in E. subst k0. destruct (eqb k' k); reflexivity.
  - destruct (eqb k' k0) eqn:E0; [|exact IH]. apply eqb_ok in E0. subst k0. rewrite eqb_no; [reflexivity|].
    intros ->. rewrite eqb_self in E. discriminate.
Qed.
Lemma aget_In k v l : aget k l = Some v -> In (k, v) l.
Proof using eqb_ok.
  induction l as [|[k0 v0] l IH]; cbn; [discriminate|]. destruct (eqb k k0) eqn:E; auto.
  intros H. injection H as ->. apply eqb_ok in E. subst. auto.
Qed.
Lemma aget_None k l : aget k l = None <-> ~ In k (akeys l).
Proof using eqb_ok.
  induction l as [|[k0 v0] l IH]; cbn; [tauto|]. destruct (eqb k k0) eqn:E.
  - apply eqb_ok in E. subst. split; [discriminate|tauto].
  - rewrite IH. assert (k0 <> k) by (intros ->; rewrite eqb_self in E; discriminate). tauto.
Qed.
Lemma In_aget k v l : NoDup (akeys l) -> In (k, v) l -> aget k l = Some v.
Proof using eqb_ok.
  induction l as [|[k0 v0] l IH]; cbn; [tauto|]. intros N [H | H].
  - injection H as -> ->. rewrite eqb_self. reflexivity.
  - inversion N as [|? ? N1 N2]; subst. rewrite eqb_no; auto. intros ->. apply N1. apply (in_map fst) in H. exact H.
Qed.
Lemma aget_iff k v l : NoDup (akeys l) -> aget k l = Some v <-> In (k, v) l.
Proof using eqb_ok. intros N. split; [apply aget_In|apply In_aget; assumption]. Qed.
Lemma aset_in_keys k v l k' : In k' (akeys (aset k v l)) <-> k' = k \/ In k' (akeys l).
Proof using eqb_ok.
  induction l as [|[k0 v0] l IH]; cbn.
  - split; intros [H | H]; auto.
  - destruct (eqb k k0) eqn:E; cbn.
    + apply eqb_ok in E. subst. split; intros [H | H]; auto.
    + rewrite IH. tauto.
Qed.
Lemma aset_keys k v l : NoDup (akeys l) -> NoDup (akeys (aset k v l)).
Proof using eqb_ok.
  induction l as [|[k0 v0] l IH]; cbn; intros N.
  - constructor; [intros []|constructor].
  - inversion N as [|? ? N1 N2]; subst. destruct (eqb k k0) eqn:E; cbn.
    + apply eqb_ok in E. subst. constructor; assumption.
    + assert (k0 <> k) by (intros ->; rewrite eqb_self in E; discriminate).
      constructor; [|apply IH; assumption]. rewrite aset_in_keys. tauto.
Qed.
Lemma adel_In k l : NoDup (akeys l) -> forall k' v', In (k', v') (adel k l) <-> In (k', v') l /\ k' <> k.
Proof using eqb_ok.
  induction l as [|[k0 v0] l IH]; cbn; intros N k' v'; [tauto|]. inversion N as [|? ? N1 N2]; subst.
  destruct (eqb k k0) eqn:E; cbn.
  - apply eqb_ok in E. subst. split.
    + intros H. split; auto. intros ->. apply N1. apply (in_map fst) in H. exact H.
    + intros [[H | H] Hn]; auto. injection H as -> ->. congruence.
  - rewrite IH by assumption. assert (k0 <> k) by (intros ->; rewrite eqb_self in E; discriminate).
    split; [intros [H' | H']; [injection H' as -> ->|]; tauto|tauto].
Qed.
Lemma adel_keys k l : NoDup (akeys l) -> NoDup (akeys (adel k l)).
Proof using eqb_ok.
  induction l as [|[k0 v0] l IH]; cbn; intros N; auto. inversion N as [|? ? N1 N2]; subst.
  destruct (eqb k k0); cbn; auto. constructor; auto. intros H. apply in_map_iff in H. destruct H as ([k1 v1] & E & H).
  cbn in E. subst k1. apply adel_In in H; auto. apply N1. destruct H as [H _]. apply (in_map fst) in H. exact H.
Qed.
Lemma aget_adel k l k' : NoDup (akeys l) -> aget k' (adel k l) = if eqb k' k then None else aget k' l.
Proof using eqb_ok.
  intros N. destruct (eqb k' k) eqn:E.
  - apply eqb_ok in E. subst. apply aget_None. intros H. apply in_map_iff in H. destruct H as ([k1 v1] & E & H). cbn in E. subst.
    apply adel_In in H; tauto.
  - assert (k' <> k) by (intros ->; rewrite eqb_self in E; discriminate).
    destruct (aget k' l) as [v|] eqn:G.
    + apply aget_iff; [apply adel_keys; assumption|]. apply adel_In; auto. split; auto. apply aget_In. assumption.
    + apply aget_None. apply aget_None in G. intros H'. apply G. apply in_map_iff in H'. destruct H' as ([k1 v1] & E1 & H1).
      cbn in E1. subst. apply adel_In in H1; auto. destruct H1 as [H1 _]. apply (in_map fst) in H1. exact H1.
Qed.
End A.
Lemma NoDup_app_disj {A} (l1 l2 : list A) : NoDup l1 -> NoDup l2 -> (forall x, In x l1 -> ~ In x l2) -> NoDup (l1 ++ l2).
Proof.
  induction l1 as [|x l1 IH]; cbn; intros H1 H2 H3; auto. inversion H1; subst. constructor; [|apply IH; auto].
  rewrite in_app_iff. intros [X | X]; [contradiction|]. eapply H3; eauto.
Qed.
