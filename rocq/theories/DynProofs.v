(** Facts about the conversions of DynModel. *)
From Coq Require Import String List Lia ZArith Bool.
From Verif Require Import Prelude ValueBase ValueProofs DecProofs NetModel EvalModel NetProps DynModel.
Import ListNotations.
Local Open Scope Z_scope.
Local Open Scope list_scope.

Lemma toInt64_decZ z : int64_min <= z <= int64_max -> toInt64 (decZ z) = Some z.
Proof.
  intros R. assert (I : in_int64 z = true) by (unfold in_int64; lia).
  assert (K : forall n, 0 <= n -> exists c r, decZ n = c :: r /\ isDigit c = true).
  { intros n H. destruct (decZ_nonneg n H) as (N & D & _). destruct (decZ n) as [|c r]; [contradiction|]. exists c, r. cbn in D. apply andb_prop in D. tauto. }
  assert (DS : forall c r, isDigit c = true -> dropSpace (c :: r) = c :: r).
  { intros c r H. cbn. assert (isSpace c = false) as -> by (unfold isDigit, isSpace in *; lia). reflexivity. }
  unfold toInt64. destruct (Z.leb_spec 0 z) as [H | H].
  - destruct (K z H) as (c & r & E & D). destruct (decZ_nonneg z H) as (N & _ & G). specialize (G [] eq_refl). rewrite app_nil_r in G.
    rewrite E, DS by assumption. rewrite <- E.
    assert (X : takeSign (decZ z) = (false, decZ z)).
    { rewrite E. unfold takeSign. unfold isDigit in D. destruct c as [|p|p]; try reflexivity; try lia. do 7 (destruct p as [p|p|]; try reflexivity; try lia). }
    rewrite X, G, skipn_all, I. destruct (decZ z); [contradiction|reflexivity].
  - destruct (K (- z)) as (c & r & E & D); [lia|]. destruct (decZ_nonneg (- z)) as (N & _ & G); [lia|]. specialize (G [] eq_refl). rewrite app_nil_r in G.
    rewrite decZ_neg by assumption. change (dropSpace (45 :: decZ (- z))) with (45 :: decZ (- z)). cbn [takeSign]. rewrite G, skipn_all, Z.opp_involutive, I. destruct (decZ (- z)); [contradiction|reflexivity].
Qed.
