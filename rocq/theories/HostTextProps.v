(** Property C72, what is read as the port of an address: /repo/src/common/network/NetworkUtils.cpp:292-315 *)
From Coq Require Import String List.
From Verif Require Import Prelude ValueBase EvalModel DecProofs StatsModel NetModel NetProps CastProps PortProps.
Import ListNotations.
Open Scope Z_scope.

Lemma space_blank c : isSpace c = true <-> blank c.
Proof. unfold isSpace, blank. lia. Qed.
Lemma spaces_blank l : forallb isSpace l = true <-> Forall blank l.
Proof. rewrite forallb_forall, Forall_forall. split; intros H c Hc; apply space_blank, H, Hc. Qed.
Lemma dropSpace_spec s : exists bs, s = bs ++ dropSpace s /\ Forall blank bs.
Proof.
  induction s as [|c s (bs & E & F)]; [exists []; split; constructor|]. cbn [dropSpace]. destruct (isSpace c) eqn:D.
  - exists (c :: bs). split; [cbn; f_equal; exact E|constructor; [apply space_blank, D|exact F]].
  - exists []. split; constructor.
Qed.
Lemma digits_read ds : Forall digit ds -> forall t acc, stops t = true -> digits (ds ++ t) acc = (List.length ds, fold_left (fun a d => a * 10 + (d - 48)) ds acc).
Proof.
  induction 1 as [|d ds Hd F IH]; intros t acc St; cbn [app digits].
  - destruct t as [|c t]; [reflexivity|]. cbn [digits]. cbn [stops] in St. unfold isDigit in St. destruct ((48 <=? c) && (c <=? 57)); [discriminate|reflexivity].
  - unfold digit in Hd. replace ((48 <=? d) && (d <=? 57)) with true by lia. rewrite IH by exact St. reflexivity.
Qed.
Lemma blank_stops t : Forall blank t -> stops t = true.
Proof. intros [|c t' H]; [reflexivity|]. cbn. unfold isDigit, blank in *. lia. Qed.

(** The port is the number written: blanks, a sign or none, digits, blanks; nothing else is taken, and no number that does not fit. *)
Theorem C72_port : forall s z, toInt32 s = Some z <->
  exists a t, s = a ++ t /\ numeral a z /\ Forall blank t /\ int32_min <= z <= int32_max.
Proof.
  assert (Dg : forall ds, ds <> [] -> Forall digit ds -> exists c r, ds = c :: r /\ isSpace c = false /\ c <> 45 /\ c <> 43).
  { intros [|c r] N F; [congruence|]. exists c, r. inversion F; subst. unfold digit in *. unfold isSpace. splits; [reflexivity|lia|lia|lia]. }
  intros s z. unfold toInt32. split.
  - destruct (dropSpace_spec s) as (bs & E & Fb). destruct (takeSign (dropSpace s)) as [neg s2] eqn:T.
    destruct (digits_spec s2 0) as (ds & rest & E2 & Fd & St & ->). cbn beta iota zeta.
    destruct (0 <? List.length ds)%nat eqn:L; cbn [andb]; [|discriminate].
    rewrite E2 at 1. rewrite skipn_app, skipn_all, Nat.sub_diag. cbn [app skipn].
    destruct (forallb isSpace rest) eqn:R; cbn [andb]; [|discriminate]. destruct (in_int32 _) eqn:I; [|discriminate]. intros [= <-].
    apply spaces_blank in R. fold (valueOf ds) in *. assert (N : ds <> []) by (intros ->; discriminate L).
    assert (K : exists sign, dropSpace s = sign ++ s2 /\ (sign = [45] /\ neg = true \/ (sign = [43] \/ sign = []) /\ neg = false)).
    { destruct (dropSpace s) as [|c r]; [injection T as <- <-; exists []; auto|].
      destruct (Z.eq_dec c 45) as [->|N1]; [injection T as <- <-; exists [45]; auto|]. destruct (Z.eq_dec c 43) as [->|N2]; [injection T as <- <-; exists [43]; auto|].
      exists []. assert (takeSign (c :: r) = (false, c :: r)) as X.
      { unfold takeSign. destruct c as [|p|p]; try reflexivity. do 6 (destruct p as [p|p|]; try reflexivity); congruence. }
      rewrite X in T. injection T as <- <-. auto. }
    destruct K as (sign & K1 & K2). exists (bs ++ sign ++ ds), rest. splits.
    + rewrite E, K1, E2, !app_assoc. reflexivity.
    + exists bs, sign, ds. splits; auto. destruct K2 as [[-> ->]|[K2 ->]]; auto.
    + exact R.
    + unfold in_int32 in I. lia.
    + unfold in_int32 in I. lia.
  - intros (a & t & -> & (bs & sign & ds & -> & Fb & N & Fd & Sg) & Ft & I).
    assert (Hs : exists neg, takeSign (sign ++ ds ++ t) = (neg, ds ++ t) /\ z = (if neg then - valueOf ds else valueOf ds) /\
      (match sign ++ ds ++ t with c :: _ => isSpace c = false | [] => True end)).
    { destruct Sg as [[-> ->]|[[->| ->] ->]]; [exists true; splits; reflexivity|exists false; splits; reflexivity|].
      destruct (Dg ds N Fd) as (c & r & -> & D1 & D2 & D3). exists false. splits; [|reflexivity|exact D1].
      unfold takeSign. cbn [app]. destruct c as [|p|p]; try reflexivity. do 6 (destruct p as [p|p|]; try reflexivity); congruence. }
    destruct Hs as (neg & H1 & H2 & H3). replace ((bs ++ sign ++ ds) ++ t) with (bs ++ sign ++ ds ++ t) by (rewrite !app_assoc; reflexivity).
    rewrite dropSpace_app by (try apply spaces_blank; assumption). rewrite H1, digits_read by (try apply blank_stops; assumption). fold (valueOf ds).
    rewrite skipn_app, skipn_all, Nat.sub_diag. cbn [app skipn]. rewrite <- H2. replace (0 <? List.length ds)%nat with true by (destruct ds; [congruence|reflexivity]).
    rewrite (proj2 (spaces_blank t) Ft). unfold in_int32. replace ((int32_min <=? z) && (z <=? int32_max)) with true by lia. reflexivity.
Qed.
Example C72_port_ex : toInt32 (B " +80 ") = Some 80 /\ toInt32 (B "-1") = Some (-1) /\ toInt32 (B "80a") = None /\ toInt32 (B "2147483648") = None /\ toInt32 (B "+") = None.
Proof. splits; reflexivity. Qed.
Print Assumptions C72_port.
