(** Property C55: the cluster id kept in a file. *)
From Coq Require Import List.
From Verif Require Import Prelude ClusterModel.
Import ListNotations.
Open Scope Z_scope.

Definition isId (id : Z) : Prop := int64_min <= id <= int64_max.

Lemma leBytes_length n : forall z, List.length (leBytes n z) = n.
Proof. induction n as [|n IH]; intros z; cbn; auto. Qed.
Lemma leUnsigned_bytes n : forall z, leUnsigned (leBytes n z) = z mod 256 ^ Z.of_nat n.
Proof.
  induction n as [|n IH]; intros z; [cbn; rewrite Z.mod_1_r; reflexivity|]. cbn [leBytes leUnsigned]. rewrite IH, Nat2Z.inj_succ, Z.pow_succ_r by lia.
  rewrite Z.rem_mul_r by (try lia; apply Z.pow_pos_nonneg; lia). reflexivity.
Qed.
Lemma idOfBytes_idBytes id : isId id -> idOfBytes (idBytes id) = id.
Proof.
  intros H. unfold idOfBytes, idBytes. rewrite leUnsigned_bytes. change (256 ^ Z.of_nat 8) with 18446744073709551616.
  unfold isId, int64_min, int64_max, wrap64 in *. rewrite Zplus_mod_idemp_l, Z.mod_small by lia. lia.
Qed.
Lemma read_all id : isId id -> getClusterIdFromFile (Some (idBytes id)) = id.
Proof.
  intros H. unfold getClusterIdFromFile. replace (firstn 8 (idBytes id)) with (idBytes id) by reflexivity.
  unfold idBytes at 1. rewrite leBytes_length. cbn [Nat.eqb]. apply idOfBytes_idBytes, H.
Qed.
Lemma read_part n id : isId id -> getClusterIdFromFile (Some (firstn n (idBytes id))) = id \/ getClusterIdFromFile (Some (firstn n (idBytes id))) = 0.
Proof.
  intros H. destruct (Nat.leb_spec 8 n) as [L | L].
  - left. rewrite firstn_all2 by (unfold idBytes; rewrite leBytes_length; assumption). apply read_all, H.
  - right. unfold getClusterIdFromFile. rewrite firstn_firstn. rewrite firstn_length. unfold idBytes. rewrite leBytes_length.
    destruct (Nat.eqb_spec (Nat.min (Nat.min 8 n) 8) 8); [lia|reflexivity].
Qed.

(** A successful persist makes the id readable, whatever the file held before. *)
Theorem C55_persist_then_read : forall e id f f', isId id -> persistInFile e id f = (f', true) -> getClusterIdFromFile f' = id.
Proof.
  intros e id f f' H. unfold persistInFile, persistSteps. destruct (dirOk e); cbn [negb]; [|discriminate]. destruct (openOk e); cbn [negb]; [|discriminate].
  cbn [last]. destruct (Z.eqb_spec (wrote e) 8) as [E | E]; [|discriminate]. rewrite E. intros X. injection X as <-. cbn [Z.ltb]. exact (read_all id H).
Qed.
(** It succeeds exactly when the system does all that was asked. *)
Theorem C55_persist_succeeds : forall e id f, snd (persistInFile e id f) = true <-> dirOk e = true /\ openOk e = true /\ wrote e = 8.
Proof.
  intros e id f. unfold persistInFile, persistSteps. destruct (dirOk e), (openOk e); cbn; rewrite ?Z.eqb_eq; split; intros; try discriminate; try tauto; splits; try tauto; intuition discriminate.
Qed.
(** A crash at any point leaves a file that reads as the old id, the new id or as no id at all, never as
    anything else. *)
Theorem C55_crash_reads_old_new_or_none : forall e id f s, isId id -> In s (crashStates e id f) ->
  getClusterIdFromFile s = getClusterIdFromFile f \/ getClusterIdFromFile s = id \/ getClusterIdFromFile s = 0.
Proof.
  intros e id f s H Hin. unfold crashStates in Hin. apply in_app_or in Hin. destruct Hin as [Hin | Hin].
  - unfold persistSteps in Hin. destruct (dirOk e); cbn [negb] in Hin; [|destruct Hin as [<- | []]; auto].
    assert (F1 : forall g, g = match f with Some c => if unlinkOk e then None else Some c | None => None end -> getClusterIdFromFile g = getClusterIdFromFile f \/ getClusterIdFromFile g = 0).
    { intros g ->. destruct f as [c|]; [destruct (unlinkOk e)|]; auto. }
    destruct (openOk e); cbn [negb] in Hin; cbn [fst In] in Hin.
    + destruct Hin as [<- | [E | [<- | [<- | []]]]]; auto.
      * symmetry in E. destruct (F1 _ E); auto.
      * destruct (wrote e <? 0); [auto|]. destruct (read_part (Z.to_nat (wrote e)) id H) as [-> | ->]; auto.
    + destruct Hin as [<- | [E | []]]; auto. symmetry in E. destruct (F1 _ E); auto.
  - destruct (dirOk e && openOk e); [|destruct Hin]. apply in_map_iff in Hin. destruct Hin as (n & <- & _). destruct (read_part n id H) as [-> | ->]; auto.
Qed.
Example C55_ex : persistInFile (mkSys true true true 8) (-5) (Some (idBytes 7)) = (Some [251; 255; 255; 255; 255; 255; 255; 255], true) /\
  getClusterIdFromFile (Some [251; 255; 255; 255; 255; 255; 255; 255]) = -5.
Proof. split; vm_compute; reflexivity. Qed.

(** False as stated: the old file is removed before the new one is written, so that a crash in between leaves
    neither id, ... *)
Theorem C55_crash_loses_the_id_refuted : exists e id f s, isId id /\ getClusterIdFromFile f <> 0 /\ id <> 0 /\ In s (crashStates e id f) /\
  getClusterIdFromFile s <> getClusterIdFromFile f /\ getClusterIdFromFile s <> id.
Proof.
  exists (mkSys true true true 8), 2, (Some (idBytes 1)), None. splits; try (vm_compute; congruence).
  - unfold isId, int64_min, int64_max. lia.
  - vm_compute. auto.
Qed.
(** ... and so does a write that fails, for instance on a full disk. *)
Theorem C55_failed_write_loses_the_id_refuted : exists e id f, getClusterIdFromFile f = 1 /\ snd (persistInFile e id f) = false /\
  getClusterIdFromFile (fst (persistInFile e id f)) = 0.
Proof. exists (mkSys true true true (-1)), 2, (Some (idBytes 1)). splits; vm_compute; reflexivity. Qed.

Print Assumptions C55_persist_then_read.
Print Assumptions C55_persist_succeeds.
Print Assumptions C55_crash_reads_old_new_or_none.
Print Assumptions C55_crash_loses_the_id_refuted.
