(** Property C91 through the index manager. *)
From Coq Require Import String List Permutation.
From Verif Require Import Prelude Trans ValueBase AssocModel SchemaLoadProps LeaderModel DiffModel SchemaModel MetaCacheModel MetaCacheProofs MetaCacheProps MetaIndexProps IndexManagerModel.
Import ListNotations.
Open Scope Z_scope.

(** After any loads of which the last succeeded, the id given for a name is that of a listed index of this name; with it the manager finds
    this index again and counts it as indexed, among tags and among edges. *)
Theorem C91_manager : forall local l c a r nameT nameE, Forall (idsKeepNames anTagIdx nameT) (l ++ [a]) -> Forall (idsKeepNames anEdgeIdx nameE) (l ++ [a]) -> tidy a ->
  loads local freshClient l = Ret c -> loadData local c a = Ret r -> ldOk r = true -> let m := ldClient r in forall s n id,
  (imTagIndexID m s n = Some id <-> exists it, hasIndex anTagIdx a s it /\ ixName it = n /\ ixId it = id) /\
  (imTagIndexID m s n = Some id -> imTagIndexed m s id = true /\ exists it, imTagIndex m s id = Some it /\ ixName it = n) /\
  (imEdgeIndexID m s n = Some id <-> exists it, hasIndex anEdgeIdx a s it /\ ixName it = n /\ ixId it = id) /\
  (imEdgeIndexID m s n = Some id -> imEdgeIndexed m s id = true /\ exists it, imEdgeIndex m s id = Some it /\ ixName it = n).
Proof.
  intros local l c a r nameT nameE FT FE T Hl H O m s n id. subst m. destruct (C89_indexes_by_id local c a r T H O) as (I1 & I2 & I3 & I4).
  pose proof (fun it => C91_tag_index_by_name local l c a r nameT FT T Hl H O s n it) as NT. pose proof (fun it => C91_edge_index_by_name local l c a r nameE FE T Hl H O s n it) as NE.
  assert (ET : imTagIndexID (ldClient r) s n = Some id <-> exists it, hasIndex anTagIdx a s it /\ ixName it = n /\ ixId it = id).
  { unfold imTagIndexID. split.
    - destruct (tagIndexByName (ldClient r) s n) as [it|]; [|discriminate]. intros [= <-]. destruct (proj1 (NT it) eq_refl). exists it. auto.
    - intros (it & A & B & <-). rewrite (proj2 (NT it)); auto. }
  assert (EE : imEdgeIndexID (ldClient r) s n = Some id <-> exists it, hasIndex anEdgeIdx a s it /\ ixName it = n /\ ixId it = id).
  { unfold imEdgeIndexID. split.
    - destruct (edgeIndexByName (ldClient r) s n) as [it|]; [|discriminate]. intros [= <-]. destruct (proj1 (NE it) eq_refl). exists it. auto.
    - intros (it & A & B & <-). rewrite (proj2 (NE it)); auto. }
  split; [exact ET|]. split; [|split; [exact EE|]]; intros X; [apply ET in X|apply EE in X]; destruct X as (it & A & B & D); (split; [apply I3 || apply I4; exists it; auto|exists it; split; [apply I1 || apply I2; auto|exact B]]).
Qed.
Lemma addIdx_all l : forall m, NoDup (map ixId l) -> (forall it, In it l -> aget Z.eqb (ixId it) m = None) -> Permutation (map snd (fold_left addIdx l m)) (map snd m ++ l).
Proof.
  induction l as [|it l IH]; intros m N F; cbn [fold_left]; [rewrite app_nil_r; apply Permutation_refl|]. inversion N as [|? ? N1 N2]; subst.
  assert (E : addIdx m it = aadd Z.eqb (ixId it) it m) by reflexivity.
  eapply perm_trans; [apply IH; [exact N2|]|].
  - intros it' Hi. unfold addIdx. rewrite (aget_aadd Z.eqb Zeqb_ok). rewrite (F it' (or_intror Hi)), (F it (or_introl eq_refl)).
    destruct (ixId it' =? ixId it) eqn:Q; [|reflexivity]. apply Z.eqb_eq in Q. destruct N1. rewrite <- Q. apply in_map, Hi.
  - unfold addIdx, aadd. rewrite (F it (or_introl eq_refl)).
    match goal with |- Permutation (map snd ?x ++ _) _ => assert (P : Permutation (map snd x) (it :: map snd m)) end.
    { cbn. try apply Permutation_refl. rewrite map_app. apply Permutation_sym. apply Permutation_cons_append. }
    eapply perm_trans; [apply Permutation_app_tail, P|]. cbn [app]. apply Permutation_middle.
Qed.
(** The indexes given for a space are those listed, each once; for other spaces there is none. *)
Theorem C91_manager_lists : forall local c a r, tidy a -> loadData local c a = Ret r -> ldOk r = true -> let m := ldClient r in forall s,
  (forall n, hasSpace a s n -> exists ts es ts' es', anTagIdx a s = Some ts /\ anEdgeIdx a s = Some es /\
     imTagIndexes m s = Some ts' /\ imEdgeIndexes m s = Some es' /\ Permutation ts' ts /\ Permutation es' es) /\
  ((forall n, ~ hasSpace a s n) -> imTagIndexes m s = None /\ imEdgeIndexes m s = None).
Proof.
  intros local c a r T H O m s. subst m. destruct (load_spaces local c a r T H O) as (S1 & S2 & _ & R). unfold imTagIndexes, imEdgeIndexes, indexesOf. rewrite R. split.
  - intros n Hs. destruct (S1 s n Hs) as (e & -> & (alloc & terms & ti & ei & ls & d & _ & Ht & He & _ & _ & ->)). cbn [enTagIdx enEdgeIdx].
    destruct T as (_ & _ & _ & T1 & T2). exists ti, ei. do 2 eexists. splits; [exact Ht|exact He|reflexivity|reflexivity| |].
    + apply (addIdx_all ti []); [apply (T1 s ti Ht)|reflexivity].
    + apply (addIdx_all ei []); [apply (T2 s ei He)|reflexivity].
  - intros N. destruct (aget Z.eqb s (clCache (ldClient r))) as [e|] eqn:E; [|auto]. destruct (S2 s e E) as (n & Hs & _). destruct (N n Hs).
Qed.
Example C91_manager_ex : exists c r, loads None freshClient [ix1; ix2] = Ret c /\ loadData None c (exA [] (Some [(1, B "s")]) [exIdx 6 "i"] (Some []) (Some [])) = Ret r /\
  imTagIndexID (ldClient r) 1 (B "i") = Some 6 /\ imTagIndexed (ldClient r) 1 6 = true /\ imTagIndexes (ldClient r) 1 = Some [exIdx 6 "i"] /\ imEdgeIndexID (ldClient r) 1 (B "i") = None.
Proof. do 2 eexists. split; [vm_compute; reflexivity|]. split; [vm_compute; reflexivity|]. splits; vm_compute; reflexivity. Qed.
Print Assumptions C91_manager. Print Assumptions C91_manager_lists.
