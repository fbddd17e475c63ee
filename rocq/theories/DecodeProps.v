(** Theorems about decoding expressions from any bytes (C81). *)
From Verif Require Import Prelude ValueBase DateModel TimeModel ValueModel ExprModel ExprSpec ExprProofs WireModel WireProofs WireProps DecodeProofs CloneModel ExprProps ValueProps.
From Coq Require Import Lia.
Local Open Scope list_scope.
Local Open Scope Z_scope.

Lemma wireCodec_reads X : codecReads (wireCodec X).
Proof.
  intros b v r H. cbn [vdec wireCodec] in *. destruct (readWire X b) as [w q| | | | |] eqn:E; try discriminate H. injection H as -> ->. split.
  - destruct (C77_reads_from_the_front X b v r E) as (p & Ep & _). exists p. exact Ep.
  - intros t. rewrite (C77_what_follows_is_ignored X b t v r E). reflexivity.
Qed.
Lemma decode_rd X t b : match readExpr (wireCodec X) (S (List.length b)) b with
  | Ret (e, r) => readExpr (wireCodec X) (S (List.length (b ++ t))) (b ++ t) = Ret (e, r ++ t) /\ whole e
  | Diverge => False | _ => True end.
Proof.
  pose proof (rd_expr (wireCodec X) (wireCodec_reads X) t (S (List.length b)) (S (List.length (b ++ t))) ltac:(rewrite app_length; lia) b ltac:(lia)) as H.
  destruct (readExpr (wireCodec X) (S (List.length b)) b) as [[e r]| | |]; auto. destruct H as (_ & H & W). auto.
Qed.

(** Decoding any bytes ends: in a tree, in a failed check or in a read outside the bytes *)
Theorem C81_decoding_ends X b : decode (wireCodec X) b <> Diverge.
Proof.
  unfold decode. destruct b as [|x b]; [discriminate|]. pose proof (decode_rd X [] (x :: b)) as H.
  destruct (readExpr _ _ _) as [[e r]| | |]; try discriminate. contradiction.
Qed.
(** A decoded tree has all the sub-expressions its nodes need, whatever the bytes *)
Theorem C81_decoded_is_whole X b e : decode (wireCodec X) b = Ret (Some e) -> whole e.
Proof.
  unfold decode. destruct b as [|x b]; [discriminate|]. pose proof (decode_rd X [] (x :: b)) as H.
  destruct (readExpr _ _ _) as [[e' r]| | |]; try discriminate. intros E. apply Ret_inj in E. injection E as <-. apply H.
Qed.
(** in particular it can be copied *)
Theorem C81_decoded_can_be_copied X b e : decode (wireCodec X) b = Ret (Some e) -> exists e', clone e = Ret e'.
Proof.
  intros H. apply C81_decoded_is_whole in H. revert H. induction e as [k cs IH] using expr_ind'. intros [Hk Hc]. apply fold_and_Forall in Hc.
  assert (exists ds, obindList (map clone cs) = Ret ds /\ List.length ds = List.length cs) as (ds & E & L).
  { clear Hk. induction IH as [|c cs Hx _ IHl]; [exists []; split; reflexivity|]. inversion Hc; subst. destruct (Hx H1) as [d Ed]. destruct (IHl H2) as (ds & Eds & L).
    exists (d :: ds). cbn [map obindList]. rewrite Ed. cbn [obind]. rewrite Eds. cbn. split; [reflexivity|lia]. }
  cbn [clone]. rewrite E. cbn [obind]. destruct k; cbn [wholeNode] in Hk; cbn [cloneNode]; try contradiction; try (eexists; reflexivity).
  rewrite Hk in L. destruct ds as [|d [|? ?]]; try discriminate L. eexists. reflexivity.
Qed.
(** Bytes after the expression are ignored *)
Theorem C81_what_follows_is_ignored X b t e : decode (wireCodec X) b = Ret (Some e) -> decode (wireCodec X) (b ++ t) = Ret (Some e).
Proof.
  unfold decode. destruct b as [|x b]; [discriminate|]. pose proof (decode_rd X t (x :: b)) as H. cbn [app] in *.
  destruct (readExpr _ _ (x :: b)) as [[e' r]| | |]; try discriminate. intros E. apply Ret_inj in E. injection E as <-. destruct H as [-> _]. reflexivity.
Qed.
(** A cut encoding never decodes to a tree *)
Theorem C81_cut_is_refused X e p q : wireable (wireValue X) e -> encode (wireCodec X) e = Ret (p ++ q) -> p <> [] -> q <> [] ->
  decode (wireCodec X) p = Fatal \/ decode (wireCodec X) p = UB.
Proof.
  intros W E P Q. destruct (encode_wire (wireCodec X) (wireValue X) (wireCodec_ok X) (wireBool X) e W) as (b & E' & _ & R).
  rewrite E in E'. apply Ret_inj in E'. subst b. specialize (R (S (List.length (p ++ q))) [] ltac:(lia)). rewrite app_nil_r in R.
  pose proof (decode_rd X q p) as H. unfold decode. destruct p as [|x p]; [contradiction|].
  destruct (readExpr _ _ (x :: p)) as [[e' r]| | |]; auto; [|contradiction].
  destruct H as [H _]. rewrite R in H. apply Ret_inj in H. injection H as _ H. symmetry in H. apply app_eq_nil in H. destruct H as [_ H]. contradiction.
Qed.
(** It is not always refused by a check: the decoder reads a size without looking whether there are eight bytes left.  A list
    cut after its first byte, and a label whose size is 2^63 *)
Theorem C81_in_bounds_refuted X : encode (wireCodec X) (Node KList []) = Ret ([50] ++ repeat 0 8) /\ decode (wireCodec X) [50] = UB
  /\ decode (wireCodec X) [53; 0; 0; 0; 0; 0; 0; 0; 128] = UB.
Proof. splits; vm_compute; reflexivity. Qed.

Definition exTree : expr := Node (KRel OEQ) [Node (KLabel [97]) []; Node KList [Node (KConst (VInt 5)) []; Node (KConst (VBool true)) []]].
Example C81_example : match encode (wireCodec X0) exTree with
  | Ret b => List.length b = 27%nat /\ decode (wireCodec X0) (b ++ [1; 2; 3]) = Ret (Some exTree)
      /\ decode (wireCodec X0) (firstn 5 b) = Fatal /\ decode (wireCodec X0) (firstn 15 b) = UB /\ decode (wireCodec X0) (firstn 26 b) = Fatal
  | _ => False end.
Proof. vm_compute. splits; reflexivity. Qed.

Print Assumptions C81_decoding_ends.
Print Assumptions C81_decoded_is_whole.
Print Assumptions C81_decoded_can_be_copied.
Print Assumptions C81_what_follows_is_ignored.
Print Assumptions C81_cut_is_refused.
