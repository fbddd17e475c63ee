(** C30: expressions on the wire. *)
From Verif Require Import ValueBase DateModel TimeModel ValueModel ExprModel ExprSpec ExprProofs.
From Coq Require Import Lia String.
Local Open Scope list_scope.
Local Open Scope Z_scope.

(** The encoding of a tree decodes to the tree, for every serializer that gives back the Booleans and the constants of the tree *)
Theorem C30_roundtrip VC V e :
  codecFor VC V -> (forall b, V (VBool b)) -> wireable V e ->
  exists b, encode VC e = Ret b /\ decode VC b = Ret (Some e).
Proof.
  intros HC Hb He. destruct (encode_wire VC V HC Hb e He) as [b (E & L & R)]. exists b. split; [exact E|].
  unfold decode. destruct b as [|x b]; [cbn in L; lia|].
  specialize (R (S (List.length (x :: b))) [] ltac:(lia)). rewrite app_nil_r in R. rewrite R. reflexivity.
Qed.

(** Reading takes exactly the bytes of the tree, so trees can follow one another *)
Theorem C30_consumes_exactly VC V e rest fuel :
  codecFor VC V -> (forall b, V (VBool b)) -> wireable V e ->
  exists b, encode VC e = Ret b /\ ((List.length b < fuel)%nat -> readExpr VC fuel (b ++ rest) = Ret (e, rest)).
Proof.
  intros HC Hb He. destruct (encode_wire VC V HC Hb e He) as [b (E & L & R)]. exists b. split; [exact E|].
  intros Hf. apply R. exact Hf.
Qed.

(** Different trees have different encodings, and neither is the beginning of the other *)
Theorem C30_prefix_free VC V e1 e2 b1 b2 rest :
  codecFor VC V -> (forall b, V (VBool b)) -> wireable V e1 -> wireable V e2 ->
  encode VC e1 = Ret b1 -> encode VC e2 = Ret b2 -> b2 = b1 ++ rest -> e1 = e2 /\ rest = [].
Proof.
  intros HC Hb H1 H2 E1 E2 Eb.
  destruct (encode_wire VC V HC Hb e1 H1) as [c1 (F1 & _ & R1)]. destruct (encode_wire VC V HC Hb e2 H2) as [c2 (F2 & _ & R2)].
  rewrite E1 in F1. apply Ret_inj in F1. rewrite E2 in F2. apply Ret_inj in F2. subst c1 c2.
  specialize (R1 (S (List.length b2)) rest). specialize (R2 (S (List.length b2)) []).
  assert (L : (List.length b1 <= List.length b2)%nat) by (rewrite Eb, app_length; lia).
  specialize (R1 ltac:(lia)). specialize (R2 ltac:(lia)). rewrite app_nil_r, Eb in R2. rewrite Eb in R1. rewrite R1 in R2.
  apply Ret_inj in R2. split; congruence.
Qed.

(** The two property kinds the decoder refuses although they are written without complaint *)
Theorem C30_input_property_refuted VC p ref sym pr : p = PInput \/ p = PVar ->
  exists b, encode VC (Node (KProp p ref sym pr) []) = Ret b /\ decode VC b = Fatal.
Proof. intros [-> | ->]; eexists; split; reflexivity. Qed.

(** An aggregate without argument is written but cannot be read back: its bytes end where the decoder looks for the argument *)
Theorem C30_aggregate_without_argument_refuted VC V name d :
  codecFor VC V -> (forall b, V (VBool b)) -> short name ->
  exists b, encode VC (Node (KAggregate name d) []) = Ret b /\ decode VC b = Fatal.
Proof.
  intros HC Hb Hs. eexists. split; [reflexivity|]. cbn [decode kindNo].
  set (bytes := encStr name ++ encBool VC d ++ @List.concat Z []).
  cbn [readExpr]. unfold dbind at 1. cbn [readKind]. change (63 mod 256) with 63. cbn [decBody].
  unfold bytes. erewrite dbind_ret by (apply readStr_enc; exact Hs).
  erewrite dbind_ret by (apply (readBool_enc VC V HC Hb)).
  cbn [List.concat]. rewrite app_nil_r. cbn [List.length]. reflexivity.
Qed.

(** * A concrete case: Booleans and integers, and a CASE over a list comprehension *)
Definition sampleCodec : vcodec :=
  mkCodec (fun v => match v with VBool b => [1; if b then 1 else 0] | VInt z => 2 :: leBytes 8 (u64 z) | _ => [0] end)
          (fun b => match b with
                    | 1 :: x :: r => Some (VBool (negb (x =? 0)), r)
                    | 2 :: r => if (List.length r <? 8)%nat then None else Some (VInt (wrap64 (leVal (firstn 8 r))), skipn 8 r)
                    | _ => None
                    end).
Definition sampleVal (v : value) : Prop := match v with VBool _ => True | VInt z => int64_min <= z <= int64_max | _ => False end.
Example sampleCodec_ok : codecFor sampleCodec sampleVal /\ forall b, sampleVal (VBool b).
Proof.
  split; [|intros; exact I]. intros v rest Hv. destruct v; try (exfalso; exact Hv).
  - destruct b; reflexivity.
  - cbn [sampleVal] in Hv. cbn [venc vdec sampleCodec app]. destruct (split_at 8 (leBytes 8 (u64 z)) rest (leBytes_length 8 _)) as [E1 E2].
    destruct (Nat.ltb_spec (List.length (leBytes 8 (u64 z) ++ rest)) 8) as [C|_]; [rewrite app_length, leBytes_length in C; lia|].
    rewrite E1, E2, leVal_leBytes.
    2:{ change (256 ^ Z.of_nat 8) with two64. unfold u64. apply Z.mod_pos_bound. reflexivity. }
    do 3 f_equal. unfold wrap64, u64, two64, int64_min, int64_max in *.
    change (2 ^ 64) with 18446744073709551616 in *. change (2 ^ 63) with 9223372036854775808 in *.
    rewrite Zplus_mod_idemp_l, Z.mod_small by lia. lia.
Qed.
Definition c (z : Z) : expr := Node (KConst (VInt z)) [].
Definition sampleTree : expr :=
  Node (KCase true false true)
       [c 7;
        Node (KRel OGT) [Node (KVar (B "x"%string) true) []; c (-3)];
        Node (KListComp (B "x"%string) [] true false) [Node KList [c 1; c 2]; Node (KMap [B "k"%string]) [Node KVertex []]];
        Node (KPredicate (B "all"%string) (B "x"%string) (B "o"%string) false) [Node (KProp PTag [] (B "t"%string) (B "p"%string)) []];
        Node (KRange false true) [Node (KReduce (B "a"%string) (B "x"%string) []) [c 0; Node (KCall (B "range"%string)) [c 1; c 9]; c 5]; c 4]].
Example sampleTree_wire : wireable sampleVal sampleTree /\
  match encode sampleCodec sampleTree with Ret b => decode sampleCodec b = Ret (Some sampleTree) | _ => False end.
Proof.
  split.
  - cbn. unfold short, int64_min, int64_max. cbn. splits; try exact I; try lia; try discriminate; try (repeat constructor; cbn; lia).
    exists 2%nat. reflexivity.
  - vm_compute. reflexivity.
Qed.

Print Assumptions C30_roundtrip.
Print Assumptions C30_consumes_exactly.
Print Assumptions C30_prefix_free.
Print Assumptions C30_input_property_refuted.
Print Assumptions C30_aggregate_without_argument_refuted.
