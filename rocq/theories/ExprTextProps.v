(** Theorems about the text of expressions (C149-C151). *)
From Verif Require Import Prelude ValueBase DateModel TimeModel ValueModel ExprModel ExprSpec ExprProofs CloneModel CloneSpec CloneProofs
  WireModel WireSpec WireProofs WireProps ExprTextModel ExprTextSpec ExprTextProofs.
From Coq Require Import String List Bool Lia.
Import ListNotations.
Local Open Scope string_scope.
Local Open Scope list_scope.
Local Open Scope Z_scope.

Definition k_ (v : value) : expr := Node (KConst v) [].
Definition var_ (s : string) : expr := Node (KVar (B s) false) [].
Definition lab_ (s : string) : expr := Node (KLabel (B s)) [].

(** * C149: which trees print *)
Theorem C149_text_iff X e : (exists s, exprText X e = Ret s) <-> hasText e.
Proof. exact (text_defined X e). Qed.
Theorem C149_complete_trees_print X e : built e -> allNodes completeNode e -> exists s, exprText X e = Ret s.
Proof. intros H C. apply text_defined, complete_hasText; assumption. Qed.
(** Trees that make() builds and that cannot be printed: v.name with a label on the right, which the CHECK of toString lets pass; AND with nothing to
    combine; cond ? a without b; all(x IN l) without a filter. The first is taken for an object of another class, the others dereference
    what is not there. *)
Theorem C149_built_trees_print_refuted X :
  let attr := Node KAttr [var_ "v"; lab_ "name"] in
  let conj := Node (KLogical OAnd) [] in
  let cond := Node (KCase false false false) [var_ "c"; var_ "a"] in
  let pred := Node (KPredicate (B "all") (B "x") [] false) [var_ "l"] in
  (built attr /\ exprText X attr = UB) /\ (built conj /\ exprText X conj = UB) /\
  (built cond /\ exprText X cond = UB) /\ (built pred /\ exprText X pred = UB).
Proof. splits; try reflexivity; cbn; auto 10. Qed.
(** and some where a CHECK fails or a missing argument is printed *)
Theorem C149_other_trees_refuted X :
  exprText X (Node KAttr [var_ "v"; var_ "w"]) = Fatal /\ exprText X (Node (KAggregate (B "count") false) []) = UB.
Proof. split; reflexivity. Qed.
(** Containers without items lose their opening bracket *)
Theorem C149_empty_containers_refuted X :
  exprText X (Node KList []) = Ret (B "]") /\ exprText X (Node KSet []) = Ret (B "}") /\ exprText X (Node (KMap []) []) = Ret (B "}")
  /\ exprText X (Node KPathBuild []) = Ret (B "PathBuild]").
Proof. splits; reflexivity. Qed.
Definition exCase : expr :=
  Node (KCase true true true) [var_ "c"; k_ (VStr (B "no")); k_ (VInt 1); Node (KLogical OOr) [k_ (VBool true); Node (KAggregate (B "count") true) [k_ (VStr (B "*"))]]].
Example C149_example X : hasText exCase /\
  exprText X exCase = Ret (B "CASE $c WHEN 1 THEN (true OR count(distinct *)) ELSE ""no"" END") /\
  exprText X (Node (KRange false true) [Node KList [k_ (VInt (-3)); var_ "x"]; k_ (VInt 7)]) = Ret (B "[-3,$x][..7]").
Proof.
  assert (E : exprText X exCase = Ret (B "CASE $c WHEN 1 THEN (true OR count(distinct *)) ELSE ""no"" END")) by reflexivity.
  splits; [|exact E|reflexivity]. apply (text_defined X). eexists. exact E.
Qed.
Example C149_complete_example : built exCase /\ allNodes completeNode exCase.
Proof. cbn. splits; auto; try discriminate. exists [var_ "c"; k_ (VStr (B "no"))]. eexists. splits; [reflexivity|reflexivity|exact I]. Qed.

(** * C150: equal trees and copies print alike *)
Theorem C150_equal_print_alike X a b : built a -> built b -> exactConsts a -> exactConsts b -> noDistinct a -> noDistinct b ->
  exprEq X a b = Ret true -> exprText X a = exprText X b.
Proof.
  intros Ba Bb Ea Eb Na Nb Q. destruct (exprEq_spec X a b Ba Bb Ea Eb) as (r & R & I). rewrite Q in R. injection R as <-.
  rewrite <- (text_erase X a Na), <- (text_erase X b Nb). f_equal. now apply I.
Qed.
Theorem C150_copy_prints_alike X e : built e -> exists e', clone e = Ret e' /\ exprText X e' = exprText X e /\ rawText X e' = rawText X e.
Proof. intros H. exists e. rewrite clone_built by exact H. auto. Qed.
Theorem C150_decoded_prints_alike X e : wireable (wireValue X) e ->
  exists b e', encode (wireCodec X) e = Ret b /\ decode (wireCodec X) b = Ret (Some e') /\ exprText X e' = exprText X e /\ rawText X e' = rawText X e.
Proof. intros H. destruct (C30_roundtrip_on_the_wire X e H) as (b & E & D). exists b, e. auto. Qed.
(** count(distinct x) and count(x) are equal and print differently *)
Theorem C150_distinct_refuted X : let agg d := Node (KAggregate (B "count") d) [var_ "x"] in
  built (agg true) /\ built (agg false) /\ exactConsts (agg true) /\ exactConsts (agg false) /\ exprEq X (agg true) (agg false) = Ret true /\
  exprText X (agg true) = Ret (B "count(distinct $x)") /\ exprText X (agg false) = Ret (B "count($x)").
Proof. splits; try reflexivity; cbn; auto 12. Qed.
(** Equal trees may come from different original texts, which rawString returns *)
Theorem C150_raw_refuted X : let comp s := Node (KListComp (B "x") (B s) false false) [var_ "l"] in
  built (comp "[a IN $l]") /\ exactConsts (comp "[a IN $l]") /\ exprEq X (comp "[a IN $l]") (comp "[b IN $l]") = Ret true /\
  rawText X (comp "[a IN $l]") = Ret (B "[a IN $l]") /\ rawText X (comp "[b IN $l]") = Ret (B "[b IN $l]") /\
  exprText X (comp "[a IN $l]") = Ret (B "[x IN $l]") /\ exprText X (comp "[b IN $l]") = Ret (B "[x IN $l]").
Proof. splits; try reflexivity; cbn; auto 12. Qed.
(** The copy of a text search expression forgets fuzziness, operator, limit and timeout *)
Theorem C150_text_search_refuted : exists a,
  searchText 62 a = Ret (B "FUZZY(t.c, ""w"", 2, OR, 5, 7)") /\ searchText 62 (tsClone a) = Ret (B "FUZZY(t.c, ""w"", 100, 200)").
Proof. exists (mkTs (B "t") (B "c") (B "w") (B "or") 2 5 7). split; reflexivity. Qed.
Example C150_example X : let t o := Node (KPredicate (B "all") (B "x") (B o) true) [Node KList [k_ (VInt 1); k_ (VStr (B "s"))]; Node (KRel OGE) [Node (KVar (B "x") true) []; k_ (VInt 1)]] in
  built (t "p") /\ exactConsts (t "p") /\ noDistinct (t "p") /\ t "p" <> t "q" /\ exprEq X (t "p") (t "q") = Ret true /\
  exprText X (t "p") = Ret (B "all(x IN [1,""s""] WHERE ($x>=1))").
Proof.
  intros t. splits.
  1, 2, 3: vm_compute; repeat split.
  2, 3: reflexivity.
  intros E. apply (f_equal (fun e => match kindOf e with KPredicate _ _ o _ => o | _ => [] end)) in E. discriminate E.
Qed.

(** * C151: the text tells the tree *)
Theorem C151_plain_prints X e : plain e = true -> exists s, exprText X e = Ret s /\ s <> [].
Proof. intros P. exists (pt e). split; [now apply text_plain|]. destruct (pt_head e P) as (c & t & -> & _). discriminate. Qed.
Theorem C151_unambiguous X a b : plain a = true -> plain b = true -> exprText X a = exprText X b -> a = b.
Proof. intros Pa Pb E. rewrite (text_plain X a Pa), (text_plain X b Pb) in E. injection E as E. now apply pt_inj. Qed.
(** nor is the text of one, with another character that could not continue a name, the beginning of the text of another *)
Theorem C151_self_delimiting X a b s t rest : plain a = true -> plain b = true -> exprText X a = Ret s -> exprText X b = Ret t ->
  t = s ++ B ")" ++ rest \/ t = s ++ B "," ++ rest \/ t = s ++ B "]" ++ rest -> False.
Proof.
  intros Pa Pb Ea Eb H. rewrite (text_plain X a Pa) in Ea. rewrite (text_plain X b Pb) in Eb. injection Ea as <-. injection Eb as <-.
  assert (N : ends []) by ends_lit. destruct (reads_ends b [] (plain_reads b Pb) N) as [n1 N1]. rewrite app_nil_r in N1.
  assert (G : exists r, pt b = pt a ++ r /\ ends r /\ r <> []).
  { destruct H as [->|[->| ->]]; eexists; (split; [reflexivity|split; [|discriminate]]); [apply ends_close|apply ends_comma|apply ends_square]. }
  destruct G as (r & E & Er & NE). destruct (reads_ends a r (plain_reads a Pa) Er) as [n2 N2]. rewrite E in N1.
  specialize (N1 (n1 + n2)%nat ltac:(lia)). specialize (N2 (n1 + n2)%nat ltac:(lia)). congruence.
Qed.
(** Outside of that part, different trees have one text *)
Definition clash (a b : expr) (s : string) : Prop := a <> b /\ forall X, exprText X a = Ret (B s) /\ exprText X b = Ret (B s).
Theorem C151_cast_refuted : clash (Node (KCast 4) [Node (KUnary OIsNull) [var_ "x"]]) (Node (KUnary OIsNull) [Node (KCast 4) [var_ "x"]]) "(INT)$x IS NULL".
Proof. split; [discriminate|]. intros X; split; reflexivity. Qed.
Theorem C151_property_refuted : clash (Node (KProp PTag [] (B "t") (B "p")) []) (Node (KProp PEdge [] (B "t") (B "p")) []) "t.p".
Proof. split; [discriminate|]. intros X; split; reflexivity. Qed.
Theorem C151_attribute_refuted : clash (Node KAttr [var_ "v"; k_ (VStr (B "p"))]) (Node (KProp PVar (B "$") (B "v") (B "p")) []) "$v.p".
Proof. split; [discriminate|]. intros X; split; reflexivity. Qed.
Theorem C151_one_operand_refuted : clash (Node (KLogical OAnd) [var_ "x"]) (Node (KLogical OOr) [var_ "x"]) "($x)".
Proof. split; [discriminate|]. intros X; split; reflexivity. Qed.
Theorem C151_quotes_refuted : clash (Node (KCall (B "f")) [k_ (VStr (B "a"",""b"))]) (Node (KCall (B "f")) [k_ (VStr (B "a")); k_ (VStr (B "b"))]) "f(""a"",""b"")".
Proof. split; [discriminate|]. intros X; split; reflexivity. Qed.
Theorem C151_label_refuted : clash (lab_ "true") (k_ (VBool true)) "true".
Proof. split; [discriminate|]. intros X; split; reflexivity. Qed.
Theorem C151_aggregate_refuted : clash (Node (KAggregate (B "count") false) [var_ "x"]) (Node (KCall (B "count")) [var_ "x"]) "count($x)".
Proof. split; [discriminate|]. intros X; split; reflexivity. Qed.
Theorem C151_constant_list_refuted : clash (k_ (VList [VInt 1; VInt 2])) (Node KList [k_ (VInt 1); k_ (VInt 2)]) "[1,2]".
Proof. split; [discriminate|]. intros X; split; reflexivity. Qed.
Theorem C151_uuid_refuted : clash (Node (KUUID (B "f")) []) (Node (KCall (B "uuid")) [k_ (VStr (B "f"))]) "uuid(""f"")".
Proof. split; [discriminate|]. intros X; split; reflexivity. Qed.
Definition exPlain : expr :=
  Node (KRel OLT)
    [Node (KArith OMinus) [Node KSubscript [Node (KProp PSrc (B "$^") (B "person") (B "tags")) []; k_ (VInt (-1))]; Node (KUnary ONegate) [Node (KColumn 3) []]];
     Node (KCase false false true) [Node (KCall (B "abs")) [k_ (VInt 2); k_ (VStr (B "x,y"))]; Node (KUnary OIsNotNull) [Node (KVersioned (B "v") true) [k_ (VInt 0)]]; Node KList [k_ (VBool true)]]].
Example C151_example X : plain exPlain = true /\
  exprText X exPlain = Ret (B "(($^.person.tags[-1]--(COLUMN[3]))<($v{0} IS NOT NULL ? [true] : abs(2,""x,y"")))").
Proof. split; reflexivity. Qed.

Print Assumptions C149_text_iff.
Print Assumptions C149_complete_trees_print.
Print Assumptions C149_built_trees_print_refuted.
Print Assumptions C149_other_trees_refuted.
Print Assumptions C149_empty_containers_refuted.
Print Assumptions C150_equal_print_alike.
Print Assumptions C150_copy_prints_alike.
Print Assumptions C150_decoded_prints_alike.
Print Assumptions C150_distinct_refuted.
Print Assumptions C150_raw_refuted.
Print Assumptions C150_text_search_refuted.
Print Assumptions C151_plain_prints.
Print Assumptions C151_unambiguous.
Print Assumptions C151_self_delimiting.
Print Assumptions C151_cast_refuted.
Print Assumptions C151_property_refuted.
Print Assumptions C151_attribute_refuted.
Print Assumptions C151_one_operand_refuted.
Print Assumptions C151_quotes_refuted.
Print Assumptions C151_label_refuted.
Print Assumptions C151_aggregate_refuted.
Print Assumptions C151_constant_list_refuted.
Print Assumptions C151_uuid_refuted.
