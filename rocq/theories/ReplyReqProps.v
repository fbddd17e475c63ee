(** C96 for the parts of a plan: a node, a branch, a profile, a description or a plan without one of its required members is refused. *)
From Coq Require Import String List Permutation.
From Verif Require Import Prelude ValueBase FloatProofs DateModel TimeModel HashModel ValueModel ValueProofs GraphModel AssocModel WireModel WireSpec WireProofs WireSafe ValueProps WireProps.
From Verif Require Import ReplyModel ReplySpec ReplyProofs ReplySkip ReplySafe ReplyProps.
Import ListNotations.
Local Open Scope list_scope.
Local Open Scope Z_scope.

Lemma node_does f sk n : pnodeOk n -> (List.length (putNode n) <= f)%nat -> exists os, Forall2 (does (nodeTable f) sk) (nodeMembers n) os /\ chain 0 (nodeMembers n).
Proof.
  intros (P1 & P2 & P3 & P4 & P5 & P6 & P7) L. unfold putNode in *. destruct n as [nm i v d p b e]. cbn [ndName ndId ndVar ndDesc ndProfs ndBranch ndDeps] in *.
  set (l := nodeMembers _) in *. assert (C : chain 0 l) by (subst l; destruct d, p, b, e; chains).
  assert (SZ : forall id t x, In (id, t, x) l -> (List.length x < f)%nat) by (intros id t x H; pose proof (putMembers_In l 0 id t x ltac:(lia) C H); lia). subst l.
  assert (D1 : forall x r, d = Some x -> getList f tSTRUCT (getPair f) (putListOf tSTRUCT putKV x ++ r) = Got x r).
  { intros x r ->. destruct P4 as [Q1 Q2]. assert (Z0 : (List.length (putListOf tSTRUCT putKV x) < f)%nat) by (apply (SZ 4 tLIST); destruct p, b, e; inList).
    pose proof (putListOf_len tSTRUCT putKV x (fun _ _ => putMembers_len1 _ _)). apply getListOf_ok; [types|exact Q1|lia|].
    intros y q Hy. pose proof (putListOf_In tSTRUCT putKV x y Hy). apply getPair_ok; [apply Q2, Hy|lia]. }
  assert (D2 : forall x r, p = Some x -> getList f tSTRUCT (getProf f) (putListOf tSTRUCT putProf x ++ r) = Got x r).
  { intros x r ->. destruct P5 as [Q1 Q2]. assert (Z0 : (List.length (putListOf tSTRUCT putProf x) < f)%nat) by (apply (SZ 5 tLIST); destruct d, b, e; inList).
    pose proof (putListOf_len tSTRUCT putProf x (fun _ _ => putMembers_len1 _ _)). apply getListOf_ok; [types|exact Q1|lia|].
    intros y q Hy. pose proof (putListOf_In tSTRUCT putProf x y Hy). apply getProf_ok; [apply Q2, Hy|lia]. }
  assert (D3 : forall x r, b = Some x -> getBranch f (putBranch x ++ r) = Got x r).
  { intros x r ->. apply getBranch_ok; [exact P6|]. apply Nat.lt_le_incl. apply (SZ 6 tSTRUCT); destruct d, p, e; inList. }
  assert (D4 : forall x r, e = Some x -> getList f tI64 getI64 (putListOf tI64 putI64 x ++ r) = Got x r).
  { intros x r ->. destruct P7 as [Q1 Q2]. assert (Z0 : (List.length (putListOf tI64 putI64 x) < f)%nat) by (apply (SZ 7 tLIST); destruct d, p, b; inList).
    pose proof (putListOf_len tI64 putI64 x (fun _ _ => putI64_len _)). apply getListOf_ok; [types|exact Q1|lia|]. intros y q Hy. apply getI64_ok, Q2, Hy. }
  destruct d as [d|], p as [p|], b as [b|], e as [e|]; (eexists; split;
    [unfold nodeMembers; cbn [app optional ndName ndId ndVar ndDesc ndProfs ndBranch ndDeps]; reads ltac:(first [apply D1; reflexivity|apply D2; reflexivity|apply D3; reflexivity|apply D4; reflexivity])
     |exact C]).
Qed.
Lemma plan_does f sk p : planOk p -> (List.length (putPlan p) <= f)%nat -> exists os, Forall2 (does (planTable f) sk) (planMembers p) os /\ chain 0 (planMembers p).
Proof.
  intros ((P1 & P1') & P2 & P3 & P4) L. unfold putPlan in *. assert (C : chain 0 (planMembers p)) by chains.
  assert (SZ : forall id t x, In (id, t, x) (planMembers p) -> (List.length x < f)%nat) by (intros id t x H; pose proof (putMembers_In _ 0 id t x ltac:(lia) C H); lia).
  assert (Z1 : (List.length (putListOf tSTRUCT putNode (plNodes p)) < f)%nat) by (apply (SZ 1 tLIST); inList).
  assert (Z2 : (List.length (putMapOf tI64 tI64 putI64 putI64 (plIndex p)) < f)%nat) by (apply (SZ 2 tMAP); inList).
  pose proof (putListOf_len tSTRUCT putNode (plNodes p) (fun _ _ => putMembers_len1 _ _)). pose proof (putMapOf_len tI64 tI64 putI64 putI64 (plIndex p) putI64_len).
  assert (D1 : forall r, getList f tSTRUCT (getNode f) (putListOf tSTRUCT putNode (plNodes p) ++ r) = Got (plNodes p) r).
  { intros r. apply getListOf_ok; [types|exact P1|lia|]. intros y q Hy. pose proof (putListOf_In tSTRUCT putNode _ y Hy). apply getNode_ok; [apply P1', Hy|lia]. }
  assert (D2 : forall r, getMapOf f Z.eqb tI64 tI64 getI64 getI64 (putMapOf tI64 tI64 putI64 putI64 (plIndex p) ++ r) = Got (plIndex p) r).
  { intros r. apply (getMapOf_ok f Z.eqb tI64 tI64 _ _ _ _ int64 int64); [apply Z.eqb_eq|types|types|exact P2|lia|exact getI64_ok|exact getI64_ok]. }
  eexists. split; [unfold planMembers; reads ltac:(first [apply D1|apply D2])|exact C].
Qed.
Lemma prof_does f sk p : profOk p -> (List.length (putProf p) <= f)%nat -> exists os, Forall2 (does (profTable f) sk) (profMembers p) os /\ chain 0 (profMembers p).
Proof.
  intros (P1 & P2 & P3 & P4) L. unfold putProf in *. destruct p as [a b c o]. cbn [pfRows pfExec pfTotal pfOther] in *.
  destruct o as [m|]; (eexists; split; [unfold profMembers; cbn [app optional pfRows pfExec pfTotal pfOther]; repeat apply Forall2_cons; try apply Forall2_nil;
    (eapply into_does; [reflexivity|]); intros; first [apply getI64_ok; assumption|idtac]|chains]); try reflexivity.
  cbn [ifAny] in P4. apply (getMapOf_ok f strEqb tBIN tBIN _ _ _ _ strOk strOk); [apply strEqb_eq|types|types|exact P4| |exact getBin_ok|exact getBin_ok].
  assert (C : chain 0 (profMembers (mkProf a b c (Some m)))) by chains. pose proof (putMembers_In _ 0 4 tMAP _ ltac:(lia) C (or_intror (or_intror (or_intror (or_introl eq_refl))))) as Q.
  pose proof (putMapOf_len tBIN tBIN putBin putBin m putBin_len). lia.
Qed.

Section Required.
Variables (f : nat) (rest : str).
(** [sent id l]: what is sent when member id is missing *)
Let sent (id : Z) (l : list member) : str := putMembers 0 (without id l).
Theorem C96_node_required n id : pnodeOk n -> (List.length (putNode n) <= f)%nat -> (List.length (sent id (nodeMembers n)) <= f)%nat ->
  In id [1; 2; 3] -> getNode f (sent id (nodeMembers n) ++ rest) = Throw.
Proof. intros H L L' I. destruct (node_does f (skip f true) n H L) as (os & D & C). exact (getStruct_without _ _ f newNode _ os rest id D C L' I). Qed.
Theorem C96_plan_required p id : planOk p -> (List.length (putPlan p) <= f)%nat -> (List.length (sent id (planMembers p)) <= f)%nat ->
  In id [1; 2; 3; 4] -> getPlan f (sent id (planMembers p) ++ rest) = Throw.
Proof. intros H L L' I. destruct (plan_does f (skip f true) p H L) as (os & D & C). exact (getStruct_without _ _ f newPlan _ os rest id D C L' I). Qed.
Theorem C96_profile_required p id : profOk p -> (List.length (putProf p) <= f)%nat -> (List.length (sent id (profMembers p)) <= f)%nat ->
  In id [1; 2; 3] -> getProf f (sent id (profMembers p) ++ rest) = Throw.
Proof. intros H L L' I. destruct (prof_does f (skip f true) p H L) as (os & D & C). exact (getStruct_without _ _ f newProf _ os rest id D C L' I). Qed.
Theorem C96_branch_required b id : branchOk b -> (List.length (sent id (branchMembers b)) <= f)%nat ->
  In id [1; 2] -> getBranch f (sent id (branchMembers b) ++ rest) = Throw.
Proof.
  intros H L' I. destruct b as [[] n]; (eapply (getStruct_without _ _ f newBranch); [|chains; cbn; lia|exact L'|exact I]; unfold branchMembers; cbn [brDo brNode]; repeat apply Forall2_cons; try apply Forall2_nil;
    (eapply into_does; [reflexivity|]); intros; first [reflexivity|apply getI64_ok, H]).
Qed.
Theorem C96_pair_required p id : kvOk p -> (List.length (sent id (kvMembers p)) <= f)%nat ->
  In id [1; 2] -> getPair f (sent id (kvMembers p) ++ rest) = Throw.
Proof. intros [P1 P2] L' I. eapply (getStruct_without _ _ f newKV); [unfold kvMembers; reads idtac|chains|exact L'|exact I]. Qed.
End Required.
(** whole responses with the plan of C95_example in which one node lacks its name, its id or its variable *)
Definition brokenExec (id : Z) : str :=
  putMembers 0 [(1, tI32, putI32 0); (2, tI32, putI32 5);
    (6, tSTRUCT, putMembers 0 [(1, tLIST, putListOf tSTRUCT (fun x : str => x) [putNode (exNode 1 "v1"); putMembers 0 (without id (nodeMembers (exNode 2 "v2")))]);
       (2, tMAP, putMapOf tI64 tI64 putI64 putI64 [(1, 0); (2, 1)]); (3, tBIN, putBin (B "dot"%string)); (4, tI32, putI32 77)])].
Example C96_node_required_ex : (forall id, In id [1; 2; 3] -> readExec X0 newExec (brokenExec id) = Throw) /\
  (forall id, In id [0; 4; 5; 6; 7] -> exists e, readExec X0 newExec (brokenExec id) = Got e []).
Proof.
  split; [intros id [<- | [<- | [<- | []]]]; vm_compute; reflexivity|]. intros id [<- | [<- | [<- | [<- | [<- | []]]]]]; eexists; vm_compute; reflexivity.
Qed.
Print Assumptions C96_node_required. Print Assumptions C96_plan_required. Print Assumptions C96_profile_required. Print Assumptions C96_branch_required. Print Assumptions C96_pair_required.
