(** The memory behind Value: properties C146 to C148. *)
From Verif Require Import Prelude CastModel UnionModel UnionSpec UnionProofs UnionOps.
Open Scope Z_scope.

(** * C146 Values are independent of each other *)
(** whatever a program of constructions, copies, moves, swaps, takes and sets does with Values, of which no two used together are inside one another, it ends without
    undefined behaviour, and every Value is then seen to be what it is if all were copied as a whole *)
Theorem C146_values_are_values k os T : doesAll (vars (repeat empty_ k)) os T ->
  exists N m, (forall n, (N <= n)%nat -> execAll n (fresh k) os = Ret m) /\ forall a t, a <> [] -> subtree T a = Some t -> exists N', forall n, (N' <= n)%nat -> lookAt n m a = Ret t.
Proof.
  intros D. destruct (doesAll_keeps _ _ _ D (fresh k) (fresh_holds k)) as (N & m & E & H). exists N, m. split; [exact E|]. intros a t Na S. apply (holds_look m T a t H S Na).
Qed.
(** in any state a program can be in, one operation does to the trees what it should *)
Theorem C146_step m T o T' : holds m T -> does T o T' -> exists N m', (forall n, (N <= n)%nat -> exec n m o = Ret m') /\ holds m' T'.
Proof. intros H D. apply keeps_one, (does_keeps m T o T' H D). Qed.
(** other variables are not touched *)
Theorem C146_others m T o T' a b t : holds m T -> (o = OCopy a b \/ o = OMove a b \/ o = OSwap a b \/ exists u, o = OMake a u) -> does T o T' -> forall c, c <> [] -> apart a c -> apart b c -> subtree T c = Some t ->
  exists N m', (forall n, (N <= n)%nat -> exec n m o = Ret m') /\ exists N', forall n, (N' <= n)%nat -> lookAt n m' c = Ret t.
Proof.
  intros H Ho D c Nc Aa Ab S. destruct (C146_step m T o T' H D) as (N & m' & E & H'). exists N, m'. split; [exact E|]. apply (holds_look m' T' c t H'); [|exact Nc].
  destruct Ho as [->|[->|[->|[u ->]]]]; inversion D; subst; repeat (apply subtree_apart; [assumption|]); assumption.
Qed.
(** what is at a place after a program *)
Definition seen (n k : nat) (os : list op) (a : list nat) : outcome tree := let* m := execAll n (fresh k) os in lookAt n m a.
Definition s1 (z : list Z) : tree := Node tString z [].
Example C146_example : (* a = ["x", 1]; b = a; c = std::move(a); c.list[0] = b.list[1]; swap(b, c) *)
  let prog := [OMake [0%nat] (Node tList [] [s1 [120]; Node tInt [1] []]); OCopy [1%nat] [0%nat]; OMove [2%nat] [0%nat]; OCopy [2; 0]%nat [1; 1]%nat; OSwap [1%nat] [2%nat]] in
  let T := vars [empty_; Node tList [] [Node tInt [1] []; Node tInt [1] []]; Node tList [] [s1 [120]; Node tInt [1] []]] in
  doesAll (vars (repeat empty_ 3)) prog T /\ seen 9 3 prog [0%nat] = Ret empty_ /\ seen 9 3 prog [1; 0]%nat = Ret (Node tInt [1] []) /\ seen 9 3 prog [2; 0]%nat = Ret (s1 [120]).
Proof.
  cbv zeta. split.
  - assert (Ap : forall i j, i <> j -> apart [i] [j]) by (intros i j N; apply apart_cons; auto).
    eapply DCons; [apply (DMake _ [0%nat] _ empty_); [reflexivity|discriminate|]|].
    { apply VP; [reflexivity|]. apply Forall_cons; [apply VP; [reflexivity|constructor]|]. apply Forall_cons; [apply VS; reflexivity|constructor]. }
    eapply DCons; [apply (DCopy _ [1%nat] [0%nat]) with (s := empty_); [reflexivity|reflexivity|discriminate|discriminate|apply Ap; discriminate]|].
    eapply DCons; [eapply (DMove _ [2%nat] [0%nat]); [reflexivity|reflexivity|discriminate|discriminate|apply Ap; discriminate]|].
    eapply DCons; [eapply (DCopy _ [2; 0]%nat [1; 1]%nat); [reflexivity|reflexivity|discriminate|discriminate|apply apart_cons; left; discriminate]|].
    eapply DCons; [eapply (DSwap _ [1%nat] [2%nat]); [reflexivity|reflexivity|discriminate|discriminate|apply Ap; discriminate]|]. apply DNil.
  - splits; vm_compute; reflexivity.
Qed.

(** * C147 No block of memory is lost, and none is shared *)
(** the blocks in memory are as many as the strings and containers in the variables (and one for the variables) *)
Theorem C147_memory_used k os T : doesAll (vars (repeat empty_ k)) os T ->
  exists N m l, (forall n, (N <= n)%nat -> execAll n (fresh k) os = Ret m) /\ NoDup l /\ (forall q, heap m q <> None <-> In q l) /\ List.length l = blocks T.
Proof.
  intros D. destruct (doesAll_keeps _ _ _ D (fresh k) (fresh_holds k)) as (N & m & E & P & R & Dom & _). destruct (proj1 (count_both (heap m)) _ _ _ R) as (l & ND & Hl & Ll).
  exists N, m, l. splits; auto. intros q. rewrite Dom, Hl. reflexivity.
Qed.
(** once all variables are cleared, nothing is left *)
Theorem C147_no_leak k os : doesAll (vars (repeat empty_ k)) os (vars (repeat empty_ k)) -> exists N m, (forall n, (N <= n)%nat -> execAll n (fresh k) os = Ret m) /\ forall q, q <> 0 -> heap m q = None.
Proof.
  intros D. destruct (doesAll_keeps _ _ _ D (fresh k) (fresh_holds k)) as (N & m & E & P & R & Dom & _). exists N, m. split; [exact E|]. intros q Nq.
  apply rep_ptr in R as [_ R]. destruct R as (cs & Q & _ & Hp & EQ & Np & Rs); [discriminate|].
  assert (NQ : forall q, ~ Q q).
  { clear -Rs. revert cs Q Rs. induction k as [|k IH]; intros cs Q Rs q Hq; inversion Rs as [P0 N0|c cs' t ts P0 P1 P2 E D R1 R2]; subst; [eapply N0; eauto|]. destruct (proj1 (E q) Hq) as [Hq1|Hq1].
    - destruct (rep_empty _ _ _ R1) as [_ X]. exact (X q Hq1).
    - exact (IH _ _ R2 q Hq1). }
  destruct (heap m q) eqn:Eq; [|reflexivity]. assert (Y : P q) by (apply Dom; congruence). apply EQ in Y as [Y|Y]; [contradiction|destruct (NQ q Y)].
Qed.
(** two Values that are not inside one another share no block *)
Theorem C147_not_shared m T a b s t : holds m T -> subtree T a = Some s -> subtree T b = Some t -> a <> [] -> b <> [] -> apart a b ->
  exists ca cb P Q, (let* x := at_ m a in readA m x) = Ret ca /\ (let* y := at_ m b in readA m y) = Ret cb /\ rep (heap m) ca s P /\ rep (heap m) cb t Q /\ forall q, P q -> Q q -> False.
Proof.
  intros H Sa Sb Na Nb A. destruct (pair m T a b s t H Sa Sb Na Nb A) as (x & y & ca & cb & R & P & Q & Aa & Ab_ & Ra & Rb & _ & _ & _ & Rp & Rq & _ & _ & D3 & _).
  exists ca, cb, P, Q. rewrite Aa, Ab_. cbn [obind]. splits; auto.
Qed.
Example C147_example : (* a = ["x"]; b = a; a.clear(); b.clear() *)
  let prog := [OMake [0%nat] (Node tList [] [s1 [120]]); OCopy [1%nat] [0%nat]; OClear [0%nat]; OClear [1%nat]] in
  doesAll (vars (repeat empty_ 2)) prog (vars (repeat empty_ 2)) /\ blocks (vars [Node tList [] [s1 [120]]; Node tList [] [s1 [120]]]) = 5%nat.
Proof.
  cbv zeta. split; [|reflexivity].
  eapply DCons; [apply (DMake _ [0%nat] _ empty_); [reflexivity|discriminate|]|].
  { apply VP; [reflexivity|]. apply Forall_cons; [apply VP; [reflexivity|constructor]|constructor]. }
  eapply DCons; [eapply (DCopy _ [1%nat] [0%nat]); [reflexivity|reflexivity|discriminate|discriminate|apply apart_cons; left; discriminate]|].
  eapply DCons; [eapply (DClear _ [0%nat]); [reflexivity|discriminate]|]. eapply DCons; [eapply (DClear _ [1%nat]); [reflexivity|discriminate]|]. apply DNil.
Qed.

(** * C148 A Value and a part of it *)
(** taking the part out first is safe *)
Theorem C148_taken_out m T a c s t : holds m T -> subtree T a = Some s -> subtree s c = Some t -> a <> [] -> c <> [] -> tagOf t <> tEmpty ->
  exists N m', (forall n, (N <= n)%nat -> exec n m (OTake a (a ++ c) (tagOf t)) = Ret m') /\ holds m' (replace T a t).
Proof. intros H Sa Sc Na Nc Nt. apply (C146_step m T _ _ H). eapply DTakeIn; eauto. Qed.
(** assigning a Value to itself does nothing *)
Theorem C148_itself m T a s : holds m T -> subtree T a = Some s -> a <> [] -> exists N m', (forall n, (N <= n)%nat -> exec n m (OCopy a a) = Ret m' /\ exec n m (OMove a a) = Ret m') /\ holds m' T.
Proof.
  intros H S Na. destruct (single m T a s H S Na) as (x & c & R & P & A & _). exists O, m. split; [|exact H]. intros n _. cbn [exec]. rewrite A. cbn [obind]. unfold assignCopy, assignMove. rewrite sameAddr_yes. auto.
Qed.
(** but v = v.getList()[0], v = std::move(v.mutableList()[0]) and v.setXxx(part) read the part after it is destroyed, whatever they are *)
Theorem C148_part_to_whole_refuted m T a c s t : holds m T -> subtree T a = Some s -> subtree s c = Some t -> a <> [] -> c <> [] ->
  exists N, forall n, (N <= n)%nat -> exec n m (OCopy a (a ++ c)) = UB /\ exec n m (OMove a (a ++ c)) = UB /\ (tagOf t <> tEmpty -> exec n m (OSet a (a ++ c) (tagOf t)) = UB).
Proof.
  intros H Sa Sc Na Nc. destruct (part_to_whole m T a c s t (OCopy a (a ++ c)) H Sa Sc Na Nc ltac:(auto)) as [N1 E1]. destruct (part_to_whole m T a c s t (OMove a (a ++ c)) H Sa Sc Na Nc ltac:(auto)) as [N2 E2].
  destruct (Z.eq_dec (tagOf t) tEmpty) as [E|E].
  - exists (Nat.max N1 N2). intros n Hn. splits; [apply E1; lia|apply E2; lia|contradiction].
  - destruct (part_to_whole m T a c s t (OSet a (a ++ c) (tagOf t)) H Sa Sc Na Nc ltac:(auto)) as [N3 E3]. exists (Nat.max N1 (Nat.max N2 N3)). intros n Hn. splits; [apply E1; lia|apply E2; lia|intros _; apply E3; lia].
Qed.
(** v.mutableList()[0] = v copies a list in which one Value has its type but nothing else *)
Theorem C148_whole_to_part_refuted m T a c s t : holds m T -> subtree T a = Some s -> subtree s c = Some t -> a <> [] -> c <> [] -> exists N, forall n, (N <= n)%nat -> exec n m (OCopy (a ++ c) a) = UB.
Proof. apply whole_to_part. Qed.
(** v.setList(v.getList()) copies what it destroyed, for every string and container *)
Theorem C148_set_itself_refuted m T a s : holds m T -> subtree T a = Some s -> a <> [] -> heapTag (tagOf s) = true -> exists N, forall n, (N <= n)%nat -> exec n m (OSet a a (tagOf s)) = UB.
Proof. apply set_self. Qed.
(** v.mutableList()[0] = std::move(v), and swap of a Value and a part of it, lose the memory: all variables are EMPTY and blocks are left *)
Theorem C148_moved_into_itself_refuted :
  let p := [OMake [0%nat] (Node tList [] [Node tInt [1] []]); OMove [0; 0]%nat [0%nat]] in
  let p' := [OMake [0%nat] (Node tList [] [Node tInt [1] []]); OSwap [0%nat] [0; 0]%nat; OClear [0%nat]] in
  seen 9 1 p [0%nat] = Ret empty_ /\ (exists m, execAll 9 (fresh 1) p = Ret m /\ heap m 1 <> None) /\ seen 9 1 p' [0%nat] = Ret empty_ /\ exists m, execAll 9 (fresh 1) p' = Ret m /\ heap m 1 <> None.
Proof.
  assert (L : forall (r : outcome mem), (match r with Ret m => match heap m 1 with Some _ => true | None => false end | _ => false end) = true -> exists m, r = Ret m /\ heap m 1 <> None).
  { intros [m| | |] H; try discriminate. exists m. split; [reflexivity|]. destruct (heap m 1); discriminate. }
  cbv zeta. splits; try (vm_compute; reflexivity); apply L; vm_compute; reflexivity.
Qed.
(** a copy that throws for lack of memory leaves a Value whose destructor is undefined: type_ is set before the copy is made *)
Theorem C148_throwing_copy_refuted m T a b s t : holds m T -> subtree T a = Some s -> subtree T b = Some t -> a <> [] -> b <> [] -> apart a b -> heapTag (tagOf t) = true ->
  exists x y N m', at_ m a = Ret x /\ at_ m b = Ret y /\ copyThrows N m x y = Ret m' /\ forall n, clearA (S n) m' x = UB.
Proof. apply throw_leaves. Qed.
Example C148_example :
  let p := [OMake [0%nat] (Node tList [] [Node tMap [] [s1 [120]]])] in let T := vars [Node tList [] [Node tMap [] [s1 [120]]]] in
  (exists m, execAll 9 (fresh 1) p = Ret m /\ holds m T) /\ subtree T [0%nat] = Some (Node tList [] [Node tMap [] [s1 [120]]]) /\ subtree (Node tList [] [Node tMap [] [s1 [120]]]) [0; 0]%nat = Some (s1 [120]) /\
  seen 9 1 (p ++ [OCopy [0%nat] [0; 0; 0]%nat]) [0%nat] = UB /\ seen 9 1 (p ++ [OCopy [0; 0; 0]%nat [0%nat]]) [0%nat] = UB /\ seen 9 1 (p ++ [OSet [0%nat] [0%nat] tList]) [0%nat] = UB /\
  seen 9 1 (p ++ [OTake [0%nat] [0; 0; 0]%nat tString]) [0%nat] = Ret (s1 [120]).
Proof.
  cbv zeta. splits; try (vm_compute; reflexivity).
  destruct (execAll 9 (fresh 1) [OMake [0%nat] (Node tList [] [Node tMap [] [s1 [120]]])]) as [m0| | |] eqn:E0; [|vm_compute in E0; discriminate..]. exists m0. split; [reflexivity|].
  assert (D : does (vars (repeat empty_ 1)) (OMake [0%nat] (Node tList [] [Node tMap [] [s1 [120]]])) (vars [Node tList [] [Node tMap [] [s1 [120]]]])).
  { apply (DMake (vars (repeat empty_ 1)) [0%nat] (Node tList [] [Node tMap [] [s1 [120]]]) empty_); [reflexivity|discriminate|]. apply VP; [reflexivity|]. apply Forall_cons; [|constructor]. apply VP; [reflexivity|]. apply Forall_cons; [|constructor]. apply VP; [reflexivity|constructor]. }
  destruct (C146_step (fresh 1) _ _ _ (fresh_holds 1) D) as (N & m & E & H). specialize (E (Nat.max N 9) ltac:(lia)).
  cbn [execAll] in E0. destruct (exec 9 (fresh 1) (OMake [0%nat] (Node tList [] [Node tMap [] [s1 [120]]]))) as [m1| | |] eqn:E1; try discriminate.
  rewrite (exec_step 9 (Nat.max N 9) ltac:(lia) _ _ _ E1) in E. cbn [obind execAll] in E0. congruence.
Qed.

Print Assumptions C146_values_are_values.
Print Assumptions C146_step.
Print Assumptions C146_others.
Print Assumptions C147_memory_used.
Print Assumptions C147_no_leak.
Print Assumptions C147_not_shared.
Print Assumptions C148_taken_out.
Print Assumptions C148_itself.
Print Assumptions C148_part_to_whole_refuted.
Print Assumptions C148_whole_to_part_refuted.
Print Assumptions C148_set_itself_refuted.
Print Assumptions C148_moved_into_itself_refuted.
Print Assumptions C148_throwing_copy_refuted.
