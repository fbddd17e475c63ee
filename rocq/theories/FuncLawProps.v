(** Laws that hold between the built-in functions (C164-C169): counting, picking, bits and signs, similarity, the parts of vertices, and texts of numbers.
    All are about calls by name, so what is registered under the name is part of the statement. *)
From Coq Require Import String List Sorted SpecFloat.
From Verif Require Import Prelude TimeModel ValueBase ValueModel ValueProofs GraphModel ExprModel EvalModel EvalSpec EvalProofs EvalProps FuncModel FuncTableModel FuncTableProps GraphFuncProps RelProps OperatorProps CastProps.
Import ListNotations.
Local Open Scope list_scope.
Open Scope Z_scope.

Section Laws.
Context (X : externals) (W : world) (o : oracle).
(** the call of a function by name returns this value *)
Definition calls (name : string) (args : list value) (r : value) : Prop := callFunction X W (B name) o args = Some (Ret r).
End Laws.
Lemma calls_fun X W o name args r s : calls X W o name args r -> calls X W o name args s -> r = s.
Proof. unfold calls. congruence. Qed.

(** * C164: counting *)
(** how many members a value has *)
Inductive members : value -> Z -> Prop :=
| mem_str s : members (VStr s) (Z.of_nat (List.length s))
| mem_list l : members (VList l) (Z.of_nat (List.length l))
| mem_map m : members (VMap m) (Z.of_nat (List.length m))
| mem_set l : members (VSet l) (Z.of_nat (List.length l))
| mem_data d : members (VDataSet d) (Z.of_nat (List.length (drows d))).
(** size is that number; of anything else it is a null, or empty. *)
Theorem C164_size : forall X W o v,
  (forall n, members v n -> calls X W o "size" [v] (VInt n)) /\
  ((forall n, ~ members v n) -> calls X W o "size" [v] (match v with VEmpty => VEmpty | VNull _ => VNull NNull | _ => VNull NBadType end)).
Proof.
  intros X W o v. split.
  - intros n M. destruct M; reflexivity.
  - intros N. destruct v as [| | | | |s| | | | | | |l|m|l|d]; try reflexivity; [destruct (N _ (mem_str s))|destruct (N _ (mem_list l))|destruct (N _ (mem_map m))|destruct (N _ (mem_set l))|destruct (N _ (mem_data d))].
Qed.
(** Texts and lists that are put together with +: the sizes add up. *)
Theorem C164_sum : forall X W o a b c n m, members a n -> members b m -> (exists s t, a = VStr s /\ b = VStr t) \/ (exists s t, a = VList s /\ b = VList t) ->
  vadd X a b = Ret c -> calls X W o "size" [c] (VInt (n + m)).
Proof.
  intros X W o a b c n m Ma Mb [(s & t & -> & ->)|(s & t & -> & ->)] H; inversion Ma; inversion Mb; subst; cbn in H; injection H as <-;
    (transitivity (Some (Ret (VInt (Z.of_nat (List.length (s ++ t)))))); [reflexivity|rewrite app_length, Nat2Z.inj_add; reflexivity]).
Qed.
(** Reversing and changing the case of letters keep the size; tail takes one off. *)
Theorem C164_keep : forall X W o v r n, members v n ->
  (calls X W o "reverse" [v] r \/ calls X W o "lower" [v] r \/ calls X W o "upper" [v] r) -> isNull r = false -> calls X W o "size" [r] (VInt n).
Proof.
  intros X W o v r n M H N. destruct M as [s|l|m|l|d]; destruct H as [H|[H|H]]; cbn in H; injection H as <-; try discriminate N; apply (C164_size X W o).
  - rewrite <- (rev_length s). constructor.
  - rewrite <- (map_length lowerByte s). constructor.
  - rewrite <- (map_length upperByte s). constructor.
  - rewrite <- (rev_length l). constructor.
Qed.
Theorem C164_tail : forall X W o l r, calls X W o "tail" [VList l] r -> calls X W o "size" [r] (VInt (Z.max 0 (Z.of_nat (List.length l) - 1))).
Proof.
  intros X W o l r H. cbn in H. injection H as <-. transitivity (Some (Ret (VInt (Z.of_nat (List.length (tl l)))))); [reflexivity|].
  do 3 f_equal. destruct l; cbn [tl List.length]; lia.
Qed.
Lemma reverseLoop_length : forall l d r, reverseLoop d l = Ret r -> List.length r = List.length l.
Proof.
  induction l as [|s [|s2 l] IH]; intros d r H.
  - injection H as <-. reflexivity.
  - cbn in H. destruct (negType (stype s)); cbn in H; try discriminate H. injection H as <-. reflexivity.
  - cbn [reverseLoop] in H. destruct (negType (stype s)) as [t| | |]; cbn [obind] in H; try discriminate H.
    change (obind (reverseLoop d (s2 :: l)) (fun rest' => Ret (setType (setDst s (sdst s2)) t :: rest')) = Ret r) in H.
    destruct (reverseLoop d (s2 :: l)) as [r'| | |] eqn:E; cbn [obind] in H; try discriminate H. injection H as <-. cbn [List.length]. rewrite (IH d r' E). reflexivity.
Qed.
(** A text is as long as it is large. A path is as long as it has relationships, has one node more, and is as long reversed. *)
Theorem C164_length : forall X W o s p q ns rs,
  calls X W o "length" [VStr s] (VInt (Z.of_nat (List.length s))) /\
  (calls X W o "nodes" [VPath p] ns -> calls X W o "relationships" [VPath p] rs -> exists n,
     calls X W o "length" [VPath p] (VInt n) /\ calls X W o "size" [rs] (VInt n) /\ calls X W o "size" [ns] (VInt (n + 1))) /\
  (calls X W o "reversepath" [VPath p] q -> forall n, calls X W o "length" [VPath p] n -> calls X W o "length" [q] n).
Proof.
  intros X W o s p q ns rs. splits.
  - reflexivity.
  - intros Hn Hr. exists (Z.of_nat (List.length (psteps p))). cbn in Hn, Hr. injection Hn as <-. injection Hr as <-. splits; [reflexivity| |].
    + transitivity (Some (Ret (VInt (Z.of_nat (List.length (relLoop (vvid (psrc p)) (psteps p))))))); [reflexivity|]. do 4 f_equal.
      generalize (vvid (psrc p)). induction (psteps p) as [|x l IH]; intros v; [reflexivity|]. cbn [relLoop List.length]. rewrite IH. reflexivity.
    + transitivity (Some (Ret (VInt (Z.of_nat (List.length (VVertex (psrc p) :: map (fun s => VVertex (sdst s)) (psteps p))))))); [reflexivity|].
      cbn [List.length]. rewrite map_length. do 3 f_equal. lia.
  - intros H n Hn. unfold calls in H. change (callFunction X W (B "reversepath") o [VPath p]) with (Some (obind (pathReverse p) (fun q => Ret (VPath q)))) in H. destruct (pathReverse p) as [r| | |] eqn:R; cbn in H; try discriminate H. injection H as <-. cbn in Hn. injection Hn as <-.
    transitivity (Some (Ret (VInt (Z.of_nat (List.length (psteps r)))))); [reflexivity|]. do 3 f_equal. unfold sizeOf. f_equal.
    unfold pathReverse in R. destruct (rev (psteps p)) as [|s0 rest] eqn:E.
    + injection R as <-. reflexivity.
    + destruct (reverseLoop (psrc p) (s0 :: rest)) as [l| | |] eqn:L; cbn [obind] in R; try discriminate R. injection R as <-. cbn [psteps].
      etransitivity; [exact (reverseLoop_length _ _ _ L)|]. rewrite <- E. apply rev_length.
Qed.
(** The keys of a map or of an edge are as many as its entries, one for each. *)
Theorem C164_keys : forall X W o v m ks, v = VMap m \/ (exists e, v = VEdge e /\ eprops e = m) -> NoDup (map fst m) ->
  calls X W o "keys" [v] ks -> calls X W o "size" [ks] (VInt (Z.of_nat (List.length m))).
Proof.
  intros X W o v m ks Hv ND H.
  assert (K : match v with VVertex _ | VEdge _ | VMap _ => True | _ => False end) by (destruct Hv as [->|(e & -> & _)]; exact I).
  destruct (C66_keys v K) as (l & F & _ & Nl & Q).
  assert (ks = VList (map VStr l)) as ->.
  { unfold calls, callFunction in H. cbn in H. injection H as H. change (fKeys [v] = Ret ks) in H. rewrite F in H. injection H as <-. reflexivity. }
  transitivity (Some (Ret (VInt (Z.of_nat (List.length (map VStr l)))))); [reflexivity|]. rewrite map_length. do 4 f_equal. rewrite <- (map_length fst m).
  assert (S : forall k, In k l <-> In k (map fst m)).
  { intros k. rewrite Q, in_map_iff. destruct Hv as [->|(e & -> & <-)]; split.
    - intros HP. inversion HP as [| |m' k' x I]; subst. exists (k, x). auto.
    - intros ((k' & x) & <- & I). econstructor. exact I.
    - intros HP. inversion HP as [|e' k' x I|]; subst. exists (k, x). auto.
    - intros ((k' & x) & <- & I). econstructor. exact I. }
  apply Nat.le_antisymm; apply NoDup_incl_length; auto; intros k; apply S.
Qed.
Example C164_example : forall o, calls tX tW o "size" [VMap [(B "a", VInt 1); (B "b", VNull NNull)]] (VInt 2) /\ calls tX tW o "keys" [VMap [(B "b", VInt 1); (B "a", VNull NNull)]] (VList [VStr (B "a"); VStr (B "b")]) /\
  calls tX tW o "reverse" [VStr (B "abc")] (VStr (B "cba")) /\ calls tX tW o "size" [VStr (B "cba")] (VInt 3) /\ vadd tX (VList [VInt 1]) (VList [VInt 2; VInt 3]) = Ret (VList [VInt 1; VInt 2; VInt 3]) /\
  calls tX tW o "tail" [VList []] (VList []) /\ calls tX tW o "size" [VList []] (VInt 0) /\ calls tX tW o "size" [VInt 5] (VNull NBadType) /\
  calls tX tW o "length" [VPath (mkPath (mkVertex (VInt 1) []) [mkStep (mkVertex (VInt 2) []) 3 (B "e") 0 []])] (VInt 1) /\
  calls tX tW o "reversepath" [VPath (mkPath (mkVertex (VInt 1) []) [mkStep (mkVertex (VInt 2) []) 3 (B "e") 0 []])] (VPath (mkPath (mkVertex (VInt 2) []) [mkStep (mkVertex (VInt 1) []) (-3) (B "e") 0 []])).
Proof. intros o. splits; reflexivity. Qed.

(** * C165: picking members *)
(** coalesce gives the first member that is not a null, and the plain null if all are (also if there are none). *)
Theorem C165_coalesce : forall X W o l,
  (forall pre v post, l = pre ++ v :: post -> Forall (fun x => isNull x = true) pre -> isNull v = false -> calls X W o "coalesce" [VList l] v) /\
  (Forall (fun x => isNull x = true) l -> calls X W o "coalesce" [VList l] (VNull NNull)).
Proof.
  intros X W o l. assert (C : callFunction X W (B "coalesce") o [VList l] = Some (Ret (firstNotNull X l))) by reflexivity. unfold calls. rewrite C. split.
  - intros pre v post -> F N. do 2 f_equal. clear C. induction F as [|x pre Hx F IH]; cbn [app firstNotNull]; rewrite null_eq; [rewrite N; reflexivity|]. rewrite Hx. exact IH.
  - intros F. do 2 f_equal. clear C. induction F as [|x l Hx F IH]; [reflexivity|]. cbn [firstNotNull]. rewrite null_eq, Hx. exact IH.
Qed.
(** reverse puts the i-th member at the i-th place from the end; twice, it gives the list or text back; its first member is the last one. *)
Theorem C165_reverse : forall X W o,
  (forall l i v, nth_error l i = Some v -> exists r, calls X W o "reverse" [VList l] (VList r) /\ nth_error r (List.length l - 1 - i) = Some v) /\
  (forall s i b, nth_error s i = Some b -> exists r, calls X W o "reverse" [VStr s] (VStr r) /\ nth_error r (List.length s - 1 - i) = Some b) /\
  (forall v r, calls X W o "reverse" [v] r -> isNull r = false -> calls X W o "reverse" [r] v) /\
  (forall l r v, l <> [] -> calls X W o "reverse" [VList l] r -> calls X W o "last" [VList l] v -> calls X W o "head" [r] v).
Proof.
  intros X W o.
  assert (G : forall A (l : list A) i v, nth_error l i = Some v -> nth_error (rev l) (List.length l - 1 - i) = Some v).
  { intros A l i v H. pose proof (proj1 (nth_error_Some l i) ltac:(congruence)) as L. rewrite (nth_error_nth' _ v) by (rewrite rev_length; lia).
    rewrite rev_nth by lia. f_equal. replace (List.length l - S (List.length l - 1 - i))%nat with i by lia. apply nth_error_nth. exact H. }
  splits.
  - intros l i v H. exists (rev l). split; [reflexivity|]. apply G, H.
  - intros s i b H. exists (rev s). split; [reflexivity|]. apply G, H.
  - intros v r H N. destruct v; cbn in H; injection H as <-; try discriminate N.
    + transitivity (Some (Ret (VStr (rev (rev s))))); [reflexivity|]. rewrite rev_involutive. reflexivity.
    + transitivity (Some (Ret (VList (rev (rev l))))); [reflexivity|]. rewrite rev_involutive. reflexivity.
  - intros l r v Hl H Hv. cbn in H. injection H as <-. destruct l as [|x l _] using rev_ind; [contradiction|]. rewrite rev_unit.
    assert (Q : callFunction X W (B "last") o [VList (l ++ [x])] = Some (match rev (l ++ [x]) with y :: _ => Ret y | [] => UB end)) by reflexivity.
    unfold calls in Hv. rewrite Q, rev_unit in Hv. injection Hv as <-. reflexivity.
Qed.
(** udf_is_in tells whether one of the further arguments equals the first; it agrees with IN on the list of them whenever IN is not null. *)
Lemma variadic X W o (args : list value) : 2 <= sizeOf args <= int64_max ->
  callFunction X W (B "udf_is_in") o args = Some (fIsIn X args) /\ callFunction X W (B "cos_similarity") o args = Some (fCosSim W args).
Proof.
  intros [H1 H2]. assert (A : (sizeOf args <? 2) || (int64_max <? sizeOf args) = false) by lia. unfold callFunction, getInternal. split.
  - replace (findName (lower (B "udf_is_in")) (functions X W)) with (Some (mkAttr 2 int64_max true (det (fIsIn X)))) by reflexivity. cbn [minArity maxArity]. rewrite A. reflexivity.
  - replace (findName (lower (B "cos_similarity")) (functions X W)) with (Some (mkAttr 2 int64_max true (det (fCosSim W)))) by reflexivity. cbn [minArity maxArity]. rewrite A. reflexivity.
Qed.
Theorem C165_is_in : forall X W o v w ws, sizeOf (v :: w :: ws) <= int64_max -> exists b, calls X W o "udf_is_in" (v :: w :: ws) (VBool b) /\
  (b = true <-> exists x, In x (w :: ws) /\ veq X x v = true).
Proof.
  intros X W o v w ws H. exists (existsb (fun x => veq X x v) (w :: ws)). split; [|apply existsb_exists].
  unfold calls. rewrite (proj1 (variadic X W o (v :: w :: ws) ltac:(split; [unfold sizeOf; cbn [List.length]; lia|exact H]))). reflexivity.
Qed.
Theorem C165_is_in_agrees : forall E W o c l r v w ws b, sizeOf (v :: w :: ws) <= int64_max -> yields E c l v -> yields E c r (VList (w :: ws)) ->
  relYields E c OIn l r (VBool b) -> calls (eX E) W o "udf_is_in" (v :: w :: ws) (VBool b).
Proof.
  intros E W o c l r v w ws b S Yl Yr H. apply (in_inv _ _ _ _ _ _ _ _ Yl Yr) in H. cbn [vrel] in H. unfold containment in H. cbn [obind] in H.
  unfold calls. rewrite (proj1 (variadic (eX E) W o (v :: w :: ws) ltac:(split; [unfold sizeOf; cbn [List.length]; lia|exact S]))). do 2 f_equal. unfold fIsIn.
  change (existsb (fun x => veq (eX E) x v) (w :: ws)) with (listContains E (w :: ws) v). f_equal. f_equal.
  destruct (listContains E (w :: ws) v), (listContains E (w :: ws) kNull), (isNull v); cbn in H; try discriminate H; injection H as <-; reflexivity.
Qed.
Example C165_example : forall o, calls tX tW o "coalesce" [VList [VNull NBadData; VEmpty; VInt 1]] VEmpty /\ calls tX tW o "coalesce" [VList []] (VNull NNull) /\
  calls tX tW o "reverse" [VList [VInt 1; VInt 2]] (VList [VInt 2; VInt 1]) /\ calls tX tW o "last" [VList [VInt 1; VInt 2]] (VInt 2) /\
  calls tX tW o "udf_is_in" [VInt 1; VStr (B "a"); VFloat (f64ofZ 1)] (VBool true) /\ calls tX tW o "udf_is_in" [VInt 1; VNull NNull] (VBool false).
Proof. intros o. splits; reflexivity. Qed.

(** * C166: bits and signs *)
(** The i-th bit of the result depends on the i-th bits of the integers as the name says, and the result is an integer of 64 bits. *)
Theorem C166_bits : forall X W o a b name f, in_int64 a = true -> in_int64 b = true -> In (name, f) [("bit_and"%string, andb); ("bit_or"%string, orb); ("bit_xor"%string, xorb)] ->
  exists z, calls X W o name [VInt a; VInt b] (VInt z) /\ in_int64 z = true /\ forall i, 0 <= i -> Z.testbit z i = f (Z.testbit a i) (Z.testbit b i).
Proof.
  intros X W o a b name f Ha Hb H.
  assert (K : forall z, (forall i, 63 <= i -> Z.testbit z i = Z.testbit z 63) -> in_int64 z = true).
  { intros z Hz. unfold in_int64, int64_min, int64_max.
    assert (Q : Z.shiftr z 63 = 0 \/ Z.shiftr z 63 = -1).
    { destruct (Z.testbit z 63) eqn:T; [right|left]; apply Z.bits_inj'; intros n Hn; rewrite Z.shiftr_spec by lia; rewrite Hz by lia; [rewrite Z.bits_m1 by lia|rewrite Z.bits_0]; reflexivity. }
    rewrite Z.shiftr_div_pow2 in Q by lia. change (2 ^ 63) with 9223372036854775808 in Q. lia. }
  assert (J : forall z, in_int64 z = true -> forall i, 63 <= i -> Z.testbit z i = Z.testbit z 63).
  { intros z Hz i Hi. unfold in_int64, int64_min, int64_max in Hz.
    assert (Q : Z.shiftr z 63 = 0 \/ Z.shiftr z 63 = -1) by (rewrite Z.shiftr_div_pow2 by lia; change (2 ^ 63) with 9223372036854775808; lia).
    replace i with ((i - 63) + 63) by lia. rewrite <- Z.shiftr_spec by lia. replace (Z.testbit z 63) with (Z.testbit (Z.shiftr z 63) 0) by (rewrite Z.shiftr_spec by lia; reflexivity).
    destruct Q as [->| ->]; [rewrite !Z.bits_0|rewrite !Z.bits_m1 by lia]; reflexivity. }
  cbn in H. destruct H as [H|[H|[H|[]]]]; injection H as <- <-.
  - exists (Z.land a b). splits; [reflexivity|apply K; intros i Hi; rewrite !Z.land_spec, (J a Ha i Hi), (J b Hb i Hi); reflexivity|intros i Hi; apply Z.land_spec].
  - exists (Z.lor a b). splits; [reflexivity|apply K; intros i Hi; rewrite !Z.lor_spec, (J a Ha i Hi), (J b Hb i Hi); reflexivity|intros i Hi; apply Z.lor_spec].
  - exists (Z.lxor a b). splits; [reflexivity|apply K; intros i Hi; rewrite !Z.lxor_spec, (J a Ha i Hi), (J b Hb i Hi); reflexivity|intros i Hi; apply Z.lxor_spec].
Qed.
(** With a null the result is a null, with an empty value and no null it is empty; anything else but two integers is a wrong type. *)
Theorem C166_bits_other : forall X W o a b name, In name ["bit_and"%string; "bit_or"%string; "bit_xor"%string] ->
  exists r, calls X W o name [a; b] r /\
    (isNull a = true \/ isNull b = true -> isNull r = true) /\ (isNull a = false -> isNull b = false -> isEmpty a = true \/ isEmpty b = true -> r = VEmpty) /\
    (isNull a = false -> isNull b = false -> isEmpty a = false -> isEmpty b = false -> (forall x y, a = VInt x -> b <> VInt y) -> r = VNull NBadType).
Proof.
  intros X W o a b name H.
  assert (K : exists f, calls X W o name [a; b] (vbit f a b)) by (cbn in H; destruct H as [<-|[<-|[<-|[]]]]; eexists; reflexivity).
  destruct K as [f K]. exists (vbit f a b). split; [exact K|]. clear K. unfold vbit, nullOrEmpty. splits.
  - intros [E|E]; [rewrite E; exact E|]. rewrite E. cbn. rewrite andb_false_r, orb_false_r. destruct (isNull a) eqn:Na; [exact Na|exact E].
  - intros Na Nb [E|E]; destruct a, b; try discriminate Na; try discriminate Nb; try discriminate E; reflexivity.
  - intros Na Nb Ea Eb N. destruct a; try discriminate Na; try discriminate Ea; destruct b; try discriminate Nb; try discriminate Eb; try reflexivity. destruct (N _ _ eq_refl eq_refl).
Qed.
(** An integer is its sign times its absolute value. *)
Theorem C166_sign_int : forall X W o z, in_int64 z = true -> z <> int64_min -> exists s a, calls X W o "sign" [VInt z] (VInt s) /\ calls X W o "abs" [VInt z] (VInt a) /\
  z = s * a /\ 0 <= a <= int64_max /\ (s = -1 /\ z < 0 \/ s = 0 /\ z = 0 \/ s = 1 /\ 0 < z).
Proof.
  intros X W o z H N. exists (if 0 <? z then 1 else if z <? 0 then -1 else 0), (Z.abs z). splits.
  - reflexivity.
  - transitivity (Some (if z =? int64_min then UB else Ret (VInt (Z.abs z)))); [reflexivity|]. assert (z =? int64_min = false) as -> by lia. reflexivity.
  - destruct (Z.ltb_spec 0 z), (Z.ltb_spec z 0); lia.
  - lia.
  - unfold in_int64, int64_min, int64_max in *. lia.
  - destruct (Z.ltb_spec 0 z), (Z.ltb_spec z 0); lia.
Qed.
(** A float: the sign of the opposite is the opposite, the absolute value does not depend on it and is never below zero; what is not a number has the sign 0. *)
Theorem C166_sign_float : forall X W o f, exists s a, calls X W o "sign" [VFloat f] (VInt s) /\ calls X W o "abs" [VFloat f] (VFloat a) /\
  calls X W o "sign" [VFloat (f64neg f)] (VInt (- s)) /\ calls X W o "abs" [VFloat (f64neg f)] (VFloat a) /\ f64ltb a f64zero = false /\
  (s = 1 <-> f64ltb f64zero f = true) /\ (s = -1 <-> f64ltb f f64zero = true) /\ (s = 0 -> a = S754_nan \/ a = f64zero) /\ (f = a \/ f = f64neg a).
Proof.
  intros X W o f. exists (if f64ltb f64zero f then 1 else if f64ltb f f64zero then -1 else 0), (f64abs f).
  destruct f as [[]|[]| |[] m e]; splits; try reflexivity; auto; try (split; intros H; (discriminate H || reflexivity)); intros H; discriminate H.
Qed.
Example C166_example : forall o, calls tX tW o "bit_xor" [VInt 6; VInt (-4)] (VInt (-6)) /\ calls tX tW o "bit_and" [VNull NBadData; VEmpty] (VNull NBadData) /\
  calls tX tW o "bit_or" [VEmpty; VInt 1] VEmpty /\ calls tX tW o "bit_or" [VBool true; VInt 1] (VNull NBadType) /\
  calls tX tW o "sign" [VInt (-7)] (VInt (-1)) /\ calls tX tW o "sign" [VFloat S754_nan] (VInt 0) /\ calls tX tW o "abs" [VFloat (f64ofZ (-7))] (VFloat (f64ofZ 7)).
Proof. intros o. splits; reflexivity. Qed.

(** * C167: cos_similarity *)
Definition numeric (v : value) : Prop := match v with VInt _ | VFloat _ => True | _ => False end.
Lemma f64mul_comm a b : f64mul a b = f64mul b a.
Proof.
  unfold f64mul, SFmul. destruct a as [s|s| |s m e], b as [s'|s'| |s' m' e']; try reflexivity; try (rewrite xorb_comm; reflexivity).
  rewrite (xorb_comm s s'), (Pos.mul_comm m m'), (Z.add_comm e e'). reflexivity.
Qed.
Lemma isNumeric_iff v : isNumeric v = true <-> numeric v.
Proof. destruct v; cbn; split; intros H; try discriminate; try contradiction; auto. Qed.
Lemma cosLoop_swap l : forall r s1 s2 s3, List.length l = List.length r ->
  cosLoop r l s1 s3 s2 = match cosLoop l r s1 s2 s3 with Some (a, b, c) => Some (a, c, b) | None => None end.
Proof.
  induction l as [|x l IH]; intros [|y r] s1 s2 s3 H; try discriminate; [reflexivity|]. cbn [cosLoop]. rewrite (andb_comm (isNumeric y)).
  destruct (isNumeric x && isNumeric y); [|reflexivity]. rewrite (f64mul_comm (asDouble y) (asDouble x)). apply IH. injection H; auto.
Qed.
Lemma cosLoop_none l : forall r s1 s2 s3, List.length l = List.length r -> cosLoop l r s1 s2 s3 = None <-> ~ Forall numeric (l ++ r).
Proof.
  induction l as [|x l IH]; intros [|y r] s1 s2 s3 H; try discriminate; cbn [cosLoop].
  - split; [discriminate|]. intros N. destruct N. constructor.
  - injection H as H. destruct (isNumeric x) eqn:Ex; [destruct (isNumeric y) eqn:Ey|]; cbn [andb].
    + rewrite IH by exact H. apply isNumeric_iff in Ex, Ey. cbn [app]. rewrite Forall_cons_iff, !Forall_app, Forall_cons_iff. tauto.
    + split; [|reflexivity]. intros _ F. rewrite Forall_app, !Forall_cons_iff in F. destruct F as (_ & F & _). apply isNumeric_iff in F. congruence.
    + split; [|reflexivity]. intros _ F. cbn in F. rewrite Forall_cons_iff in F. destruct F as (F & _). apply isNumeric_iff in F. congruence.
Qed.
Lemma cosLoop_double l : forall r s1 s2 s3, List.length l = List.length r -> Forall numeric (l ++ r) ->
  cosLoop (map (fun v => VFloat (asDouble v)) l) (map (fun v => VFloat (asDouble v)) r) s1 s2 s3 = cosLoop l r s1 s2 s3.
Proof.
  induction l as [|x l IH]; intros [|y r] s1 s2 s3 H F; try discriminate; [reflexivity|]. injection H as H. cbn in F. rewrite Forall_cons_iff, Forall_app, Forall_cons_iff in F.
  destruct F as (Fx & Fl & Fy & Fr). cbn [map cosLoop]. apply isNumeric_iff in Fx, Fy. rewrite Fx, Fy. cbn [isNumeric andb asDouble]. apply IH; [exact H|]. rewrite Forall_app. auto.
Qed.
Lemma cos_halves W l r : List.length l = List.length r -> fCosSim W (l ++ r) =
  match cosLoop l r f64zero f64zero f64zero with
  | None => Ret kBadType
  | Some (s1, s2, s3) => if f64leb (f64abs s2) kEpsilon || f64leb (f64abs s3) kEpsilon then Ret (VFloat (f64ofZ (-2))) else Ret (VFloat (f64div s1 (f64mul (wMath W MSqrt s2) (wMath W MSqrt s3))))
  end.
Proof.
  intros H. unfold fCosSim. rewrite app_length, <- H. replace (List.length l + List.length l)%nat with (2 * List.length l)%nat by lia. rewrite Nat.even_mul. cbn [Nat.even orb negb].
  rewrite Nat.div2_double, firstn_app, skipn_app, firstn_all, skipn_all, Nat.sub_diag. cbn [firstn skipn]. rewrite app_nil_r. reflexivity.
Qed.
(** The result does not depend on which of the two vectors comes first. *)
Theorem C167_symmetric : forall X W o l r v, List.length l = List.length r -> 1 <= sizeOf l -> 2 * sizeOf l <= int64_max ->
  calls X W o "cos_similarity" (l ++ r) v <-> calls X W o "cos_similarity" (r ++ l) v.
Proof.
  intros X W o l r v H L1 L2. unfold sizeOf in *. unfold calls.
  rewrite (proj2 (variadic X W o (l ++ r) ltac:(unfold sizeOf; rewrite app_length; lia))), (proj2 (variadic X W o (r ++ l) ltac:(unfold sizeOf; rewrite app_length; lia))).
  rewrite !cos_halves by congruence. rewrite (cosLoop_swap l r) by exact H. destruct (cosLoop l r f64zero f64zero f64zero) as [[[a b] c]|]; [|reflexivity].
  rewrite (orb_comm (f64leb (f64abs c) kEpsilon)), (f64mul_comm (wMath W MSqrt c)). reflexivity.
Qed.
(** An odd number of arguments gives -2; an even number gives a float when all are numbers, and a wrong type otherwise. *)
Theorem C167_outcome : forall X W o args, 2 <= sizeOf args <= int64_max ->
  ((sizeOf args) mod 2 = 1 -> calls X W o "cos_similarity" args (VFloat (f64ofZ (-2)))) /\
  ((sizeOf args) mod 2 = 0 -> Forall numeric args -> exists f, calls X W o "cos_similarity" args (VFloat f)) /\
  ((sizeOf args) mod 2 = 0 -> ~ Forall numeric args -> calls X W o "cos_similarity" args (VNull NBadType)).
Proof.
  intros X W o args H. unfold calls. rewrite (proj2 (variadic X W o args H)). unfold sizeOf in *.
  assert (K : Z.of_nat (List.length args) mod 2 = 0 -> exists l r, args = l ++ r /\ List.length l = List.length r).
  { intros E. exists (firstn (Nat.div2 (List.length args)) args), (skipn (Nat.div2 (List.length args)) args). split; [symmetry; apply firstn_skipn|].
    rewrite firstn_length, skipn_length. pose proof (Nat.div2_odd (List.length args)) as Q. destruct (Nat.odd (List.length args)); cbn [Nat.b2n] in Q; lia. }
  splits.
  - intros E. unfold fCosSim. replace (Nat.even (List.length args)) with false; [reflexivity|]. symmetry. destruct (Nat.even (List.length args)) eqn:V; [|reflexivity].
    apply Nat.even_spec in V as [m V]. lia.
  - intros E F. destruct (K E) as (l & r & -> & Q). rewrite cos_halves by exact Q. destruct (cosLoop l r f64zero f64zero f64zero) as [[[a b] c]|] eqn:C.
    + destruct (_ || _); eexists; reflexivity.
    + apply cosLoop_none in C; [contradiction|exact Q].
  - intros E F. destruct (K E) as (l & r & -> & Q). rewrite cos_halves by exact Q. rewrite (proj2 (cosLoop_none l r f64zero f64zero f64zero Q) F). reflexivity.
Qed.
(** A vector of zeros, in either place, gives -2. *)
Theorem C167_zero : forall X W o l r, List.length l = List.length r -> 1 <= sizeOf l -> 2 * sizeOf l <= int64_max -> Forall (eq (VInt 0)) l -> Forall numeric r ->
  calls X W o "cos_similarity" (l ++ r) (VFloat (f64ofZ (-2))) /\ calls X W o "cos_similarity" (r ++ l) (VFloat (f64ofZ (-2))).
Proof.
  intros X W o l r H L1 L2 Z N. assert (K : calls X W o "cos_similarity" (l ++ r) (VFloat (f64ofZ (-2)))); [|split; [exact K|apply C167_symmetric; unfold sizeOf in *; (congruence || lia || exact K)]].
  unfold calls. rewrite (proj2 (variadic X W o (l ++ r) ltac:(unfold sizeOf in *; rewrite app_length; lia))), cos_halves by exact H.
  assert (Q : forall l r s1 s3, List.length l = List.length r -> Forall (eq (VInt 0)) l -> Forall numeric r -> exists a c, cosLoop l r s1 f64zero s3 = Some (a, f64zero, c)).
  { clear. induction l as [|x l IH]; intros [|y r] s1 s3 H Z N; try discriminate; [eexists; eexists; reflexivity|]. inversion Z as [|? ? E Z']; inversion N as [|? ? Ny N']; subst. cbn [cosLoop].
    apply isNumeric_iff in Ny. rewrite Ny. cbn [isNumeric andb]. change (f64add f64zero (f64mul (asDouble (VInt 0)) (asDouble (VInt 0)))) with f64zero. apply IH; auto. }
  destruct (Q l r f64zero f64zero H Z N) as (a & c & ->). reflexivity.
Qed.
(** Integers and the floats they become give the same result. *)
Theorem C167_integers : forall X W o args v, 2 <= sizeOf args <= int64_max -> Forall numeric args ->
  calls X W o "cos_similarity" args v <-> calls X W o "cos_similarity" (map (fun a => match a with VInt z => VFloat (f64ofZ z) | _ => a end) args) v.
Proof.
  intros X W o args v H F. unfold calls. rewrite (proj2 (variadic X W o args H)), (proj2 (variadic X W o _ ltac:(unfold sizeOf in *; rewrite map_length; exact H))).
  assert (M : map (fun a => match a with VInt z => VFloat (f64ofZ z) | _ => a end) args = map (fun v => VFloat (asDouble v)) args).
  { apply map_ext_in. intros a Ia. rewrite Forall_forall in F. specialize (F a Ia). destruct a; try contradiction; reflexivity. }
  rewrite M. destruct (Nat.even (List.length args)) eqn:V.
  - apply Nat.even_spec in V as [m V].
    assert (Q : exists l r, args = l ++ r /\ List.length l = List.length r).
    { exists (firstn m args), (skipn m args). split; [symmetry; apply firstn_skipn|]. rewrite firstn_length, skipn_length. lia. }
    destruct Q as (l & r & -> & Q). rewrite map_app, !cos_halves by (rewrite ?map_length; exact Q). rewrite cosLoop_double by assumption. reflexivity.
  - unfold fCosSim. rewrite map_length, V. reflexivity.
Qed.
Example C167_example : forall o, calls tX tW o "cos_similarity" [VInt 1; VInt 2; VInt 3] (VFloat (f64ofZ (-2))) /\
  calls tX tW o "cos_similarity" [VInt 1; VStr []] (VNull NBadType) /\ calls tX tW o "cos_similarity" [VInt 0; VInt 3] (VFloat (f64ofZ (-2))).
Proof. intros o. splits; reflexivity. Qed.

(** * C168: the properties of a vertex, an edge and a map *)
Lemma lookup_none (k : str) (m : list (str * value)) : lookup k m = None <-> ~ In k (map fst m).
Proof.
  induction m as [|[k' v] m IH]; cbn; [tauto|]. destruct (strEqb k k') eqn:E.
  - apply strEqb_eq in E. subst. split; [discriminate|]. intros H. destruct H. auto.
  - assert (k <> k') by (intros ->; rewrite strEqb_refl in E; discriminate). rewrite IH. intuition.
Qed.
Lemma nodup_snoc {A} (l : list A) x : NoDup l -> ~ In x l -> NoDup (l ++ [x]).
Proof.
  induction 1 as [|y l Hy Hl IH]; intros N; cbn; [constructor; [intros []|constructor]|]. constructor; [|apply IH; cbn in N; tauto].
  rewrite in_app_iff. intros [I|[->|[]]]; [contradiction|]. apply N. cbn. auto.
Qed.
Lemma insertAll_spec ps : forall m, NoDup (map fst m) -> NoDup (map fst ps) ->
  NoDup (map fst (insertAll m ps)) /\ forall k x, In (k, x) (insertAll m ps) <-> In (k, x) m \/ (~ In k (map fst m) /\ In (k, x) ps).
Proof.
  induction ps as [|[k v] ps IH]; intros m Hm Hp; cbn [insertAll]; [split; [exact Hm|intros; cbn; tauto]|].
  cbn in Hp. inversion Hp as [|? ? Hk Hp']; subst. destruct (lookup k m) as [w|] eqn:L.
  - destruct (IH m Hm Hp') as [I1 I2]. split; [exact I1|]. intros k' x. rewrite I2. cbn. split; [tauto|]. intros [I|[N [E|I]]]; [auto| |auto].
    injection E as -> ->. apply lookup_none in N. congruence.
  - apply lookup_none in L. destruct (IH (m ++ [(k, v)])) as [I1 I2]; [rewrite map_app; apply nodup_snoc; assumption|exact Hp'|]. split; [exact I1|].
    intros k' x. rewrite I2, map_app, !in_app_iff. cbn. split.
    + intros [[I|[E|[]]]|[N I]]; [auto|injection E as -> ->; auto|]. right. split; [tauto|auto].
    + intros [I|[N [E|I]]]; [auto|auto|]. right. split; [|exact I]. intros [I'|[->|[]]]; [contradiction|]. apply Hk. apply (in_map fst) in I. exact I.
Qed.
(** properties of a vertex: every name once, with the value of the first tag that has a property of this name. *)
Theorem C168_vertex : forall X W o v, (forall t, In t (vtags v) -> NoDup (map fst (tgprops t))) ->
  exists m, calls X W o "properties" [VVertex v] (VMap m) /\ NoDup (map fst m) /\
    forall k x, In (k, x) m <-> exists pre t post, vtags v = pre ++ t :: post /\ In (k, x) (tgprops t) /\ forall t', In t' pre -> ~ In k (map fst (tgprops t')).
Proof.
  intros X W o v H. exists (fold_left (fun m t => insertAll m (tgprops t)) (vtags v) []). split; [reflexivity|].
  assert (K : forall ts m, (forall t, In t ts -> NoDup (map fst (tgprops t))) -> NoDup (map fst m) ->
    NoDup (map fst (fold_left (fun m t => insertAll m (tgprops t)) ts m)) /\
    forall k x, In (k, x) (fold_left (fun m t => insertAll m (tgprops t)) ts m) <->
      In (k, x) m \/ (~ In k (map fst m) /\ exists pre t post, ts = pre ++ t :: post /\ In (k, x) (tgprops t) /\ forall t', In t' pre -> ~ In k (map fst (tgprops t')))).
  { induction ts as [|t ts IH]; intros m Ht Hm; cbn [fold_left].
    - split; [exact Hm|]. intros k x. split; [auto|]. intros [I|(_ & pre & t & post & E & _)]; [exact I|destruct pre; discriminate].
    - destruct (insertAll_spec (tgprops t) m Hm (Ht t (or_introl eq_refl))) as [I1 I2]. destruct (IH (insertAll m (tgprops t))) as [J1 J2]; [intros t' I; apply Ht; right; exact I|exact I1|].
      split; [exact J1|]. intros k x. rewrite J2, I2.
      assert (NK : ~ In k (map fst (insertAll m (tgprops t))) <-> ~ In k (map fst m) /\ ~ In k (map fst (tgprops t))).
      { assert (Q : In k (map fst (insertAll m (tgprops t))) <-> In k (map fst m) \/ In k (map fst (tgprops t))).
        { rewrite !in_map_iff. split.
          - intros ([k' y] & <- & I). apply I2 in I as [I|[_ I]]; [left|right]; exists (k', y); auto.
          - intros [([k' y] & E & I)|([k' y] & E & I)]; cbn in E; subst k'.
            + exists (k, y). split; [reflexivity|]. apply I2. auto.
            + destruct (in_dec (list_eq_dec Z.eq_dec) k (map fst m)) as [D|D].
              * apply in_map_iff in D as ([k' y'] & E & D). cbn in E. subst k'. exists (k, y'). split; [reflexivity|]. apply I2. auto.
              * exists (k, y). split; [reflexivity|]. apply I2. auto. }
        rewrite Q. tauto. }
      rewrite NK. split.
      + intros [[I|[N I]]|[[N N'] (pre & t0 & post & -> & I & F)]]; [auto|right|right].
        * split; [exact N|]. exists [], t, ts. split; [reflexivity|]. split; [exact I|intros t' []].
        * split; [exact N|]. exists (t :: pre), t0, post. split; [reflexivity|]. split; [exact I|]. intros t' [<-|I']; auto.
      + intros [I|[N (pre & t0 & post & E & I & F)]]; [auto|]. destruct pre as [|p pre]; cbn in E; injection E as <- ->.
        * left. right. auto.
        * right. split; [split; [exact N|apply F; left; reflexivity]|]. exists pre, t0, post. split; [reflexivity|]. split; [exact I|]. intros t' I'. apply F. right. exact I'. }
  destruct (K (vtags v) [] H (NoDup_nil _)) as [K1 K2]. split; [exact K1|]. intros k x. rewrite K2. cbn. tauto.
Qed.
Lemma sorted_unique l : forall l', StronglySorted strLt l -> StronglySorted strLt l' -> (forall k, In k l <-> In k l') -> l = l'.
Proof.
  assert (IR : forall k, ~ strLt k k).
  { unfold strLt. induction k as [|c k IH]; cbn; [discriminate|]. rewrite Z.ltb_irrefl, Z.eqb_refl. exact IH. }
  induction l as [|x l IH]; intros [|y l'] Sl Sl' H; [reflexivity|destruct (proj2 (H y) (or_introl eq_refl))|destruct (proj1 (H x) (or_introl eq_refl))|].
  inversion Sl as [|? ? S1 F1]; inversion Sl' as [|? ? S2 F2]; subst. rewrite Forall_forall in F1, F2.
  assert (E : x = y).
  { destruct (proj1 (H x) (or_introl eq_refl)) as [E|E]; [auto|]. destruct (proj2 (H y) (or_introl eq_refl)) as [E'|E']; [auto|].
    destruct (IR x). exact (strLtb_trans x y x (F1 y E') (F2 x E)). }
  subst y. f_equal. apply IH; [assumption..|]. intros k. split; intros I.
  - destruct (proj1 (H k) (or_intror I)) as [<-|I']; [destruct (IR x (F1 x I))|exact I'].
  - destruct (proj2 (H k) (or_intror I)) as [<-|I']; [destruct (IR x (F2 x I))|exact I'].
Qed.
(** keys of a vertex, an edge or a map are the keys of its properties. *)
Theorem C168_keys : forall X W o v, (match v with VVertex w => forall t, In t (vtags w) -> NoDup (map fst (tgprops t)) | VEdge _ | VMap _ => True | _ => False end) ->
  exists m ks, calls X W o "properties" [v] m /\ calls X W o "keys" [v] ks /\ calls X W o "keys" [m] ks.
Proof.
  intros X W o v H. destruct v as [| | | | | | | | |w|e| | |m| |]; try contradiction.
  - destruct (C168_vertex X W o w H) as (m & C & _ & M). exists (VMap m). destruct (C66_keys (VVertex w) I) as (k1 & E1 & S1 & _ & P1), (C66_keys (VMap m) I) as (k2 & E2 & S2 & _ & P2).
    exists (VList (map VStr k1)). split; [exact C|]. split; [transitivity (Some (fKeys [VVertex w])); [reflexivity|rewrite E1; reflexivity]|].
    transitivity (Some (fKeys [VMap m])); [reflexivity|]. rewrite E2. repeat f_equal. apply sorted_unique; [assumption..|]. intros k. rewrite P1, P2. split.
    + intros Q. inversion Q as [| |m' k' x Hx]; subst. apply M in Hx as (pre & t & post & E & I & _). apply (hp_vertex w t k x); [rewrite E, in_app_iff; cbn; auto|exact I].
    + intros Q. inversion Q as [w' t k' x Ht Hx| |]; subst.
      assert (F : forall ts, In t ts -> exists pre t0 post y, ts = pre ++ t0 :: post /\ In (k, y) (tgprops t0) /\ forall t', In t' pre -> ~ In k (map fst (tgprops t'))).
      { induction ts as [|t0 ts IH]; intros I; [destruct I|]. destruct (in_dec (list_eq_dec Z.eq_dec) k (map fst (tgprops t0))) as [D|D].
        - apply in_map_iff in D as ([k' y] & E & D). cbn in E. subst k'. exists [], t0, ts, y. split; [reflexivity|]. split; [exact D|intros t' []].
        - destruct I as [->|I]; [destruct D; apply (in_map fst) in Hx; exact Hx|]. destruct (IH I) as (pre & t1 & post & y & -> & I1 & I2). exists (t0 :: pre), t1, post, y.
          split; [reflexivity|]. split; [exact I1|]. intros t' [<-|I']; auto. }
      destruct (F _ Ht) as (pre & t0 & post & y & E & I1 & I2). apply (hp_map m k y). apply M. exists pre, t0, post. auto.
  - exists (VMap (eprops e)). eexists. split; [reflexivity|]. split; reflexivity.
  - exists (VMap m). eexists. split; [reflexivity|]. split; reflexivity.
Qed.
(** tags and labels agree and name the tags in their order; the number of names is the number of tags. *)
Theorem C168_tags : forall X W o v, exists l, calls X W o "tags" [VVertex v] (VList l) /\ calls X W o "labels" [VVertex v] (VList l) /\ List.length l = List.length (vtags v) /\
  forall i t, nth_error (vtags v) i = Some t -> nth_error l i = Some (VStr (tgname t)).
Proof.
  intros X W o v. exists (map (fun t => VStr (tgname t)) (vtags v)). splits; [reflexivity|reflexivity|apply map_length|]. intros i t H. rewrite nth_error_map, H. reflexivity.
Qed.
Example C168_example : let v := mkVertex (VInt 1) [mkTag (B "t") [(B "b", VInt 1); (B "a", VInt 2)]; mkTag (B "u") [(B "a", VInt 3); (B "c", VInt 4)]] in
  (forall t, In t (vtags v) -> NoDup (map fst (tgprops t))) /\
  forall o, calls tX tW o "properties" [VVertex v] (VMap [(B "b", VInt 1); (B "a", VInt 2); (B "c", VInt 4)]) /\ calls tX tW o "tags" [VVertex v] (VList [VStr (B "t"); VStr (B "u")]).
Proof.
  cbn. split; [|intros o; split; reflexivity]. intros t [<-|[<-|[]]]; cbn; repeat constructor; cbn; intuition discriminate.
Qed.

(** * C169: numbers and truth values as text *)
(** An integer written as text is read back. *)
Theorem C169_integer : forall X W o z, in_int64 z = true -> exists s, calls X W o "tostring" [VInt z] (VStr s) /\ calls X W o "tointeger" [VStr s] (VInt z).
Proof.
  intros X W o z H. exists (decZ z). split; [reflexivity|]. transitivity (Some (vtoInt (convEnv X) (VStr (decZ z)))); [reflexivity|].
  destruct (numeral_bytes _ _ (dec_numeral z)) as (B1 & B2 & B3). pose proof (cstr_nul _ B2) as Q. destruct (strtoll_spec (decZ z) B3) as [S1 _]. specialize (S1 z (dec_numeral z)).
  cbn [vtoInt]. assert (D : existsb (fun b => b =? 46) (decZ z) = false).
  { destruct (existsb (fun b => b =? 46) (decZ z)) eqn:E; [|reflexivity]. destruct B1. apply existsb_exists in E as (b & I & E). apply Z.eqb_eq in E. subst b. exact I. }
  rewrite D. cbv zeta. rewrite Q, S1, Nat.eqb_refl. unfold in_int64 in H. replace (z <? int64_min) with false by lia. replace (int64_max <? z) with false by lia. reflexivity.
Qed.
(** A truth value written as text, in small or in capital letters, is read back; of all texts, only those that are true or false in some mixture of cases are read at all. *)
Theorem C169_boolean : forall X W o b, exists s u, calls X W o "tostring" [VBool b] (VStr s) /\ calls X W o "upper" [VStr s] (VStr u) /\
  calls X W o "toboolean" [VStr s] (VBool b) /\ calls X W o "toboolean" [VStr u] (VBool b) /\
  forall t r, calls X W o "toboolean" [VStr t] (VBool r) -> (calls X W o "lower" [VStr t] (VStr s) <-> r = b).
Proof.
  intros X W o b. exists (if b then B "true" else B "false"), (if b then B "TRUE" else B "FALSE"). splits; [destruct b; reflexivity..|]. intros t r C.
  assert (C' : vtoBool (VStr t) = VBool r) by (change (Some (Ret (vtoBool (VStr t))) = Some (Ret (VBool r))) in C; injection C; auto). cbn [vtoBool] in C'.
  assert (L : calls X W o "lower" [VStr t] (VStr (lower t))) by reflexivity.
  destruct (strEqb (lower t) (B "true")) eqn:E1; [|destruct (strEqb (lower t) (B "false")) eqn:E2; [|discriminate C']].
  - injection C' as <-. apply strEqb_eq in E1. rewrite E1 in L. unfold calls in *. rewrite L. destruct b; split; intros Q; try reflexivity; discriminate Q.
  - injection C' as <-. apply strEqb_eq in E2. rewrite E2 in L. unfold calls in *. rewrite L. destruct b; split; intros Q; try reflexivity; discriminate Q.
Qed.
(** The text of a float has a point, so that no float and no integer have the same text; the text of a text is itself. *)
Theorem C169_float : forall X W o f, exists s, calls X W o "tostring" [VFloat f] (VStr s) /\ In 46 s /\ (forall z, ~ calls X W o "tostring" [VInt z] (VStr s)) /\
  calls X W o "tostring" [VStr s] (VStr s) /\ (s = xfmt X f \/ s = xfmt X f ++ B ".0").
Proof.
  intros X W o f. set (s := if existsb (fun b => b =? 46) (xfmt X f) then xfmt X f else xfmt X f ++ B ".0"). exists s.
  assert (D : In 46 s).
  { unfold s. destruct (existsb (fun b => b =? 46) (xfmt X f)) eqn:E; [apply existsb_exists in E as (b & I & E); apply Z.eqb_eq in E; subst b; exact I|]. rewrite in_app_iff. right. left. reflexivity. }
  splits; [reflexivity|exact D| |reflexivity|unfold s; destruct (existsb _ _); auto].
  intros z C. change (Some (Ret (VStr (decZ z))) = Some (Ret (VStr s))) in C. injection C as C. destruct (numeral_bytes _ _ (dec_numeral z)) as (N & _). apply N. rewrite C. exact D.
Qed.
(** tostring never fails with anything but a null: text for a number, a truth value, text, a date, a time and a datetime; a null for a null; a wrong type for the rest. *)
Theorem C169_kinds : forall X W o v, exists r, calls X W o "tostring" [v] r /\
  ((exists s, r = VStr s) <-> match v with VInt _ | VFloat _ | VBool _ | VStr _ | VDate _ | VTime _ | VDateTime _ => True | _ => False end) /\
  (r = VNull NNull <-> isNull v = true) /\ ((forall s, r <> VStr s) -> isNull v = false -> r = VNull NBadType).
Proof.
  intros X W o v. destruct v; eexists; (split; [reflexivity|]); splits;
    first [solve [split; intros Q; first [exact I|discriminate Q|contradiction|eexists; reflexivity|destruct Q as [? Q]; discriminate Q|reflexivity]]|solve [intros Q N; try discriminate N; try reflexivity; destruct (Q _ eq_refl)]].
Qed.
Example C169_example : forall o, calls tX tW o "tostring" [VInt (-9223372036854775808)] (VStr (B "-9223372036854775808")) /\ calls tX tW o "tointeger" [VStr (B "-9223372036854775808")] (VInt (-9223372036854775808)) /\
  calls tX tW o "toboolean" [VStr (B "tRuE")] (VBool true) /\ calls tX tW o "toboolean" [VStr (B "yes")] (VNull NNull).
Proof. intros o. splits; reflexivity. Qed.

Print Assumptions C164_size.
Print Assumptions C164_sum.
Print Assumptions C164_keep.
Print Assumptions C164_tail.
Print Assumptions C164_length.
Print Assumptions C164_keys.
Print Assumptions C165_coalesce.
Print Assumptions C165_reverse.
Print Assumptions C165_is_in.
Print Assumptions C165_is_in_agrees.
Print Assumptions C166_bits.
Print Assumptions C166_bits_other.
Print Assumptions C166_sign_int.
Print Assumptions C166_sign_float.
Print Assumptions C167_symmetric.
Print Assumptions C167_outcome.
Print Assumptions C167_zero.
Print Assumptions C167_integers.
Print Assumptions C168_vertex.
Print Assumptions C168_keys.
Print Assumptions C168_tags.
Print Assumptions C169_integer.
Print Assumptions C169_boolean.
Print Assumptions C169_float.
Print Assumptions C169_kinds.
