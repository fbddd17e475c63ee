(** Properties C63-C68: functions on strings, paths, lists, properties, edges and data sets. *)
From Coq Require Import String List Sorting.Sorted.
From Verif Require Import Prelude ValueBase ValueModel ValueProofs GraphModel EvalModel FuncModel FuncProofs RelProps.
Import ListNotations.
Open Scope Z_scope.

(** * C63: split and replace *)
(** ** Specification *)
Definition contains (d s : str) : Prop := exists u v, s = u ++ d ++ v.
(** [u] is what stands before the first occurrence of [d] in [u ++ d ++ v] *)
Definition firstAt (d u v : str) : Prop := forall u' v', u ++ d ++ v = u' ++ d ++ v' -> (List.length u <= List.length u')%nat.
(** cutting a string at the occurrences of [d], from the left *)
Inductive cuts (d : str) : str -> list str -> Prop :=
| cut_end s : ~ contains d s -> cuts d s [s]
| cut_at u v ps : firstAt d u v -> cuts d v ps -> cuts d (u ++ d ++ v) (u :: ps).
(** replacing the occurrences of [d] by [n], from the left; what was put in is not looked at again *)
Inductive replaces (d n : str) : str -> str -> Prop :=
| rep_end s : ~ contains d s -> replaces d n s s
| rep_at u v r : firstAt d u v -> replaces d n v r -> replaces d n (u ++ d ++ v) (u ++ n ++ r).

(** ** Proofs *)
Lemma app_cut {A} (u v u' v' : list A) : u ++ v = u' ++ v' -> (List.length u <= List.length u')%nat -> exists w, u' = u ++ w /\ v = w ++ v'.
Proof.
  revert u'. induction u as [|x u IH]; intros u' H L; [exists u'; auto|]. destruct u' as [|y u']; [cbn in L; lia|]. injection H as <- H.
  destruct (IH u' H) as (w & -> & ->); [cbn in L; lia|]. exists w. auto.
Qed.
Lemma splitFrom_cuts d : d <> [] -> forall fuel s tok, (List.length s < fuel)%nat ->
  (forall u' v', tok ++ s = u' ++ d ++ v' -> (List.length tok <= List.length u')%nat) -> cuts d (tok ++ s) (splitFrom fuel d s tok).
Proof.
  intros Hd. induction fuel as [|fuel IH]; intros s tok L H; [lia|]. cbn [splitFrom]. destruct (isPrefix d s) eqn:E.
  - apply isPrefix_spec in E. destruct E as (t & ->). rewrite skipn_app, Nat.sub_diag, skipn_all. cbn [skipn app]. apply cut_at; [exact H|].
    change t with ([] ++ t) at 1. apply IH; [rewrite app_length in L; destruct d; [contradiction|]; cbn in L; lia|]. intros; cbn; lia.
  - assert (N : forall v', s <> d ++ v') by (intros v' X; assert (isPrefix d s = true) by (apply isPrefix_spec; eauto); congruence).
    destruct s as [|x s].
    + rewrite app_nil_r. apply cut_end. intros (u & v & X). specialize (H u v). rewrite app_nil_r in H. apply H in X as L'.
      apply (f_equal (@List.length Z)) in X. rewrite !app_length in X. destruct d; [contradiction|]. cbn in X. lia.
    + replace (tok ++ x :: s) with ((tok ++ [x]) ++ s) by (rewrite <- app_assoc; reflexivity). apply IH; [cbn in L; lia|].
      intros u' v' X. rewrite <- app_assoc in X. cbn [app] in X. apply H in X as L'. rewrite app_length. cbn [List.length].
      destruct (Nat.eq_dec (List.length tok) (List.length u')) as [Y | Y]; [|lia]. exfalso.
      destruct (app_cut _ _ _ _ X L') as (w & -> & Z0). rewrite app_length in Y. destruct w; [|cbn in Y; lia]. exact (N v' Z0).
Qed.
Lemma follySplit_cuts d s : d <> [] -> cuts d s (follySplit d s).
Proof.
  intros Hd. unfold follySplit. destruct d as [|c d]; [contradiction|]. change s with ([] ++ s) at 1. apply splitFrom_cuts; [assumption|lia|]. intros; cbn; lia.
Qed.
Lemma cuts_ne d s ps : cuts d s ps -> ps <> [].
Proof. intros []; discriminate. Qed.
Lemma joinStr_cons sep x l : l <> [] -> joinStr sep (x :: l) = x ++ sep ++ joinStr sep l.
Proof. destruct l; [contradiction|reflexivity]. Qed.
(** split cuts the string at the occurrences of the delimiter, from the left: the pieces joined by the delimiter are
    the string, and no piece contains the delimiter. *)
Theorem C63_split : forall s d, d <> [] -> exists ps, fSplit [VStr s; VStr d] = Ret (VList (map VStr ps)) /\
  cuts d s ps /\ joinStr d ps = s /\ Forall (fun p => ~ contains d p) ps.
Proof.
  intros s d Hd. exists (follySplit d s). split; [reflexivity|]. pose proof (follySplit_cuts d s Hd) as C. split; [exact C|].
  induction C as [s N|u v ps F C [IH1 IH2]].
  - split; [reflexivity|]. constructor; [exact N|constructor].
  - split.
    + rewrite joinStr_cons by (apply (cuts_ne _ _ _ C)). rewrite IH1. reflexivity.
    + constructor; [|exact IH2]. intros (a & b & ->). specialize (F a (b ++ d ++ v)). rewrite <- !app_assoc in F. specialize (F eq_refl).
      rewrite !app_length in F. destruct d; [contradiction|]. cbn in F. lia.
Qed.
(** There is only one way to cut, so the claim determines the result. *)
Theorem C63_cuts_unique : forall d s ps qs, d <> [] -> cuts d s ps -> cuts d s qs -> ps = qs.
Proof.
  intros d s ps qs Hd C. revert qs. induction C as [s N|u v ps F C IH]; intros qs D.
  - inversion D as [s' N'|u' v' ps' F' C']; subst; [reflexivity|]. exfalso. apply N. exists u', v'. reflexivity.
  - remember (u ++ d ++ v) as w eqn:E. destruct D as [s' N'|u' v' ps' F' C'].
    + exfalso. apply N'. exists u, v. exact E.
    + assert (L : List.length u = List.length u') by (pose proof (F u' v' (eq_sym E)); pose proof (F' u v E); lia).
      destruct (app_cut u' (d ++ v') u (d ++ v) E ltac:(lia)) as (w & -> & W). rewrite app_length in L. destruct w; [|cbn in L; lia]. rewrite app_nil_r in *.
      cbn in W. apply app_inv_head in W. subst v'. f_equal. apply IH. exact C'.
Qed.
(** replace puts the new text at exactly the occurrences found from the left and changes nothing else. *)
Theorem C63_replace : forall s d n, d <> [] -> exists r, fReplace [VStr s; VStr d; VStr n] = Ret (VStr r) /\ replaces d n s r.
Proof.
  intros s d n Hd. exists (replaceAll s d n). split; [reflexivity|]. unfold replaceAll. pose proof (follySplit_cuts d s Hd) as C.
  induction C as [s N|u v ps F C IH]; [apply rep_end; exact N|]. rewrite joinStr_cons by (apply (cuts_ne _ _ _ C)). apply rep_at; assumption.
Qed.
(** The empty delimiter is found nowhere. *)
Theorem C63_empty_delimiter : forall s n, fSplit [VStr s; VStr []] = Ret (VList [VStr s]) /\ fReplace [VStr s; VStr []; VStr n] = Ret (VStr s).
Proof. intros. split; reflexivity. Qed.
(** Replacing by the delimiter itself changes nothing. *)
Theorem C63_replace_same : forall s d, fReplace [VStr s; VStr d; VStr d] = Ret (VStr s).
Proof.
  intros s d. destruct d as [|c d0]; [reflexivity|]. assert (Hd : c :: d0 <> []) by discriminate. revert Hd. generalize (c :: d0). clear. intros d Hd.
  change (fReplace [VStr s; VStr d; VStr d]) with (Ret (VStr (joinStr d (follySplit d s)))). do 2 f_equal.
  pose proof (follySplit_cuts d s Hd) as C. induction C as [s N|u v ps F C IH]; [reflexivity|]. rewrite joinStr_cons by (apply (cuts_ne _ _ _ C)). rewrite IH. reflexivity.
Qed.
(** Arguments that are not texts: a null among those of replace gives null, otherwise one that is no text gives the type error; split
    looks at the text first, so that a null delimiter gives null only beside a text or a null. *)
Theorem C63_other_arguments : forall x y z, let text v := exists s, v = VStr s in
  ((isNull x = true \/ isNull y = true \/ isNull z = true) -> fReplace [x; y; z] = Ret kNull) /\
  (isNull x = false -> isNull y = false -> isNull z = false -> ~ (text x /\ text y /\ text z) -> fReplace [x; y; z] = Ret kBadType) /\
  (isNull x = true -> fSplit [x; y] = Ret kNull) /\ (text x -> isNull y = true -> fSplit [x; y] = Ret kNull) /\
  (isNull x = false -> ~ text x \/ (isNull y = false /\ ~ text y) -> fSplit [x; y] = Ret kBadType).
Proof.
  intros x y z text. splits.
  - intros [H|[H|H]]; unfold fReplace; rewrite H, ?orb_true_r; reflexivity.
  - intros H1 H2 H3 N. unfold fReplace. rewrite H1, H2, H3. cbn [orb].
    destruct x; try reflexivity. destruct y; try reflexivity. destruct z; try reflexivity. destruct N. splits; eexists; reflexivity.
  - intros H. destruct x; try discriminate H. reflexivity.
  - intros [s ->] H. destruct y; try discriminate H. reflexivity.
  - intros H O. destruct x; try discriminate H; try reflexivity. destruct O as [O|[O1 O2]]; [destruct O; eexists; reflexivity|].
    destruct y; try discriminate O1; try reflexivity. destruct O2. eexists. reflexivity.
Qed.
Example C63_ex : fSplit [VStr (B "aaaba"); VStr (B "aa")] = Ret (VList [VStr []; VStr (B "aba")]) /\
  fReplace [VStr (B "aaaba"); VStr (B "aa"); VStr (B "ba")] = Ret (VStr (B "baaba")) /\
  fSplit [VStr (B ",a,,"); VStr (B ",")] = Ret (VList [VStr []; VStr (B "a"); VStr []; VStr []]).
Proof. splits; reflexivity. Qed.

(** * C64: nodes and relationships *)
(** nodes has one more element than the path has steps, and relationships as many; the i-th relationship leads from
    the i-th to the next node, with the type, name, rank and properties of the step. *)
Theorem C64_connected : forall p, exists ns rs, fNodes [VPath p] = Ret (VList (map VVertex ns)) /\ fRelationships [VPath p] = Ret (VList (map VEdge rs)) /\
  List.length ns = S (List.length (psteps p)) /\ List.length rs = List.length (psteps p) /\ nth_error ns 0 = Some (psrc p) /\
  forall i s, nth_error (psteps p) i = Some s -> exists a b e, nth_error ns i = Some a /\ nth_error ns (S i) = Some b /\ nth_error rs i = Some e /\
    b = sdst s /\ esrc e = vvid a /\ edst e = vvid b /\ etype e = stype s /\ ename e = sname s /\ erank e = srank s /\ eprops e = sprops s.
Proof.
  intros [src steps]. exists (src :: map sdst steps). cbn [fNodes fRelationships psrc psteps]. rewrite map_cons, map_map.
  assert (H : forall l a, exists rs, relLoop (vvid a) l = map VEdge rs /\ List.length rs = List.length l /\
    forall i s, nth_error l i = Some s -> exists x b e, nth_error (a :: map sdst l) i = Some x /\ nth_error (a :: map sdst l) (S i) = Some b /\ nth_error rs i = Some e /\
    b = sdst s /\ esrc e = vvid x /\ edst e = vvid b /\ etype e = stype s /\ ename e = sname s /\ erank e = srank s /\ eprops e = sprops s).
  { induction l as [|s l IH]; intros a.
    - exists []. splits; try reflexivity. intros [|i] s H; discriminate.
    - destruct (IH (sdst s)) as (rs & E & L & N). eexists (_ :: rs). cbn [relLoop map]. rewrite E. splits; [reflexivity|cbn; lia|].
      intros [|i] s' H; [injection H as <-; do 3 eexists; cbn; splits; try reflexivity|]. exact (N i s' H). }
  destruct (H steps src) as (rs & E & L & N). exists rs. rewrite E. splits; auto; try reflexivity. cbn. rewrite map_length. reflexivity.
Qed.
(** In terms of src and dst: a step of positive type is an edge from the node before to the node behind, one of
    negative type an edge from the node behind to the node before. *)
Theorem C64_direction : forall p ns rs i s a b e, fNodes [VPath p] = Ret (VList (map VVertex ns)) -> fRelationships [VPath p] = Ret (VList (map VEdge rs)) ->
  nth_error (psteps p) i = Some s -> nth_error ns i = Some a -> nth_error ns (S i) = Some b -> nth_error rs i = Some e ->
  (0 < stype s -> fSrc [VEdge e] = Ret (vvid a) /\ fDst [VEdge e] = Ret (vvid b)) /\
  (stype s < 0 -> fSrc [VEdge e] = Ret (vvid b) /\ fDst [VEdge e] = Ret (vvid a)).
Proof.
  intros p ns rs i s a b e Hn Hr Hs Ha Hb He. destruct (C64_connected p) as (ns' & rs' & Hn' & Hr' & _ & _ & _ & N).
  rewrite Hn' in Hn. rewrite Hr' in Hr. apply Ret_inj in Hn, Hr. injection Hn as Hn. injection Hr as Hr.
  assert (ns' = ns).
  { revert ns Hn Ha Hb. clear. intros ns Hn _ _. revert ns Hn. induction ns' as [|x l IH]; intros [|y ns] X; cbn in X; try discriminate; [reflexivity|injection X as -> X; f_equal; auto]. }
  assert (rs' = rs).
  { revert rs Hr He. clear. intros rs Hn _. revert rs Hn. induction rs' as [|x l IH]; intros [|y ns] X; cbn in X; try discriminate; [reflexivity|injection X as -> X; f_equal; auto]. }
  subst ns' rs'. destruct (N i s Hs) as (a' & b' & e' & A & B' & E' & _ & S1 & S2 & S3 & _). rewrite A in Ha. rewrite B' in Hb. rewrite E' in He. injection Ha as ->. injection Hb as ->. injection He as ->.
  cbn [fSrc fDst]. rewrite S3. split; intros T; [assert (0 <? stype s = true) as -> by lia|assert (0 <? stype s = false) as -> by lia]; rewrite S1, S2; auto.
Qed.
(** startnode and endnode are the first and the last of the nodes. *)
Theorem C64_endpoints : forall p ns, fNodes [VPath p] = Ret (VList ns) -> exists a b, fStartNode [VPath p] = Ret a /\ fEndNode [VPath p] = Ret b /\
  nth_error ns 0 = Some a /\ nth_error ns (List.length (psteps p)) = Some b.
Proof.
  intros [src steps] ns H. cbn in H. apply Ret_inj in H. injection H as <-. cbn [fStartNode fEndNode psrc psteps]. do 2 eexists. splits; try reflexivity.
  destruct steps as [|s steps _] using rev_ind; [reflexivity|]. rewrite rev_unit, app_length, map_app. cbn [List.length]. rewrite Nat.add_1_r. cbn [nth_error map].
  rewrite nth_error_app2 by (rewrite map_length; lia). rewrite map_length, Nat.sub_diag. reflexivity.
Qed.
Definition ex_path : path := mkPath (mkVertex (VInt 1) []) [mkStep (mkVertex (VInt 2) []) 3 (B "like") 0 []; mkStep (mkVertex (VInt 3) []) (-3) (B "like") 7 []].
Example C64_ex : fRelationships [VPath ex_path] = Ret (VList [VEdge (mkEdge (VInt 1) (VInt 2) 3 (B "like") 0 []); VEdge (mkEdge (VInt 2) (VInt 3) (-3) (B "like") 7 [])]) /\
  fEndNode [VPath ex_path] = Ret (VVertex (mkVertex (VInt 3) [])).
Proof. split; reflexivity. Qed.

(** * C65: head, last and tail *)
Theorem C65_head_tail : forall l x, fHead [VList (x :: l)] = Ret x /\ fTail [VList (x :: l)] = Ret (VList l) /\ fLast [VList (l ++ [x])] = Ret x.
Proof. intros l x. splits; try reflexivity. cbn. rewrite rev_unit. reflexivity. Qed.
(** Every list but the empty one has a head and a last element, and head and tail make up the list. *)
Theorem C65_defined : forall l, l <> [] -> exists h t b, fHead [VList l] = Ret h /\ fTail [VList l] = Ret (VList t) /\ fLast [VList l] = Ret b /\
  l = h :: t /\ nth_error l (List.length l - 1) = Some b.
Proof.
  intros l H. destruct l as [|x l _] using rev_ind; [contradiction|]. destruct (l ++ [x]) as [|h t] eqn:E; [destruct l; discriminate|]. exists h, t, x. splits; try reflexivity.
  - rewrite <- E. cbn. rewrite rev_unit. reflexivity.
  - rewrite <- E, app_length. cbn [List.length]. replace (List.length l + 1 - 1)%nat with (List.length l) by lia. rewrite nth_error_app2, Nat.sub_diag by lia. reflexivity.
Qed.
Example C65_ex : fHead [VList [VInt 1; VStr (B "a"); VInt 3]] = Ret (VInt 1) /\ fLast [VList [VInt 1; VStr (B "a"); VInt 3]] = Ret (VInt 3).
Proof. split; reflexivity. Qed.
(** Of the empty list head and last take an element that is not there. *)
Theorem C65_empty_refuted : fHead [VList []] = UB /\ fLast [VList []] = UB /\ fTail [VList []] = Ret (VList []).
Proof. splits; reflexivity. Qed.

(** * C66: keys *)
Definition strLt (a b : str) : Prop := strLtb a b = true.
Lemma strLtb_trans a : forall b c, strLtb a b = true -> strLtb b c = true -> strLtb a c = true.
Proof.
  induction a as [|x a IH]; intros [|y b] [|z c]; cbn; try discriminate; auto. rewrite !orb_true_iff, !andb_true_iff, !Z.eqb_eq, !Z.ltb_lt.
  intros [H1 | [H1 H1']] [H2 | [H2 H2']]; [left; lia|left; lia|left; lia|right; split; [lia|eauto]].
Qed.
Lemma strLtb_total a b : strLtb a b = false -> strLtb b a = false -> a = b.
Proof. intros H1 H2. destruct (lex_str a b) as [A1 A2], (lex_str b a) as [B1 B2]. rewrite H1 in A1. apply strEqb_eq. rewrite A2.
  revert b H1 H2 A1 A2 B1 B2. induction a as [|x a IH]; intros [|y b]; cbn; try discriminate; auto.
  intros H1 H2 _ _ _ _. apply orb_false_iff in H1, H2. destruct H1 as [H1 H1'], H2 as [H2 H2']. rewrite Z.ltb_ge in H1, H2. assert (x = y) by lia. subst y. rewrite Z.eqb_refl in *. cbn [andb] in *.
  rewrite Z.compare_refl. destruct (lex_str a b) as [A1 A2], (lex_str b a) as [B1 B2]. rewrite H1' in A1. apply (IH b); auto; congruence.
Qed.
Lemma sortedInsert_spec k l : StronglySorted strLt l -> StronglySorted strLt (sortedInsert k l) /\ forall x, In x (sortedInsert k l) <-> x = k \/ In x l.
Proof.
  induction l as [|y l IH]; intros S; cbn [sortedInsert].
  - split; [constructor; constructor|]. intros x. cbn. intuition congruence.
  - inversion S as [|? ? S1 S2]; subst. rewrite Forall_forall in S2. destruct (strLtb k y) eqn:E1.
    + split; [constructor; [exact S|]; constructor; [exact E1|apply Forall_forall; intros z Hz; exact (strLtb_trans k y z E1 (S2 z Hz))]|]. intros x. cbn. intuition congruence.
    + destruct (strLtb y k) eqn:E2.
      * destruct (IH S1) as [I1 I2]. split; [constructor; [exact I1|]; apply Forall_forall; intros z Hz; apply I2 in Hz; destruct Hz as [-> | Hz]; [exact E2|exact (S2 z Hz)]|].
        intros x. cbn. rewrite I2. intuition congruence.
      * assert (k = y) by (apply strLtb_total; assumption). subst. split; [exact S|]. intros x. cbn. intuition congruence.
Qed.
Lemma sortedSet_spec ks : StronglySorted strLt (sortedSet ks) /\ forall x, In x (sortedSet ks) <-> In x ks.
Proof.
  unfold sortedSet. assert (H : forall l, StronglySorted strLt l -> StronglySorted strLt (fold_left (fun l k => sortedInsert k l) ks l) /\
     forall x, In x (fold_left (fun l k => sortedInsert k l) ks l) <-> In x ks \/ In x l).
  { induction ks as [|k ks IH]; intros l S; cbn [fold_left]; [split; [exact S|intros x; cbn; tauto]|].
    destruct (sortedInsert_spec k l S) as [S1 S2]. destruct (IH _ S1) as [I1 I2]. split; [exact I1|]. intros x. rewrite I2, S2. cbn. intuition congruence. }
  destruct (H [] (SSorted_nil _)) as [H1 H2]. split; [exact H1|]. intros x. rewrite H2. cbn. tauto.
Qed.
(** the value has a property of this name *)
Inductive hasProp : value -> str -> Prop :=
| hp_vertex v t k x : In t (vtags v) -> In (k, x) (tgprops t) -> hasProp (VVertex v) k
| hp_edge e k x : In (k, x) (eprops e) -> hasProp (VEdge e) k
| hp_map m k x : In (k, x) m -> hasProp (VMap m) k.
(** keys lists exactly the names of the properties, strictly ascending and hence each once. *)
Theorem C66_keys : forall v, (match v with VVertex _ | VEdge _ | VMap _ => True | _ => False end) ->
  exists ks, fKeys [v] = Ret (VList (map VStr ks)) /\ StronglySorted strLt ks /\ NoDup ks /\ forall k, In k ks <-> hasProp v k.
Proof.
  assert (ND : forall ks, StronglySorted strLt ks -> NoDup ks).
  { induction ks as [|k ks IH]; intros S; constructor; inversion S as [|? ? S1 S2]; subst; auto. intros X. rewrite Forall_forall in S2. specialize (S2 k X).
    unfold strLt in S2. clear -S2. induction k as [|c k IH]; cbn in S2; [discriminate|]. rewrite Z.ltb_irrefl, Z.eqb_refl in S2. cbn in S2. auto. }
  intros v Hv. destruct v as [| | | | | | | | |v|e| | |m| |]; try contradiction; eexists; (split; [reflexivity|]);
    match goal with |- StronglySorted _ (sortedSet ?l) /\ _ => destruct (sortedSet_spec l) as [S1 S2] end; (split; [exact S1|]; split; [apply ND, S1|]); intros k; rewrite S2.
  - rewrite in_concat. split.
    + intros (l & Hl & Hk). apply in_map_iff in Hl. destruct Hl as (t & <- & Ht). apply in_map_iff in Hk. destruct Hk as ([k' x] & <- & Hx). econstructor; eassumption.
    + intros H. inversion H as [v' t k' x Ht Hx| |]; subst. exists (map fst (tgprops t)). split; [apply (in_map (fun t => map fst (tgprops t))), Ht|apply (in_map fst) in Hx; exact Hx].
  - rewrite in_map_iff. split; [intros ([k' x] & <- & H); econstructor; eassumption|]. intros H. inversion H as [|e' k' x Hx|]; subst. exists (k, x). auto.
  - rewrite in_map_iff. split; [intros ([k' x] & <- & H); econstructor; eassumption|]. intros H. inversion H as [| |m' k' x Hx]; subst. exists (k, x). auto.
Qed.
Example C66_ex : fKeys [VVertex (mkVertex (VInt 1) [mkTag (B "t") [(B "b", VInt 1); (B "a", VInt 2)]; mkTag (B "u") [(B "a", VInt 3)]])] = Ret (VList [VStr (B "a"); VStr (B "b")]).
Proof. reflexivity. Qed.

(** * C67: endpoints of an edge *)
(** For positive types src and dst are the ids of the start and the end node, ... *)
Theorem C67_start_is_src : forall e, 0 < etype e -> exists a b, fStartNode [VEdge e] = Ret (VVertex a) /\ fEndNode [VEdge e] = Ret (VVertex b) /\
  fSrc [VEdge e] = Ret (vvid a) /\ fDst [VEdge e] = Ret (vvid b).
Proof.
  intros e H. exists (mkVertex (esrc e) []), (mkVertex (edst e) []). splits; try reflexivity; cbn [fSrc fDst]; assert (0 <? etype e = true) as -> by lia; reflexivity.
Qed.
(** ... and reversing does not change src and dst, for every type but 0 and the least one. *)
Theorem C67_reverse_keeps_src : forall e, etype e <> 0 -> int32_min < etype e -> exists e', edgeReverse e = Ret e' /\
  fSrc [VEdge e'] = fSrc [VEdge e] /\ fDst [VEdge e'] = fDst [VEdge e].
Proof.
  intros e H0 H1. unfold edgeReverse, negType. assert (etype e =? int32_min = false) as -> by lia. eexists. split; [reflexivity|]. cbn [fSrc fDst etype esrc edst].
  destruct (Z.ltb_spec 0 (etype e)); destruct (Z.ltb_spec 0 (- etype e)); try lia; split; reflexivity.
Qed.
Example C67_ex : fSrc [VEdge (mkEdge (VInt 1) (VInt 2) (-3) (B "like") 0 [])] = Ret (VInt 2) /\ fDst [VEdge (mkEdge (VInt 1) (VInt 2) (-3) (B "like") 0 [])] = Ret (VInt 1).
Proof. split; reflexivity. Qed.
(** For negative types start and end node are the other way round, reversing an edge swaps them, and for type 0 src
    and dst change too. *)
Theorem C67_negative_type_refuted : exists e a, etype e < 0 /\ fStartNode [VEdge e] = Ret (VVertex a) /\ fSrc [VEdge e] <> Ret (vvid a).
Proof. exists (mkEdge (VInt 1) (VInt 2) (-3) [] 0 []). eexists. splits; [cbn; lia|reflexivity|]. cbn. congruence. Qed.
Theorem C67_reverse_start_refuted : exists e e', edgeReverse e = Ret e' /\ fStartNode [VEdge e'] <> fStartNode [VEdge e].
Proof. exists (mkEdge (VInt 1) (VInt 2) 3 [] 0 []). eexists. split; [reflexivity|]. cbn. congruence. Qed.
Theorem C67_type_zero_refuted : exists e e', edgeReverse e = Ret e' /\ fSrc [VEdge e'] <> fSrc [VEdge e].
Proof. exists (mkEdge (VInt 1) (VInt 2) 0 [] 0 []). eexists. split; [reflexivity|]. vm_compute. discriminate. Qed.

(** * C68: cells of a data set *)
(** In a data set whose rows have a cell for every column, the addressed cell is returned, or bad data for an
    address outside, and nothing outside is read. *)
Definition wide (d : dataset) : Prop := forall r, In r (drows d) -> (List.length (dcols d) <= List.length r)%nat.
Theorem C68_cell : forall d row col, wide d ->
  (forall r v, 0 <= row -> 0 <= col < sizeOf (dcols d) -> nth_error (drows d) (Z.to_nat row) = Some r -> nth_error r (Z.to_nat col) = Some v ->
     fRowCol [VDataSet d; VInt row; VInt col] = Ret v) /\
  (row < 0 \/ sizeOf (drows d) <= row \/ col < 0 \/ sizeOf (dcols d) <= col -> fRowCol [VDataSet d; VInt row; VInt col] = Ret (VNull NBadData)) /\
  fRowCol [VDataSet d; VInt row; VInt col] <> UB.
Proof.
  intros d row col W. cbn [fRowCol]. unfold sizeOf.
  assert (K : 0 <= row < Z.of_nat (List.length (drows d)) -> 0 <= col < Z.of_nat (List.length (dcols d)) ->
     exists r v, nth_error (drows d) (Z.to_nat row) = Some r /\ nth_error r (Z.to_nat col) = Some v).
  { intros H1 H2. destruct (nth_error (drows d) (Z.to_nat row)) as [r|] eqn:E; [|apply nth_error_None in E; lia]. pose proof (W r (nth_error_In _ _ E)) as Wr.
    destruct (nth_error r (Z.to_nat col)) as [v|] eqn:E'; [|apply nth_error_None in E'; lia]. exists r, v. auto. }
  splits.
  - intros r v Hr Hc Er Ev. assert (Z.to_nat row < List.length (drows d))%nat by (apply nth_error_Some; congruence).
    assert ((Z.of_nat (List.length (drows d)) <? 1) || (Z.of_nat (List.length (dcols d)) <? 1) = false) as -> by lia. assert ((row <? 0) || (col <? 0) = false) as -> by lia.
    assert ((Z.of_nat (List.length (drows d)) <=? row) || (Z.of_nat (List.length (dcols d)) <=? col) = false) as -> by lia. rewrite Er, Ev. reflexivity.
  - intros H. destruct ((Z.of_nat (List.length (drows d)) <? 1) || (Z.of_nat (List.length (dcols d)) <? 1)) eqn:A; [reflexivity|]. destruct ((row <? 0) || (col <? 0)) eqn:A'; [reflexivity|].
    assert ((Z.of_nat (List.length (drows d)) <=? row) || (Z.of_nat (List.length (dcols d)) <=? col) = true) as -> by lia. reflexivity.
  - destruct ((Z.of_nat (List.length (drows d)) <? 1) || (Z.of_nat (List.length (dcols d)) <? 1)) eqn:A; [discriminate|]. destruct ((row <? 0) || (col <? 0)) eqn:A'; [discriminate|].
    destruct ((Z.of_nat (List.length (drows d)) <=? row) || (Z.of_nat (List.length (dcols d)) <=? col)) eqn:A''; [discriminate|]. destruct K as (r & v & -> & ->); [lia|lia|discriminate].
Qed.
(** A column given by name is the first column with this name; an unknown name gives bad data. *)
Theorem C68_named_column : forall d row c, (forall i, nth_error (dcols d) i = Some c -> (forall j, (j < i)%nat -> nth_error (dcols d) j <> Some c) ->
    fRowCol [VDataSet d; VInt row; VStr c] = fRowCol [VDataSet d; VInt row; VInt (Z.of_nat i)]) /\
  (~ In c (dcols d) -> fRowCol [VDataSet d; VInt row; VStr c] = Ret (VNull NBadData)).
Proof.
  intros d row c. split.
  - intros i H1 H2. cbn [fRowCol]. assert (indexOf c (dcols d) = Some i) as ->; [|reflexivity]. revert i H1 H2. induction (dcols d) as [|x l IH]; intros i H1 H2; [destruct i; discriminate|].
    cbn [indexOf]. destruct (strEqb x c) eqn:E.
    + apply strEqb_eq in E. subst. destruct i as [|i]; [reflexivity|]. destruct (H2 0%nat ltac:(lia) eq_refl).
    + destruct i as [|i]; [cbn in H1; injection H1 as ->; rewrite strEqb_refl in E; discriminate|]. rewrite (IH i H1); [reflexivity|]. intros j Hj. exact (H2 (S j) ltac:(lia)).
  - intros H. cbn [fRowCol]. assert (indexOf c (dcols d) = None) as ->.
    { induction (dcols d) as [|x l IH]; [reflexivity|]. cbn. destruct (strEqb x c) eqn:E; [apply strEqb_eq in E; subst; exfalso; apply H; left; reflexivity|]. rewrite IH; [reflexivity|]. intros X; apply H; right; exact X. }
    unfold sizeOf. destruct ((Z.of_nat (List.length (drows d)) <? 1) || (Z.of_nat (List.length (dcols d)) <? 1)); [reflexivity|]. destruct ((row <? 0) || (Z.of_nat (List.length (dcols d)) <? 0)); [reflexivity|].
    rewrite Z.leb_refl, orb_true_r. reflexivity.
Qed.
Example C68_ex : fRowCol [VDataSet (mkDataSet [B "a"; B "b"] [[VInt 1; VInt 2]; [VInt 3; VInt 4]]); VInt 1; VStr (B "b")] = Ret (VInt 4).
Proof. reflexivity. Qed.
(** A row shorter than the column names is read past its end. *)
Theorem C68_short_row_refuted : exists d row col, 0 <= row < sizeOf (drows d) /\ 0 <= col < sizeOf (dcols d) /\ fRowCol [VDataSet d; VInt row; VInt col] = UB.
Proof. exists (mkDataSet [B "a"; B "b"] [[VInt 1]]), 0, 1. splits; try reflexivity; cbn; lia. Qed.

Print Assumptions C63_split.
Print Assumptions C63_cuts_unique.
Print Assumptions C63_replace.
Print Assumptions C63_other_arguments.
Print Assumptions C64_connected.
Print Assumptions C64_direction.
Print Assumptions C64_endpoints.
Print Assumptions C65_defined.
Print Assumptions C66_keys.
Print Assumptions C67_start_is_src.
Print Assumptions C67_reverse_keeps_src.
Print Assumptions C68_cell.
Print Assumptions C68_named_column.
