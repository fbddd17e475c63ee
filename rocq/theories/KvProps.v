(** * C133, C134: key-value calls and questions about spaces *)
From Coq Require Import String List Lia ZArith Bool.
From Verif Require Import Prelude ValueBase ValueModel AssocModel ClusterModel ClusterProps KvModel.
Import ListNotations.
Local Open Scope Z_scope.
Local Open Scope list_scope.

(** ** C133 *)
(** letters and digits of ASCII *)
Definition alnum (c : Z) : Prop := 48 <= c <= 57 \/ 65 <= c <= 90 \/ 97 <= c <= 122.
Definition goodSegment (s : str) : Prop := s <> [] /\ Forall alnum s.
Lemma checkSegment_spec s : checkSegment s = true <-> goodSegment s.
Proof.
  assert (A : forall c, segChar c = true <-> alnum c) by (intros c; unfold segChar, alnum; lia).
  assert (F : forallb segChar s = true <-> Forall alnum s) by (rewrite forallb_forall, Forall_forall; split; intros H x I; apply A, H, I).
  unfold goodSegment. destruct s as [|c s]; cbn [checkSegment]; [split; [discriminate|intros [N _]; contradiction]|]. rewrite F. split; [intros H; split; [discriminate|exact H]|tauto].
Qed.
Lemma emptyL_spec {A} (l : list A) : emptyL l = false <-> l <> [].
Proof. destruct l; cbn; split; congruence. Qed.
(** a call of the client: which one, with which arguments *)
Inductive kvCall :=
| CMultiPut (segment : str) (pairs : list (str * str)) | CGet (segment key : str) | CMultiGet (segment : str) (keys : list str)
| CScan (segment start fin : str) | CRemove (segment key : str) | CRemoveRange (segment start fin : str).
Definition made (q : kvCall) : option kvRequest :=
  match q with
  | CMultiPut s l => multiPut s l | CGet s k => kvGet s k | CMultiGet s l => multiGet s l
  | CScan s a b => kvScan s a b | CRemove s k => kvRemove s k | CRemoveRange s a b => removeRange s a b
  end.
(** a call is in order when its segment is, and none of its arguments is empty *)
Definition inOrder (q : kvCall) : Prop :=
  match q with
  | CMultiPut s l => goodSegment s /\ l <> [] | CGet s k => goodSegment s /\ k <> [] | CMultiGet s l => goodSegment s /\ l <> []
  | CScan s a b => goodSegment s /\ a <> [] /\ b <> [] | CRemove s k => goodSegment s /\ k <> [] | CRemoveRange s a b => goodSegment s /\ a <> [] /\ b <> []
  end.
Definition asks (q : kvCall) (r : kvRequest) : Prop :=
  match q with
  | CMultiPut s l => r = RqMultiPut s l | CGet s k => r = RqGet s k | CMultiGet s l => r = RqMultiGet s l
  | CScan s a b => r = RqScan s a b | CRemove s k => r = RqRemove s k | CRemoveRange s a b => r = RqRemoveRange s a b
  end.
Definition segmentOf (r : kvRequest) : str :=
  match r with RqMultiPut s _ | RqGet s _ | RqMultiGet s _ | RqScan s _ _ | RqRemove s _ | RqRemoveRange s _ _ => s end.
(** A request is sent exactly for the calls that are in order, and it says what the call said. *)
Theorem C133_sent : forall q r, made q = Some r <-> inOrder q /\ asks q r.
Proof.
  assert (M : forall l : list (str * str), map (fun p => (fst p, snd p)) l = l) by (induction l as [|[k v] l IH]; cbn; [reflexivity|rewrite IH; reflexivity]).
  assert (X1 : forall (A : Type) s (l : list A) (rr r : kvRequest), (if negb (checkSegment s) || emptyL l then None else Some rr) = Some r <-> (goodSegment s /\ l <> []) /\ r = rr).
  { intros A s l rr r. pose proof (checkSegment_spec s) as C. pose proof (emptyL_spec l) as E. destruct (checkSegment s), (emptyL l); cbn; intuition congruence. }
  assert (X2 : forall s (a b : str) (rr r : kvRequest), (if negb (checkSegment s) || emptyL a || emptyL b then None else Some rr) = Some r <-> (goodSegment s /\ a <> [] /\ b <> []) /\ r = rr).
  { intros s a b rr r. pose proof (checkSegment_spec s) as C. pose proof (emptyL_spec a) as E1. pose proof (emptyL_spec b) as E2. destruct (checkSegment s), (emptyL a), (emptyL b); cbn; intuition congruence. }
  intros [s l|s k|s l|s a b|s k|s a b] r; cbn [made inOrder asks]; try apply X1; try apply X2. unfold multiPut. rewrite M. apply X1.
Qed.
(** No such call reads, writes or removes what is kept for the defaults of fields. *)
Theorem C133_defaults_apart : forall q r space id field, made q = Some r -> segmentOf r <> segmentOf (tagDefault space id field) /\ segmentOf r <> segmentOf (edgeDefault space id field).
Proof.
  intros q r space id field H. assert (S : goodSegment (segmentOf r)) by (apply C133_sent in H; destruct q; cbn [inOrder asks] in H; destruct H as [H ->]; apply H).
  assert (~ goodSegment defaultSegment) by (intros [_ F]; inversion F as [|c l A]; unfold alnum in A; lia).
  split; intros E; rewrite E in S; contradiction.
Qed.
(** The request for a default says which space, which number and which field. *)
Definition int32 (z : Z) : Prop := int32_min <= z <= int32_max.
Lemma le4_inj a b : int32 a -> int32 b -> leBytes 4 a = leBytes 4 b -> a = b.
Proof.
  unfold int32. intros Ha Hb E. apply (f_equal leUnsigned) in E. rewrite !leUnsigned_bytes in E. change (256 ^ Z.of_nat 4) with 4294967296 in E. unfold int32_min, int32_max in *. lia.
Qed.
Theorem C133_default_key : forall s1 s2 t1 t2 f1 f2, int32 s1 -> int32 s2 -> int32 t1 -> int32 t2 ->
  (tagDefault s1 t1 f1 = tagDefault s2 t2 f2 <-> s1 = s2 /\ t1 = t2 /\ f1 = f2) /\
  (edgeDefault s1 t1 f1 = edgeDefault s2 t2 f2 <-> s1 = s2 /\ t1 = t2 /\ f1 = f2).
Proof.
  intros s1 s2 t1 t2 f1 f2 H1 H2 H3 H4. assert (K : defaultKey s1 t1 f1 = defaultKey s2 t2 f2 <-> s1 = s2 /\ t1 = t2 /\ f1 = f2).
  { split; [|intros (-> & -> & ->); reflexivity]. unfold defaultKey. intros E.
    assert (E1 := f_equal (firstn 4) E). assert (E2 := f_equal (skipn 4) E). pose proof (fun z => leBytes_length 4 z) as L.
    rewrite !firstn_app, !L, !firstn_all2 in E1 by (rewrite L; lia). cbn [Nat.sub firstn] in E1. rewrite !app_nil_r in E1. apply le4_inj in E1; [|assumption..]. split; [exact E1|].
    rewrite !skipn_app, !L, !skipn_all2 in E2 by (rewrite L; lia). cbn [Nat.sub skipn app] in E2.
    assert (E3 := f_equal (firstn 4) E2). assert (E4 := f_equal (skipn 4) E2).
    rewrite !firstn_app, !L, !firstn_all2 in E3 by (rewrite L; lia). cbn [Nat.sub firstn] in E3. rewrite !app_nil_r in E3. apply le4_inj in E3; [|assumption..]. split; [exact E3|].
    rewrite !skipn_app, !L, !skipn_all2 in E4 by (rewrite L; lia). exact E4. }
  unfold tagDefault, edgeDefault. rewrite <- K. split; (split; [intros X; exact (f_equal (fun r => match r with RqGet _ k => k | _ => [] end) X)|intros ->; reflexivity]).
Qed.
(** It is not so that tags and edges are told apart: a tag and an edge type with the same number have the same request. *)
Theorem C133_tag_edge_refuted : forall space id field, tagDefault space id field = edgeDefault space id field.
Proof. reflexivity. Qed.
Example C133_ex : made (CMultiPut (B "Seg1") [(B "b", B "2"); (B "a", [])]) = Some (RqMultiPut (B "Seg1") [(B "b", B "2"); (B "a", [])]) /\
  made (CMultiPut (B "Seg1") []) = None /\ made (CGet (B "seg_1") (B "k")) = None /\ made (CGet [] (B "k")) = None /\ made (CScan (B "s") (B "a") []) = None /\
  made (CRemoveRange (B "s") (B "a") (B "b")) = Some (RqRemoveRange (B "s") (B "a") (B "b")) /\
  tagDefault 1 (-2) (B "age") = RqGet (B "__default__") ([1; 0; 0; 0; 254; 255; 255; 255] ++ B "age").
Proof. splits; vm_compute; reflexivity. Qed.

(** ** C134 *)
(** what the cache knows of a space *)
Definition known (ready : bool) (c : spaces) (s : Z) (d : spaceDesc) : Prop := ready = true /\ aget Z.eqb s c = Some d.
(** Every question is answered exactly for known spaces whose description fits, from the description. *)
Theorem C134_answers : forall ready c s,
  (forall d, getSpaceDesc ready c s = Some d <-> known ready c s d) /\
  (forall n, getSpaceVidLen ready c s = Some n <-> exists d, known ready c s d /\ sdLen d = Some n /\ 0 < n) /\
  (forall t, getSpaceVidType ready c s = Some t <-> exists d, known ready c s d /\ sdType d = t /\ (t = tyINT64 \/ t = tyFIXED)) /\
  (forall i, getIsolationLevel ready c s = Some i <-> exists d, known ready c s d /\ (sdIso d = Some i \/ sdIso d = None /\ i = isoDEFAULT)).
Proof.
  intros ready c s. unfold getIsolationLevel, getSpaceDesc, getSpaceVidLen, getSpaceVidType, known. destruct ready; cbn [negb].
  2:{ splits; intros x; (split; [discriminate|]); intros H; [destruct H|destruct H as (d & H & _)..]; try discriminate; destruct H; discriminate. }
  destruct (aget Z.eqb s c) as [d|]; splits; intros x.
  - split; [intros H; split; [reflexivity|exact H]|intros [_ H]; exact H].
  - destruct (sdLen d) as [n|] eqn:L; cbv zeta.
    + destruct (n <=? 0) eqn:Q; split; try discriminate.
      * intros (d' & [_ E] & L' & P). injection E as <-. rewrite L in L'. injection L' as <-. lia.
      * intros E. injection E as <-. exists d. splits; [reflexivity..|exact L|lia].
      * intros (d' & [_ E] & L' & P). injection E as <-. congruence.
    + split; [discriminate|]. intros (d' & [_ E] & L' & P). injection E as <-. congruence.
  - destruct (negb (sdType d =? tyINT64) && negb (sdType d =? tyFIXED)) eqn:Q; split; try discriminate.
    + intros (d' & [_ E] & T & P). injection E as <-. lia.
    + intros E. injection E as <-. exists d. splits; [reflexivity..|lia].
    + intros (d' & [_ E] & T & P). injection E as <-. congruence.
  - split.
    + intros E. injection E as <-. exists d. splits; [reflexivity..|]. destruct (sdIso d); auto.
    + intros (d' & [_ E] & P). injection E as <-. destruct P as [-> | [-> ->]]; reflexivity.
  - split; [discriminate|intros [_ H]; exact H].
  - split; [discriminate|intros (d & [_ H] & _); discriminate].
  - split; [discriminate|intros (d & [_ H] & _); discriminate].
  - split; [discriminate|intros (d & [_ H] & _); discriminate].
Qed.
(** It is not so that a space with a type for its ids has a length for them: a description with integer ids need not say their length. *)
Theorem C134_length_refuted : exists c s, getSpaceVidType true c s = Some tyINT64 /\ getSpaceVidLen true c s = None.
Proof. exists [(1, mkSD tyINT64 None None)], 1. split; reflexivity. Qed.
Example C134_ex : let c := [(1, mkSD tyFIXED (Some 8) None); (2, mkSD tyINT64 (Some 8) (Some isoTOSS)); (3, mkSD 6 (Some (-1)) None)] in
  getSpaceVidLen true c 1 = Some 8 /\ getSpaceVidType true c 2 = Some tyINT64 /\ getSpaceVidType true c 3 = None /\ getSpaceVidLen true c 3 = None /\
  getIsolationLevel true c 1 = Some isoDEFAULT /\ getIsolationLevel true c 2 = Some isoTOSS /\ getSpaceDesc false c 1 = None /\ getSpaceVidLen true c 4 = None.
Proof. cbv zeta. splits; reflexivity. Qed.

Print Assumptions C133_sent. Print Assumptions C133_defaults_apart. Print Assumptions C133_default_key. Print Assumptions C133_tag_edge_refuted.
Print Assumptions C134_answers. Print Assumptions C134_length_refuted.
