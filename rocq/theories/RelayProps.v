(** C192: an expression read from any bytes can be sent on. *)
From Coq Require Import String List.
From Verif Require Import Prelude ValueBase DateModel TimeModel HashModel ValueModel ValueProofs ExprModel ExprSpec ExprProofs EvalModel EvalProps WireModel WireSpec WireProofs WireProps
  SoundSpec SoundWireProps ReceiveProofs ReceiveProps RelayProofs.
Import ListNotations.
Local Open Scope list_scope.
Open Scope Z_scope.

(** No column (C31), no empty uuid, no range without ends, and edges whose types say only the direction *)
Definition passable (k : kind) : Prop :=
  match k with KColumn _ => False | KUUID f => f <> [] | KRange lo hi => lo || hi = true | KConst v => directed v | _ => True end.

Lemma codec_reads X b v r : bytes b -> vdec (wireCodec X) b = Some (v, r) -> (sound X v /\ compact v) /\ bytes r /\ (List.length r <= List.length b)%nat.
Proof.
  intros Hb H. cbn [vdec wireCodec] in H. destruct (readWire X b) as [v' r'| | | | |] eqn:R; try discriminate. injection H as -> ->. split; [exact (C191_values X b v r Hb R)|].
  destruct (C77_reads_from_the_front X b v r R) as (p & -> & _). split; [unfold bytes in *; now apply Forall_app in Hb|]. rewrite app_length. lia.
Qed.
Lemma decoded_good X b e : Forall (fun x => 0 <= x < 256) b -> Z.of_nat (List.length b) < 2 ^ 63 -> decode (wireCodec X) b = Ret (Some e) -> good (fun v => sound X v /\ compact v) e.
Proof. intros Hb Lb H. exact (t_decode (wireCodec X) _ (codec_reads X) b e Hb Lb H). Qed.
Lemma value_sendable X v : sound X v -> compact v -> directed v -> sendable X v.
Proof. exact (sound_sendable (mkEnv X (eRegex E0) (eFun E0) (eNoVar E0) (eVersioned E0) (eVarProp E0) (eEdgeProp E0) (eTagProp E0) (eSrcProp E0) (eDstProp E0) (eInput E0) (eColumn E0) (eVertex E0) (eEdge E0)) v). Qed.

(** Written again, it is read as it was *)
Theorem C192_passed_on : forall X b e, Forall (fun x => 0 <= x < 256) b -> Z.of_nat (List.length b) < 2 ^ 63 -> decode (wireCodec X) b = Ret (Some e) ->
  allNodes (fun k _ => passable k) e -> exists b', encode (wireCodec X) e = Ret b' /\ decode (wireCodec X) b' = Ret (Some e).
Proof.
  intros X b e Hb Lb H Hp. apply C30_roundtrip_on_the_wire. pose proof (decoded_good X b e Hb Lb H) as G. clear H Hb Lb. unfold wireable, good in *. induction e as [k cs IH] using expr_ind'.
  destruct Hp as [P1 P2]. destruct G as [G1 G2]. rewrite fold_and_Forall in *. split.
  - destruct k; cbn [readNode passable wireNode] in *; try exact G1; try contradiction.
    + destruct G1 as (A & S & C). split; [exact A|]. split; [now apply value_sendable|exact P1].
    + split; assumption.
    + destruct G1 as [-> S]. split; [reflexivity|]. split; assumption.
  - apply fold_and_Forall. rewrite Forall_forall in *. auto.
Qed.
(** Writing ends the process only for a uuid without text *)
Theorem C192_can_be_written : forall X b e, Forall (fun x => 0 <= x < 256) b -> Z.of_nat (List.length b) < 2 ^ 63 -> decode (wireCodec X) b = Ret (Some e) ->
  allNodes (fun k _ => k <> KUUID []) e -> exists b', encode (wireCodec X) e = Ret b'.
Proof.
  intros X b e Hb Lb H Hp. pose proof (decoded_good X b e Hb Lb H) as G. clear H Hb Lb. unfold good in *. induction e as [k cs IH] using expr_ind'.
  destruct Hp as [P1 P2]. destruct G as [G1 G2]. rewrite fold_and_Forall in *.
  assert (B : exists bs, obindList (map (encode (wireCodec X)) cs) = Ret bs /\ List.length bs = List.length cs).
  { clear P1 G1. induction cs as [|c cs IHc]; [exists []; auto|]. apply Forall_cons_iff in IH as [I1 I2]. apply Forall_cons_iff in P2 as [P1 P2]. apply Forall_cons_iff in G2 as [G1 G2].
    destruct (I1 P1 G1) as [x Hx]. destruct (IHc I2 P2 G2) as (bs & Hbs & L). exists (x :: bs). cbn. rewrite Hx. cbn. cbn in Hbs. rewrite Hbs. cbn. split; [reflexivity|now rewrite L]. }
  destruct B as (bs & B & L). cbn [encode]. rewrite B. cbn [obind].
  assert (K : exists x, encBody (wireCodec X) k bs = Ret x).
  { clear B IH P2 G2. destruct k; cbn [readNode wireNode] in G1; try contradiction.
    all: try match goal with H : KRange ?lo ?hi <> _ |- _ => destruct lo, hi end.
    all: repeat match goal with H : _ /\ _ |- _ => destruct H end; subst.
    all: try match goal with H : List.length ?l = _, M : _ = List.length ?l |- _ => rewrite H in M; cbn [bit Nat.add] in M end; cbn [List.length] in L.
    all: try (destruct bs as [|x1 [|x2 [|x3 [|x4 bs]]]]; try discriminate L; cbn [encBody]; try (eexists; reflexivity)).
    destruct field as [|z field]; [now destruct P1|]. eexists. reflexivity. }
  destruct K as [x ->]. cbn [obind]. eexists. reflexivity.
Qed.
(** {1, 1} == n, the member of the set sent twice; and a cast to an unknown type of a call without a name, with bytes after it *)
Definition oddExprs : list (str * str) :=
  [([11; 0; 236; 26; 44; 54; 2; 0; 54; 2; 0; 0; 0; 48; 1; 0; 0; 0; 0; 0; 0; 0; 110], [11; 0; 236; 26; 28; 54; 2; 0; 0; 0; 48; 1; 0; 0; 0; 0; 0; 0; 0; 110]);
   ([33; 255; 0; 0; 0; 0; 0; 0; 0; 34; 0; 0; 0; 0; 0; 0; 0; 0; 1; 0; 0; 0; 0; 0; 0; 0; 45; 7; 7], [33; 255; 0; 0; 0; 0; 0; 0; 0; 34; 0; 0; 0; 0; 0; 0; 0; 0; 1; 0; 0; 0; 0; 0; 0; 0; 45])].
Example C192_ex : forall b b', In (b, b') oddExprs -> exists e, Forall (fun x => 0 <= x < 256) b /\ Z.of_nat (List.length b) < 2 ^ 63 /\ decode (wireCodec (eX E0)) b = Ret (Some e) /\ allNodes (fun k _ => passable k) e /\
  encode (wireCodec (eX E0)) e = Ret b' /\ allNodes (fun k _ => k <> KUUID []) e.
Proof.
  intros b b' H. cbn in H. decompose [or] H; try contradiction; match goal with Q : (_, _) = (_, _) |- _ => injection Q as <- <- end; eexists; (split; [repeat (apply Forall_cons; [lia|]); apply Forall_nil|]); (split; [cbn; lia|]); (split; [vm_compute; reflexivity|]).
  - split; [|split; [vm_compute; reflexivity|cbn; repeat apply conj; first [exact I|discriminate]]]. cbn. repeat apply conj; try exact I. constructor; [exact I|]. intros c [<-|[]]. constructor; [exact I|intros ? []].
  - split; [cbn; repeat apply conj; exact I|split; [vm_compute; reflexivity|cbn; repeat apply conj; first [exact I|discriminate]]].
Qed.
(** A uuid without text is read, and ends the process when it is written *)
Theorem C192_empty_uuid_refuted : forall X, decode (wireCodec X) [47; 0; 0; 0; 0; 0; 0; 0; 0] = Ret (Some (Node (KUUID []) [])) /\ encode (wireCodec X) (Node (KUUID []) []) = Fatal.
Proof. intros X. split; vm_compute; reflexivity. Qed.
(** A range with neither end is read; written, it lacks a size, and reading that leaves the buffer *)
Theorem C192_open_range_refuted : forall X, exists b e b', decode (wireCodec X) b = Ret (Some e) /\ e = Node (KRange false false) [Node KVertex []] /\ encode (wireCodec X) e = Ret b' /\ decode (wireCodec X) b' = UB.
Proof. intros X. exists [68; 45; 1; 0; 0; 0; 0; 0; 0; 0; 5; 0; 0; 0; 0; 0; 0; 0]. do 2 eexists. split; [vm_compute; reflexivity|]. split; [reflexivity|]. split; [vm_compute; reflexivity|]. vm_compute. reflexivity. Qed.
Print Assumptions C192_passed_on.
Print Assumptions C192_can_be_written.
Print Assumptions C192_empty_uuid_refuted.
Print Assumptions C192_open_range_refuted.
