(** C191: whatever bytes arrive, what is read from them is as the types allow. *)
From Coq Require Import String List.
From Verif Require Import Prelude ValueBase DateModel TimeModel HashModel ValueModel ValueProofs ExprModel ExprSpec ExprProofs EvalModel EvalSpec EvalProofs EvalProps ValueProps WireModel WireSpec WireProofs WireProps
  FaultSpec SoundSpec SoundProofs SoundProps SoundWireProps ReceiveProofs.
Import ListNotations.
Local Open Scope list_scope.
Open Scope Z_scope.

(** Values: 64-bit integers, members within their types, distinct keys, sets without a member twice, at every depth (C187);
    texts are bytes, sizes fit an int32, doubles are doubles (C189) *)
Theorem C191_values : forall X s v r, Forall (fun b => 0 <= b < 256) s -> readWire X s = Got v r -> sound X v /\ compact v.
Proof. intros X s v r Hs H. pose proof (r_value X (S (List.length s)) VEmpty s (fine_empty X) Hs) as G. unfold readWire in H. rewrite H in G. apply G. Qed.
(** What was read from anywhere can be passed on, and arrives as it was *)
Theorem C191_passed_on : forall X s v r, Forall (fun b => 0 <= b < 256) s -> readWire X s = Got v r -> directed v -> readWire X (putValue v) = Got v [].
Proof.
  intros X s v r Hs H D. destruct (C191_values X s v r Hs H) as [A1 A2]. apply C76_directions_arrive_whole; [|exact D].
  exact (sound_sendable (mkEnv X (eRegex E0) (eFun E0) (eNoVar E0) (eVersioned E0) (eVarProp E0) (eEdgeProp E0) (eTagProp E0) (eSrcProp E0) (eDstProp E0) (eInput E0) (eColumn E0) (eVertex E0) (eEdge E0)) v A1 A2 D).
Qed.
(** Expressions: their constants are such values *)
Theorem C191_expressions : forall X b e, Forall (fun x => 0 <= x < 256) b -> decode (wireCodec X) b = Ret (Some e) ->
  allNodes (fun k _ => match k with KConst v => sound X v /\ compact v | _ => True end) e.
Proof.
  intros X b e Hb H. refine (g_decode (wireCodec X) (fun v => sound X v /\ compact v) _ b e Hb H). clear. intros b v r Hb H. cbn [vdec wireCodec] in H.
  pose proof (r_value X (S (List.length b)) VEmpty b (fine_empty X) Hb) as G. unfold readWire in H. destruct (getValue _ _ _ _); try discriminate. injection H as <- <-. exact G.
Qed.
(** ... so that evaluating them gives such values *)
Theorem C191_evaluated : forall E b e c v k' c', Forall (fun x => 0 <= x < 256) b -> decode (wireCodec (eX E)) b = Ret (Some e) -> soundEnv E -> holds (sound (eX E)) c ->
  eval E e noCache c = Ret (v, k', c') -> sound (eX E) v /\ holds (sound (eX E)) c'.
Proof.
  intros E b e c v k' c' Hb H HE Hc Ev.
  assert (C : soundConsts (eX E) e).
  { pose proof (C191_expressions _ b e Hb H) as A. clear - A. unfold soundConsts. induction e as [k cs IH] using expr_ind'. destruct A as [A1 A2]. split; [destruct k; auto; apply A1|]. rewrite fold_and_Forall in *. rewrite Forall_forall in *. auto. }
  destruct (C187_sound E e noCache c v k' c' HE C (kept_none E) Hc Ev) as (R1 & _ & R3). auto.
Qed.
(** A map with a key twice, a set with a member twice, a month of 255, an integer of more than 64 bits *)
Definition oddBytes : list (str * value) :=
  [([220; 27; 2; 140; 1; 97; 54; 2; 0; 1; 97; 54; 4; 0; 0; 0], VMap [(B "a", VInt 2)]);
   ([236; 26; 44; 54; 2; 0; 54; 2; 0; 0; 0], VSet [VInt 1]);
   ([140; 35; 255; 0; 0], VDateTime (mkDT 0 15 1 0 0 0 0));
   ([54; 255; 255; 255; 255; 255; 255; 255; 255; 255; 127; 0], VInt (- 2 ^ 63))].
Example C191_values_ex : forall s v, In (s, v) oddBytes -> Forall (fun b => 0 <= b < 256) s /\ readWire (eX E0) s = Got v [] /\ directed v.
Proof.
  assert (L : forall v, subvals v = [] -> match v with VEdge _ | VPath _ => False | _ => True end -> directed v) by (intros v N K; constructor; [destruct v; exact I || contradiction|rewrite N; intros ? []]).
  intros s v H. cbn in H. decompose [or] H; try contradiction; match goal with Q : (_, _) = (_, _) |- _ => injection Q as <- <- end;
    (split; [repeat (apply Forall_cons; [lia|]); apply Forall_nil|split; [vm_compute; reflexivity|]]); try (apply L; [reflexivity|exact I]); (constructor; [exact I|]); intros c [<-|[]]; apply L; [reflexivity|exact I|reflexivity|exact I].
Qed.
(** A set with two edges from anywhere that differ only in their type; passed on, one of them is lost *)
Definition edgeBytes (t : Z) : str := [172; 28; 54; 2; 0; 28; 54; 4; 0; 21; t; 24; 4; 108; 105; 107; 101; 22; 0; 27; 1; 140; 1; 119; 54; 14; 0; 0; 0].
Theorem C191_everything_passed_on_refuted : exists s v w, Forall (fun b => 0 <= b < 256) s /\ readWire (eX E0) s = Got v [] /\ readWire (eX E0) (putValue v) = Got w [] /\
  v = VSet [VEdge (exEdge 5); VEdge (exEdge 7)] /\ w = VSet [VEdge (exEdge 1)].
Proof.
  exists (236 :: 26 :: 44 :: edgeBytes 10 ++ edgeBytes 14 ++ [0; 0]), (VSet [VEdge (exEdge 5); VEdge (exEdge 7)]), (VSet [VEdge (exEdge 1)]).
  split; [cbn; repeat (apply Forall_cons; [lia|]); apply Forall_nil|]. split; [vm_compute; reflexivity|]. split; [vm_compute; reflexivity|]. split; reflexivity.
Qed.
(** {1, 1} == n, with {1} for n *)
Example C191_evaluated_ex : let b := [11; 0; 236; 26; 44; 54; 2; 0; 54; 2; 0; 0; 0; 48; 1; 0; 0; 0; 0; 0; 0; 0; 110] in exists e k c, Forall (fun x => 0 <= x < 256) b /\ decode (wireCodec (eX E0)) b = Ret (Some e) /\
  holds (sound (eX E0)) [(B "n", VSet [VInt 1])] /\ eval E0 e noCache [(B "n", VSet [VInt 1])] = Ret (VBool true, k, c).
Proof.
  cbv zeta. do 3 eexists. split; [repeat (apply Forall_cons; [lia|]); apply Forall_nil|]. split; [vm_compute; reflexivity|]. split; [|vm_compute; reflexivity].
  apply Forall_cons; [|apply Forall_nil]. apply (C191_values (eX E0) [236; 26; 44; 54; 2; 0; 54; 2; 0; 0; 0] _ []); [repeat (apply Forall_cons; [lia|]); apply Forall_nil|vm_compute; reflexivity].
Qed.
Print Assumptions C191_values.
Print Assumptions C191_passed_on.
Print Assumptions C191_expressions.
Print Assumptions C191_evaluated.
Print Assumptions C191_everything_passed_on_refuted.
