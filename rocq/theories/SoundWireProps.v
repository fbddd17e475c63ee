(** C189: what evaluation gives arrives as it was. *)
From Coq Require Import String List.
From Verif Require Import Prelude ValueBase DateModel TimeModel ValueModel ValueProofs ExprModel ExprSpec ExprProofs EvalModel EvalSpec EvalProofs EvalProps ValueProps WireModel WireSpec WireProofs WireProps
  FaultSpec SoundSpec SoundProofs SoundProps.
Import ListNotations.
Local Open Scope list_scope.
Local Open Scope string_scope.
Open Scope Z_scope.

(** One value, not looking into it, as far as C187 says nothing: texts are bytes, sizes fit an int32, doubles are doubles *)
Definition small (v : value) : Prop :=
  let keys (m : list (str * value)) := shortL m /\ Forall strOk (map fst m) in
  let tagged x := shortL (vtags x) /\ Forall (fun t => strOk (tgname t) /\ keys (tgprops t)) (vtags x) in
  match v with
  | VFloat f => f64valid f = true
  | VStr s => strOk s
  | VVertex x => tagged x
  | VEdge e => strOk (ename e) /\ keys (eprops e)
  | VPath p => tagged (psrc p) /\ shortL (psteps p) /\ Forall (fun s => tagged (sdst s) /\ strOk (sname s) /\ keys (sprops s)) (psteps p)
  | VList l | VSet l => shortL l
  | VMap m => keys m
  | VDataSet d => shortL (dcols d) /\ Forall strOk (dcols d) /\ shortL (drows d) /\ Forall shortL (drows d)
  | _ => True
  end.
Definition compact (v : value) : Prop := forall w, within w v -> small w.

Lemma directed_same X v : directed v -> sendable X v -> carried v = v.
Proof. intros D H. pose proof (C76_value_arrives X v H) as A. rewrite (C76_directions_arrive_whole X v H D) in A. now injection A as A. Qed.
Lemma sound_sendable E v : sound (eX E) v -> compact v -> directed v -> sendable (eX E) v.
Proof.
  revert v. apply (value_sub_ind (fun v => sound (eX E) v -> compact v -> directed v -> sendable (eX E) v)). intros v IH Hs Hc Hd. inversion Hd as [v' N D Q]; subst v'.
  assert (Sub : forall c, In c (subvals v) -> sendable (eX E) c).
  { intros c I. apply IH; [exact I|exact (sound_sub _ _ _ Hs I)| |exact (D c I)]. intros w Hw. apply Hc. exact (withinSub w v c I Hw). }
  assert (Same : forall c, In c (subvals v) -> carried c = c) by (intros c I; exact (directed_same _ c (D c I) (Sub c I))).
  constructor; [|exact Sub]. pose proof (Hs v (withinSelf v)) as T. pose proof (Hc v (withinSelf v)) as M. clear IH Hs Hc Hd N D.
  assert (R32 : forall z, int32 z -> inRange int32_min int32_max z) by (unfold int32, inRange, int32_min, int32_max; intros; lia).
  assert (R64 : forall z, int64 z -> inRange int64_min int64_max z) by (unfold int64, inRange, int64_min, int64_max; intros; lia).
  assert (Kp : forall m, keysDiffer m -> shortL m /\ Forall strOk (map fst m) -> propsOk m).
  { intros m K [K1 K2]. split; [exact K1|]. split; [exact K|]. intros k x I. rewrite Forall_forall in K2. apply K2. exact (in_map fst _ _ I). }
  assert (Kv : forall x, typedVertex x -> shortL (vtags x) /\ Forall (fun t => strOk (tgname t) /\ shortL (tgprops t) /\ Forall strOk (map fst (tgprops t))) (vtags x) -> vertexOk x).
  { intros x K [K1 K2]. unfold typedVertex in K. rewrite Forall_forall in *. split; [exact K1|]. intros t I. split; [apply (K2 t I)|]. apply Kp; [exact (K t I)|apply (K2 t I)]. }
  destruct v as [|n|b|z|x|x|d|t|t|x|e|p|l|m|l|d]; cbn [nodeOk typed small] in *; try exact I; try exact M.
  - exact (R64 _ T).
  - destruct T as (T1 & T2 & T3). unfold int16, int8 in *. unfold dateOk, inRange, int16_min, int16_max, int8_min, int8_max. change (2 ^ 15) with 32768 in *. change (2 ^ 7) with 128 in *. splits; lia.
  - destruct T as (T1 & T2 & T3 & T4). unfold int8 in *. unfold timeOk. split; [|split; [|split; [|exact (R32 _ T4)]]]; unfold inRange, int8_min, int8_max; change (2 ^ 7) with 128 in *; lia.
  - destruct T as (T1 & T2 & T3 & T4 & T5 & T6 & T7). unfold int16, bits in *. unfold dateTimeOk, inRange, int16_min, int16_max.
    change (2 ^ 15) with 32768 in *. change (2 ^ 4) with 16 in *. change (2 ^ 5) with 32 in *. change (2 ^ 6) with 64 in *. change (2 ^ 22) with 4194304 in *. splits; lia.
  - exact (Kv x T M).
  - destruct T as (T1 & T2 & T3). destruct M as [M1 M2]. exact (conj (R32 _ T2) (conj (R64 _ T3) (conj M1 (Kp _ T1 M2)))).
  - destruct T as [T1 T2]. destruct M as (M1 & M2 & M3). split; [exact (Kv _ T1 M1)|]. split; [exact M2|]. intros s I. rewrite Forall_forall in *. destruct (T2 s I) as (A1 & A2 & A3 & A4). destruct (M3 s I) as (B1 & B2 & B3).
    exact (conj (Kv _ A1 B1) (conj (R32 _ A3) (conj (R64 _ A4) (conj B2 (Kp _ A2 B3))))).
  - exact (Kp m T M).
  - split; [exact M|]. rewrite (map_ext_in carried (fun x => x)) by exact Same. rewrite map_id. destruct T as [T1 T2]. clear - T1 T2. induction T2 as [|v l F _ IH]; cbn [setOk]; [exact I|]. rewrite Forall_forall in F. split; [apply T1; now left|]. split.
    + intros w I. specialize (F w I). destruct (sameHash (eX E) w v) eqn:Q1; [|reflexivity]. destruct (veq (eX E) w v) eqn:Q2; [|reflexivity]. destruct F. auto.
    + apply IH. intros x I. apply T1. now right.
  - destruct M as (M1 & M2 & M3 & M4). rewrite Forall_forall in *. auto.
Qed.
Theorem C189_result_arrives : forall E e k c v k' c', soundEnv E -> soundConsts (eX E) e -> kept (sound (eX E)) k -> holds (sound (eX E)) c ->
  eval E e k c = Ret (v, k', c') -> compact v -> directed v -> readWire (eX E) (putValue v) = Got v [].
Proof.
  intros E e k c v k' c' HE Hc Hk Hh H M D. apply C76_directions_arrive_whole; [|exact D]. apply sound_sendable; [|exact M|exact D]. exact (proj1 (C187_sound E e k c v k' c' HE Hc Hk Hh H)).
Qed.
(** The values of the variables arrive as well *)
Theorem C189_variables_arrive : forall E e k c v k' c' x w, soundEnv E -> soundConsts (eX E) e -> kept (sound (eX E)) k -> holds (sound (eX E)) c ->
  eval E e k c = Ret (v, k', c') -> In (x, w) c' -> compact w -> directed w -> readWire (eX E) (putValue w) = Got w [].
Proof.
  intros E e k c v k' c' x w HE Hc Hk Hh H I M D. apply C76_directions_arrive_whole; [|exact D]. apply sound_sendable; [|exact M|exact D].
  destruct (C187_sound E e k c v k' c' HE Hc Hk Hh H) as (_ & _ & G). unfold holds in G. rewrite Forall_forall in G. exact (G _ I).
Qed.
(** {9223372036854775807, null} as in C187_sequence_ex *)
Example C189_ex : exists e k c v, In e ex187 /\ eval E0 e noCache [] = Ret (v, k, c) /\ v = VSet [VInt 9223372036854775807; VNull NOverflow] /\ compact v /\ directed v.
Proof.
  do 4 eexists. split; [left; reflexivity|]. split; [vm_compute; reflexivity|]. split; [reflexivity|]. split.
  - intros w H. inversion H as [|? x I H']; subst; [reflexivity|]. cbn in I. destruct I as [<-|[<-|[]]]; inversion H' as [|? y I H'']; subst; try exact I; destruct I.
  - constructor; [exact I|]. intros x [<-|[<-|[]]]; (constructor; [exact I|intros ? []]).
Qed.
(** Two edges of different types in one direction are two members of a set here, and one where it arrives. *)
Theorem C189_all_arrive_refuted : exists e v k c, soundConsts (eX E0) e /\ eval E0 e noCache [] = Ret (v, k, c) /\ compact v /\ exists w, readWire (eX E0) (putValue v) = Got w [] /\ w <> v.
Proof.
  assert (S5 : forall t, int32 t -> sound (eX E0) (VEdge (exEdge t))).
  { intros t Ht. apply sound_intro.
    - cbn. split; [repeat constructor; intros []|]. split; [exact Ht|]. unfold int64. lia.
    - intros c Hc. cbn in Hc. decompose [or] Hc; subst; try contradiction; apply sound_leaf; (split; [reflexivity|]); cbn; try exact I; unfold int64; lia. }
  exists (Node KSet [konst (VEdge (exEdge 5)); konst (VEdge (exEdge 7))]). do 3 eexists. split.
  { unfold soundConsts, konst. cbn [allNodes fold_right map]. splits; auto; apply S5; unfold int32; lia. }
  split; [vm_compute; reflexivity|]. split.
  - intros w H. inversion H as [|? x I0 H']; subst; [reflexivity|]. cbn [subvals] in I0.
    assert (G : forall t, within w (VEdge (exEdge t)) -> small w).
    { intros t K. inversion K as [|? y J K']; subst; [cbn; repeat constructor; discriminate|]. cbn in J. decompose [or] J; subst; try contradiction; inversion K' as [|? z J' K'']; subst; cbn; try exact I; try contradiction. }
    destruct I0 as [<-|[<-|[]]]; [exact (G 5 H')|exact (G 7 H')].
  - exists (VSet [VEdge (exEdge 1)]). split; [vm_compute; reflexivity|discriminate].
Qed.
Print Assumptions C189_result_arrives.
Print Assumptions C189_variables_arrive.
Print Assumptions C189_all_arrive_refuted.
