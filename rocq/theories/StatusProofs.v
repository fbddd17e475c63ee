From Verif Require Import Prelude StatusModel StatusSpec.

Lemma put_length {A} i (x : A) l : length (put i x l) = length l.
Proof. revert i. induction l as [|a l IH]; intros [|i]; cbn; auto. Qed.
Lemma nth_put {A} (d : A) i k x l : (i < length l)%nat -> nth k (put i x l) d = if Nat.eqb k i then x else nth k l d.
Proof.
  revert i k. induction l as [|a l IH]; intros [|i] [|k] H; cbn in *; try lia; auto. apply IH. lia.
Qed.

Lemma rd16_hd v w r : 0 <= v < 65536 -> rd16 (byte_lo v :: byte_hi v :: w :: r) 0 = v.
Proof. intros H. unfold rd16, byte_lo, byte_hi. cbn [nth]. lia. Qed.
Lemma rd16_snd a b v r : 0 <= v < 65536 -> rd16 (a :: b :: byte_lo v :: byte_hi v :: r) 2 = v.
Proof. intros H. unfold rd16, byte_lo, byte_hi. cbn [nth]. lia. Qed.

Lemma mkState_small code msg : (Z.of_nat (length msg) < 65536) ->
  mkState code msg = [byte_lo (Z.of_nat (length msg)); byte_hi (Z.of_nat (length msg)); byte_lo code; byte_hi code] ++ msg.
Proof.
  intros H. unfold mkState. replace (u16 (Z.of_nat (length msg))) with (Z.of_nat (length msg)) by (unfold u16; lia).
  rewrite Nat2Z.id, firstn_all. reflexivity.
Qed.

Definition bufRep (buf : list Z) (c : Z) (m : list Z) : Prop :=
  0 < c < 65536 /\ Z.of_nat (length m) < 65536 /\ buf = mkState c m.

Lemma bufRep_read buf c m : bufRep buf c m ->
  rd16 buf 2 = c /\ firstn (Z.to_nat (rd16 buf 0)) (skipn kHeaderSize buf) = m /\ copyState buf = buf.
Proof.
  intros (Hc & Hm & ->). rewrite mkState_small by assumption. cbn [app].
  rewrite rd16_snd by lia. splits; auto.
  - rewrite rd16_hd by lia. rewrite Nat2Z.id. cbn [skipn kHeaderSize]. apply firstn_all.
  - unfold copyState. rewrite rd16_hd by lia. rewrite Nat2Z.id. unfold kHeaderSize.
    apply firstn_all2. cbn. lia.
Qed.

(** Refinement relation. *)
Record rep (n : nat) (w : world) (a : absWorld) : Prop := {
  r_len : length (objs w) = n;
  r_distinct : forall i j p, (i < n)%nat -> (j < n)%nat -> obj w i = Some p -> obj w j = Some p -> i = j;
  r_bound : forall i p, (i < n)%nat -> obj w i = Some p -> (p < length (sheap w))%nat;
  r_abs : forall i, (i < n)%nat ->
    match a i with
    | None => obj w i = None
    | Some (c, m) => exists p, obj w i = Some p /\ bufRep (buffer w p) c m
    end }.

Lemma obj_setObj w i p k : (i < length (objs w))%nat -> obj (setObj w i p) k = if Nat.eqb k i then p else obj w k.
Proof. intros H. unfold obj, setObj. cbn. apply nth_put. assumption. Qed.

Lemma rep_setNone n w a i : (i < n)%nat -> rep n w a -> rep n (setObj w i None) (aset a i None).
Proof.
  intros Hi [Hl Hd Hb Ha]. subst n. constructor.
  - unfold setObj. cbn. apply put_length.
  - intros x y p Hx Hy. rewrite !obj_setObj by assumption.
    destruct (Nat.eqb x i), (Nat.eqb y i); try discriminate. apply Hd; assumption.
  - intros x p Hx. rewrite obj_setObj by assumption. destruct (Nat.eqb x i); [discriminate|].
    apply Hb. assumption.
  - intros x Hx. unfold aset. rewrite obj_setObj by assumption. destruct (Nat.eqb x i); [reflexivity|].
    apply Ha. assumption.
Qed.

Lemma rep_alloc n w a i c m buf : (i < n)%nat -> rep n w a -> bufRep buf c m ->
  rep n (let '(w', p) := alloc w buf in setObj w' i (Some p)) (aset a i (Some (c, m))).
Proof.
  intros Hi [Hl Hd Hb Ha] Hbuf. subst n. unfold alloc.
  set (w' := mkWorld (objs w) (sheap w ++ [buf])).
  assert (Hlen : (i < length (objs w'))%nat) by assumption.
  assert (Hobj : forall k, obj w' k = obj w k) by reflexivity.
  constructor.
  - unfold setObj. cbn. apply put_length.
  - intros x y p Hx Hy. rewrite !obj_setObj by assumption. rewrite !Hobj.
    destruct (Nat.eqb x i) eqn:Ex, (Nat.eqb y i) eqn:Ey; try lia.
    + intros E1 E2. injection E1 as <-. apply Hb in E2; lia.
    + intros E1 E2. injection E2 as <-. apply Hb in E1; lia.
    + apply Hd; assumption.
  - intros x p Hx. rewrite obj_setObj by assumption. cbn [sheap setObj w']. rewrite app_length. cbn [length].
    destruct (Nat.eqb x i).
    + intros E. injection E as <-. lia.
    + rewrite Hobj. intros E. apply Hb in E; lia.
  - intros x Hx. unfold aset. rewrite obj_setObj by assumption. destruct (Nat.eqb x i).
    + exists (length (sheap w)). split; [reflexivity|]. unfold buffer. cbn [sheap setObj w'].
      rewrite app_nth2, Nat.sub_diag by lia. exact Hbuf.
    + rewrite Hobj. specialize (Ha x Hx). destruct (a x) as [[c' m']|]; [|assumption].
      destruct Ha as (p & Hp & Hbr). exists p. split; [assumption|]. unfold buffer in *. cbn [sheap setObj w'].
      rewrite app_nth1; [assumption|]. apply Hb in Hp; assumption.
Qed.

Lemma rep_ext n w a a' : (forall i, (i < n)%nat -> a i = a' i) -> rep n w a -> rep n w a'.
Proof.
  intros He [Hl Hd Hb Ha]. constructor; auto. intros i Hi. rewrite <- He by assumption. apply Ha. assumption.
Qed.

Lemma rep_copyCtor n w a i j : (i < n)%nat -> (j < n)%nat -> rep n w a -> rep n (copyCtor w i j) (aset a i (a j)).
Proof.
  intros Hi Hj R. unfold copyCtor. pose proof (r_abs _ _ _ R j Hj) as Ha.
  destruct (a j) as [[c m]|].
  - destruct Ha as (p & -> & Hbr). apply rep_alloc; auto.
    rewrite (proj2 (proj2 (bufRep_read _ _ _ Hbr))). assumption.
  - rewrite Ha. apply rep_setNone; assumption.
Qed.

Lemma rep_moveCtor n w a i j : (i < n)%nat -> (j < n)%nat -> i <> j -> rep n w a ->
  rep n (moveCtor w i j) (aset (aset a i (a j)) j None).
Proof.
  intros Hi Hj Hij [Hl Hd Hb Ha]. subst n. unfold moveCtor.
  assert (Ho : forall k, obj (setObj (setObj w i (obj w j)) j None) k =
    if Nat.eqb k j then None else if Nat.eqb k i then obj w j else obj w k).
  { intros k. rewrite obj_setObj by (unfold setObj; cbn; rewrite put_length; assumption).
    rewrite obj_setObj by assumption. reflexivity. }
  constructor.
  - unfold setObj. cbn. rewrite !put_length. reflexivity.
  - intros x y p Hx Hy. rewrite !Ho.
    destruct (Nat.eqb x j) eqn:Exj, (Nat.eqb y j) eqn:Eyj; try discriminate.
    destruct (Nat.eqb x i) eqn:Exi, (Nat.eqb y i) eqn:Eyi.
    + lia.
    + intros E1 E2. pose proof (Hd j y p Hj Hy E1 E2). lia.
    + intros E1 E2. pose proof (Hd x j p Hx Hj E1 E2). lia.
    + apply Hd; assumption.
  - intros x p Hx. rewrite Ho. cbn [sheap setObj]. destruct (Nat.eqb x j); [discriminate|].
    destruct (Nat.eqb x i); apply Hb; assumption.
  - intros x Hx. rewrite Ho. unfold aset. destruct (Nat.eqb x j); [reflexivity|].
    destruct (Nat.eqb x i); unfold buffer; cbn [sheap setObj]; apply Ha; assumption.
Qed.

Lemma ptr_eqb_eq a b : ptr_eqb a b = true <-> a = b.
Proof.
  destruct a, b; cbn; split; intros H; try congruence.
  - apply Nat.eqb_eq in H. congruence.
  - injection H as <-. apply Nat.eqb_refl.
Qed.

Lemma upToNul_len l : (length (upToNul l) <= length l)%nat.
Proof. induction l as [|b l IH]; cbn; [lia|]. destruct (Z.eqb b 0); cbn; lia. Qed.

Lemma rep_step n w a o : op_ok n o -> rep n w a -> rep n (sstep w o) (astep a o).
Proof.
  intros Ho R. destruct o as [i c m|i c e|i|i j|i j|i j|i j]; cbn [sstep astep op_ok] in *.
  - destruct Ho as (Hi & Hc & Hm). apply rep_alloc; auto. repeat split; try lia.
  - destruct Ho as (Hi & Hc). apply rep_alloc; auto. repeat split; try lia.
    unfold formatMsg. pose proof (upToNul_len (firstn 255 e)). rewrite firstn_length in H. lia.
  - apply rep_setNone; assumption.
  - destruct Ho as (Hi & Hj & Hij). apply rep_copyCtor; assumption.
  - destruct Ho as (Hi & Hj). unfold copyAssign. destruct (ptr_eqb (obj w i) (obj w j)) eqn:E.
    + apply ptr_eqb_eq in E. eapply rep_ext; [|exact R]. intros k Hk. unfold aset.
      destruct (Nat.eqb_spec k i) as [-> | _]; [|reflexivity].
      pose proof (r_abs _ _ _ R i Hi) as Ai. pose proof (r_abs _ _ _ R j Hj) as Aj.
      destruct (a i) as [[c m]|] eqn:Ea, (a j) as [[c' m']|] eqn:Ea'; try reflexivity.
      * destruct Ai as (p & Hp & _). rewrite Hp in E.
        rewrite (r_distinct _ _ _ R i j p Hi Hj Hp (eq_sym E)) in Ea. congruence.
      * destruct Ai as (p & Hp & _). congruence.
      * destruct Aj as (p & Hp & _). congruence.
    + apply rep_copyCtor; assumption.
  - destruct Ho as (Hi & Hj & Hij). replace (Nat.eqb i j) with false by lia. apply rep_moveCtor; assumption.
  - destruct Ho as (Hi & Hj). unfold moveAssign. destruct (ptr_eqb (obj w i) (obj w j)) eqn:E.
    + apply ptr_eqb_eq in E. destruct (Nat.eqb_spec i j) as [-> | Hij]; [assumption|].
      eapply rep_ext; [|exact R]. intros k Hk. unfold aset.
      pose proof (r_abs _ _ _ R i Hi) as Ai. pose proof (r_abs _ _ _ R j Hj) as Aj.
      assert (Hn : a i = None /\ a j = None).
      { destruct (a i) as [[c m]|] eqn:Ea.
        - destruct Ai as (p & Hp & _). rewrite Hp in E.
          pose proof (r_distinct _ _ _ R i j p Hi Hj Hp (eq_sym E)). contradiction.
        - destruct (a j) as [[c' m']|] eqn:Ea'; [|auto]. destruct Aj as (p & Hp & _). congruence. }
      destruct Hn as [Hni Hnj].
      destruct (Nat.eqb_spec k j) as [-> | _]; [assumption|].
      destruct (Nat.eqb_spec k i) as [-> | _]; congruence.
    + destruct (Nat.eqb_spec i j) as [-> | Hij].
      * assert (ptr_eqb (obj w j) (obj w j) = true) by (apply ptr_eqb_eq; reflexivity). congruence.
      * apply rep_moveCtor; assumption.
Qed.

Lemma rep_run n os : forall w a, Forall (op_ok n) os -> rep n w a -> rep n (srun w os) (arun a os).
Proof.
  induction os as [|o os IH]; intros w a Hf R; [assumption|].
  inversion Hf; subst. cbn. apply IH; [assumption|]. apply rep_step; assumption.
Qed.

Lemma rep_init n : rep n (sinit n) (fun _ => None).
Proof.
  assert (Ho : forall i, obj (sinit n) i = None).
  { intros i. unfold obj, sinit. cbn. apply nth_repeat. }
  constructor.
  - cbn. apply repeat_length.
  - intros i j p _ _. rewrite Ho. discriminate.
  - intros i p _. rewrite Ho. discriminate.
  - intros i _. apply Ho.
Qed.

Lemma rep_observe n w a i : rep n w a -> (i < n)%nat ->
  isOk w i = (match a i with None => true | _ => false end) /\
  codeOf w i = (match a i with None => 0 | Some (c, _) => c end) /\
  messageOf w i = (match a i with None => [] | Some (_, m) => m end).
Proof.
  intros R Hi. pose proof (r_abs _ _ _ R i Hi) as Ha. unfold isOk, codeOf, messageOf.
  destruct (a i) as [[c m]|].
  - destruct Ha as (p & -> & Hbr). destruct (bufRep_read _ _ _ Hbr) as (-> & -> & _). auto.
  - rewrite Ha. auto.
Qed.
