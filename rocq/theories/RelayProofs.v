(** Proofs for C192: expressions read from any bytes and written again. *)
From Coq Require Import String List.
From Verif Require Import Prelude ValueBase DateModel TimeModel HashModel ValueModel ExprModel ExprSpec ExprProofs WireModel WireSpec ReceiveProofs.
Import ListNotations.
Local Open Scope list_scope.
Open Scope Z_scope.

Section Decode.
Variable VC : vcodec.
Variable P : value -> Prop.
Hypothesis HV : forall b v r, bytes b -> vdec VC b = Some (v, r) -> P v /\ bytes r /\ (List.length r <= List.length b)%nat.
(** what the members of a node that was read are *)
Definition readNode (k : kind) (cs : list expr) : Prop :=
  match k with
  | KColumn _ => cs = []
  | KUUID f => cs = [] /\ short f
  | KRange lo hi => List.length cs = (1 + bit lo + bit hi)%nat
  | _ => wireNode P k cs
  end.
Definition good (e : expr) : Prop := allNodes readNode e.
(** at least [n] bytes are taken *)
Definition takes {A} (n : nat) (Q : A -> Prop) (m : dec A) : Prop := forall b, bytes b -> short b ->
  match m b with Ret (a, r) => Q a /\ bytes r /\ (List.length r + n <= List.length b)%nat | _ => True end.
Lemma t_ret {A} (Q : A -> Prop) a : Q a -> takes 0 Q (dret a).
Proof. intros H b Hb Lb. cbn. split; [exact H|]. split; [exact Hb|lia]. Qed.
Lemma t_fail {A} n (Q : A -> Prop) : takes n Q dfail.
Proof. intros b Hb Lb. exact I. Qed.
Lemma t_first {A C} n (R : A -> Prop) (Q : C -> Prop) m c : takes n R m -> (forall a, R a -> takes 0 Q (c a)) -> takes n Q (dbind m c).
Proof.
  intros H K b Hb Lb. unfold dbind. specialize (H b Hb Lb). destruct (m b) as [[a r]| | |]; auto. destruct H as (H1 & H2 & H3). assert (Lr : short r) by (unfold short in *; lia).
  specialize (K a H1 r H2 Lr). destruct (c a r) as [[x q]| | |]; auto. destruct K as (K1 & K2 & K3). split; [exact K1|]. split; [exact K2|lia].
Qed.
Lemma t_weak {A} n (Q : A -> Prop) m : takes n Q m -> takes 0 Q m.
Proof. intros H b Hb Lb. specialize (H b Hb Lb). destruct (m b) as [[a r]| | |]; auto. destruct H as (H1 & H2 & H3). split; [exact H1|]. split; [exact H2|lia]. Qed.
Lemma t_bind {A C} n (R : A -> Prop) (Q : C -> Prop) m c : takes n R m -> (forall a, R a -> takes 0 Q (c a)) -> takes 0 Q (dbind m c).
Proof. intros H K. eapply t_weak, t_first; [exact H|exact K]. Qed.
Lemma t_kind : takes 1 (@all Z) readKind.
Proof. intros b Hb Lb. destruct Hb; [exact I|]. cbn. split; [exact I|]. split; [assumption|lia]. Qed.
Lemma leVal_range b : bytes b -> 0 <= leVal b < 256 ^ Z.of_nat (List.length b).
Proof.
  induction 1 as [|x b Hx _ IH]; [cbn; lia|]. cbn [leVal List.length]. rewrite Nat2Z.inj_succ, Z.pow_succ_r by lia. unfold byte in Hx. lia.
Qed.
Lemma t_size : takes 8 (fun z => 0 <= z < 2 ^ 64) readSize.
Proof.
  intros b Hb Lb. unfold readSize. destruct (Nat.ltb_spec (List.length b) 8); [exact I|]. destruct (bytes_split 8 b Hb) as [H1 H2]. split.
  - pose proof (leVal_range _ H1) as R. rewrite firstn_length, Nat.min_l in R by lia. change (256 ^ Z.of_nat 8) with (2 ^ 64) in R. exact R.
  - split; [exact H2|]. rewrite skipn_length. lia.
Qed.
Lemma t_str : takes 8 (fun s : str => short s) readStr.
Proof.
  intros b Hb Lb. unfold readStr. destruct (Nat.ltb_spec (List.length b) 8); [exact I|]. cbv zeta. destruct (_ <=? _); [exact I|]. destruct (_ <? _); [exact I|]. destruct (bytes_split 8 b Hb) as [_ H2].
  split; [unfold short in *; rewrite firstn_length, skipn_length; lia|]. split; [now apply bytes_split|]. rewrite !skipn_length. lia.
Qed.
Lemma t_value : takes 0 P (readValue VC).
Proof. intros b Hb Lb. unfold readValue. destruct (vdec VC b) as [[v r]|] eqn:Q; [|exact I]. destruct (HV b v r Hb Q) as (H1 & H2 & H3). split; [exact H1|]. split; [exact H2|lia]. Qed.
Lemma t_bool : takes 0 (@all bool) (readBool VC).
Proof. eapply t_bind; [apply t_value|]. intros [] _; try apply t_fail. now apply t_ret. Qed.
Lemma t_int : takes 0 (@all Z) (readInt VC).
Proof. eapply t_bind; [apply t_value|]. intros [] _; try apply t_fail. now apply t_ret. Qed.
Definition optAll {A} (c : bool) (Q : A -> Prop) (o : option A) : Prop := match o with Some a => c = true /\ Q a | None => c = false end.
Lemma t_opt {A} c n (Q : A -> Prop) m : takes n Q m -> takes 0 (optAll c Q) (readOpt c m).
Proof. intros H. unfold readOpt. destruct c; [|now apply t_ret]. eapply t_bind; [exact H|]. intros a q. now apply t_ret. Qed.
Lemma many_len {A} k (Q : A -> Prop) item : takes k Q item -> forall g n b, bytes b -> short b ->
  match readMany item g n b with Ret (l, r) => Forall Q l /\ bytes r /\ (List.length r + k * List.length l <= List.length b)%nat | _ => True end.
Proof.
  intros H. induction g as [|g IH]; intros n b Hb Lb; cbn [readMany]; destruct (n <=? 0); try exact I; try (cbn; split; [constructor|]; split; [exact Hb|lia]).
  unfold dbind. specialize (H b Hb Lb). destruct (item b) as [[a r]| | |]; auto. destruct H as (H1 & H2 & H3). assert (Lr : short r) by (unfold short in *; lia). specialize (IH (n - 1) r H2 Lr).
  destruct (readMany item g (n - 1) r) as [[l q]| | |]; auto. destruct IH as (I1 & I2 & I3). cbn. split; [now constructor|]. split; [exact I2|lia].
Qed.
Lemma t_many {A} (Q : A -> Prop) item g n : takes 1 Q item -> takes 0 (fun l => Forall Q l /\ short l) (readMany item g n).
Proof.
  intros H b Hb Lb. pose proof (many_len 1 Q item H g n b Hb Lb) as G. destruct (readMany item g n b) as [[l r]| | |]; auto. destruct G as (G1 & G2 & G3). split; [split; [exact G1|unfold short in *; lia]|]. split; [exact G2|lia].
Qed.
Section Node.
Variable readE : dec expr.
Hypothesis HE : takes 1 good readE.
Lemma node_good k cs : readNode k cs -> Forall good cs -> good (Node k cs).
Proof. intros H F. split; [exact H|]. now apply fold_and_Forall. Qed.
Ltac nxt := eapply t_bind; [first [exact HE|apply t_size|apply t_str|apply t_value|apply t_bool|apply t_int|eapply t_opt; first [exact HE|apply t_str]]|intros ? ?].
Lemma opt_good c o : optAll c good o -> List.length (opt1 o) = bit c /\ Forall good (opt1 o).
Proof. destruct o; cbn; [intros [-> q]; split; [reflexivity|constructor; [exact q|constructor]]|intros ->; split; [reflexivity|constructor]]. Qed.
Lemma opt_str c o : optAll c (fun s : str => short s) o -> short (strOf o).
Proof. destruct o; cbn; [intros [_ q]; exact q|intros _; unfold short; cbn; lia]. Qed.
Lemma t_pair : takes 2 (fun p => good (fst p) /\ good (snd p)) (readPair readE).
Proof.
  intros b Hb Lb. unfold readPair, dbind, dret. pose proof (HE b Hb Lb) as H. destruct (readE b) as [[w r]| | |]; auto. destruct H as (H1 & H2 & H3).
  assert (Lr : short r) by (unfold short in *; lia). pose proof (HE r H2 Lr) as K. destruct (readE r) as [[x q]| | |]; auto. destruct K as (K1 & K2 & K3). cbn. split; [auto|]. split; [exact K2|lia].
Qed.
Lemma t_entry : takes 1 (fun p => short (fst p) /\ good (snd p)) (readEntry readE).
Proof.
  unfold readEntry. assert (W : takes 1 (fun s : str => short s) readStr). { intros b Hb Lb. pose proof (t_str b Hb Lb) as T. destruct (readStr b) as [[s r]| | |]; auto. destruct T as (T1 & T2 & T3). split; [exact T1|]. split; [exact T2|lia]. }
  eapply t_first; [exact W|]. intros w Hw. nxt. now apply t_ret.
Qed.
Lemma t_manyNode k f : (forall cs, short cs -> readNode k cs) -> takes 0 good (manyNode readE k f).
Proof. intros H. unfold manyNode. nxt. eapply t_bind; [apply t_many, HE|]. cbn beta. intros cs [F S]. apply t_ret. apply node_good; auto. Qed.
Lemma flatLen (ps : list (expr * expr)) : List.length (flat_map (fun p => [fst p; snd p]) ps) = (2 * List.length ps)%nat.
Proof. induction ps; cbn in *; lia. Qed.
Ltac kids := repeat (apply Forall_cons; [assumption|]); first [apply Forall_nil|assumption|apply Forall_app; split; assumption].
Lemma t_case g c d f : takes 0 good
  (dbind readSize (fun n => dbind (readOpt c readE) (fun co => dbind (readOpt d readE) (fun de => dbind (readMany (readPair readE) f n) (fun ps =>
   dret (Node (KCase g c d) (opt1 co ++ opt1 de ++ flat_map (fun p => [fst p; snd p]) ps))))))).
Proof.
  intros b Hb Lb. unfold dbind. pose proof (t_size b Hb Lb) as H. destruct (readSize b) as [[n r]| | |]; auto. destruct H as (_ & H2 & H3). assert (Lr : short r) by (unfold short in *; lia).
  pose proof (t_opt c 1 good readE HE r H2 Lr) as H. destruct (readOpt c readE r) as [[co r1]| | |]; auto. destruct H as (O1 & H4 & H5). assert (Lr1 : short r1) by (unfold short in *; lia).
  pose proof (t_opt d 1 good readE HE r1 H4 Lr1) as H. destruct (readOpt d readE r1) as [[de r2]| | |]; auto. destruct H as (O2 & H6 & H7). assert (Lr2 : short r2) by (unfold short in *; lia).
  pose proof (many_len 2 _ _ t_pair f n r2 H6 Lr2) as H. destruct (readMany _ f n r2) as [[ps r3]| | |]; auto. destruct H as (F & H8 & H9). cbn [dret].
  apply opt_good in O1 as [O1 O1']. apply opt_good in O2 as [O2 O2']. split; [|split; [exact H8|lia]]. apply node_good.
  - cbn [readNode wireNode]. assert (LL : List.length (opt1 co ++ opt1 de ++ flat_map (fun p => [fst p; snd p]) ps) = (bit c + bit d + 2 * List.length ps)%nat) by (rewrite !app_length, flatLen; lia).
    split; [|exists (List.length ps); exact LL]. unfold short in *. rewrite LL. destruct c, d; cbn [bit]; lia.
  - apply Forall_app. split; [assumption|]. apply Forall_app. split; [assumption|]. clear - F. induction F as [|[x y] ps [P1 P2] _ IH]; [constructor|]. cbn. constructor; [exact P1|]. constructor; [exact P2|exact IH].
Qed.
Lemma t_body f k : takes 0 good (decBody VC readE f k).
Proof.
  unfold decBody. repeat match goal with |- takes _ _ (match ?x with _ => _ end) => destruct x end; try apply t_fail; unfold unaryNode, binaryNode, propNode.
  all: repeat first [apply t_case|apply t_manyNode; cbn; solve [auto]|nxt; cbn beta in *|match goal with |- takes _ _ (if ?c then _ else _) => destruct c end].
  all: try (apply t_ret; apply node_good).
  all: repeat match goal with H : optAll _ good _ |- _ => apply opt_good in H; destruct H | H : optAll _ _ _ |- _ => apply opt_str in H end.
  all: try solve [kids].
  all: try solve [cbn; repeat split; auto; discriminate].
  all: try solve [cbn [readNode wireNode]; repeat split; auto; cbn [List.length]; rewrite ?app_length; lia].
  eapply t_bind; [apply t_many, t_entry|]. cbn beta. intros ps [F L]. apply t_ret. apply node_good.
  - cbn [readNode wireNode]. split; [now rewrite !map_length|]. split; [unfold short in *; now rewrite map_length|]. apply Forall_map. eapply Forall_impl; [|exact F]. now intros q [? _].
  - apply Forall_map. eapply Forall_impl; [|exact F]. now intros q [_ ?].
Qed.
End Node.
Lemma t_expr f : takes 1 good (readExpr VC f).
Proof. induction f as [|f IH]; [intros b Hb Lb; exact I|]. cbn [readExpr]. eapply t_first; [apply t_kind|]. intros k _. now apply t_body. Qed.
Lemma t_decode b e : bytes b -> short b -> decode VC b = Ret (Some e) -> good e.
Proof.
  intros Hb Lb H. unfold decode in H. destruct b as [|x b]; [discriminate|]. pose proof (t_expr (S (List.length (x :: b))) _ Hb Lb) as G. destruct (readExpr VC _ _) as [[e' r]| | |]; try discriminate. injection H as <-. apply G.
Qed.
End Decode.
