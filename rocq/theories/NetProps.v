(** Properties C57 (dotted addresses) and C72 (lists of host addresses). *)
From Coq Require Import String List.
From Verif Require Import Prelude ValueBase ValueProofs EvalModel FuncModel FuncProofs StatsModel StatsProps DecProofs NetModel GraphFuncProps.
Import ListNotations.
Open Scope Z_scope.

(** * C57: specification *)
(** The value of a dotted text: decimal numbers separated by dots, each the next lower byte. *)
Fixpoint dotted (s : str) (high cur : Z) : Z :=
  match s with
  | [] => high * 256 + cur
  | c :: s' => if c =? 46 then dotted s' (high * 256 + cur) 0 else dotted s' high (cur * 10 + (c - 48))
  end.
(** The shape of a dotted address: four groups of one to three digits, none above 255 or with a leading zero *)
Definition group (s : str) (v : Z) : Prop :=
  s <> [] /\ (List.length s <= 3)%nat /\ forallb isDigit s = true /\ dotted s 0 0 = v /\ 0 <= v <= 255 /\ (hd 0 s = 48 -> s = [48]).

Definition groupB (s : str) (v : Z) : bool :=
  negb (strEqb s []) && (List.length s <=? 3)%nat && forallb isDigit s && (dotted s 0 0 =? v) && (negb (hd 0 s =? 48) || strEqb s [48]).
Lemma kDict_groups : forallb (fun i => match nth_error kDict i with Some s => groupB s (Z.of_nat i) | None => false end) (seq 0 256) = true.
Proof. vm_compute. reflexivity. Qed.
Lemma dict_ok i : 0 <= i <= 255 -> exists s, dict i = Ret s /\ group s i.
Proof.
  intros H. pose proof kDict_groups as K. rewrite forallb_forall in K. specialize (K (Z.to_nat i)). unfold dict.
  destruct (nth_error kDict (Z.to_nat i)) as [s|]; [|exfalso; assert (false = true) by (apply K, in_seq; lia); discriminate].
  exists s. split; [reflexivity|]. assert (G : groupB s (Z.of_nat (Z.to_nat i)) = true) by (apply K, in_seq; lia). rewrite Z2Nat.id in G by lia.
  unfold groupB in G. rewrite !andb_true_iff in G. destruct G as [[[[G1 G2] G3] G4] G5]. unfold group. splits; auto; try lia.
  - intros ->. discriminate.
  - intros E. apply orb_prop in G5. destruct G5 as [G5 | G5]; [rewrite E in G5; discriminate|]. apply strEqb_eq, G5.
Qed.
(** writing into the buffer *)
Lemma put_at (pre : buf16) x r c : put (pre ++ x :: r) (List.length pre) c = Ret (pre ++ Some c :: r).
Proof. induction pre as [|y pre IH]; [reflexivity|]. cbn. rewrite IH. reflexivity. Qed.
Lemma strcpy_at s : forall (pre : buf16) r, (List.length s < List.length r)%nat ->
  strcpyAt (pre ++ r) (List.length pre) s = Ret (pre ++ map Some s ++ Some 0 :: skipn (S (List.length s)) r).
Proof.
  induction s as [|c s IH]; intros pre r H; destruct r as [|x r]; try (cbn in H; lia).
  - cbn [strcpyAt map app List.length skipn]. apply put_at.
  - cbn [strcpyAt]. rewrite put_at. cbn [obind]. replace (pre ++ Some c :: r) with ((pre ++ [Some c]) ++ r) by (rewrite <- app_assoc; reflexivity).
    replace (S (List.length pre)) with (List.length (pre ++ [Some c])) by (rewrite app_length; cbn; lia).
    rewrite IH by (cbn in H; lia). rewrite <- app_assoc. reflexivity.
Qed.
Lemma readBuf_at s r : ~ In 0 s -> readBuf (map Some s ++ Some 0 :: r) = Ret s.
Proof.
  induction s as [|c s IH]; intros H; [reflexivity|]. cbn [map app readBuf]. rewrite IH by (intros X; apply H; right; exact X).
  destruct c; [exfalso; apply H; left; reflexivity|reflexivity|reflexivity].
Qed.
Lemma digits_only s : forallb isDigit s = true -> ~ In 0 s /\ ~ In 46 s.
Proof. rewrite forallb_forall. intros H. split; intros X; apply H in X; discriminate. Qed.
(** an octet of the address *)
Definition octet (ip : Z) (k : Z) : Z := ip / 256 ^ k mod 256.
Lemma octet_land ip k : 0 <= k -> Z.land (Z.shiftr ip (8 * k)) 255 = octet ip k.
Proof.
  intros H. change 255 with (Z.ones 8). rewrite Z.land_ones by lia. rewrite Z.shiftr_div_pow2 by lia. unfold octet.
  rewrite Z.pow_mul_r by lia. reflexivity.
Qed.
(** Every address is rendered as its four octets, most significant first, and the buffer is neither overrun nor
    read before it is written. *)
Theorem C57_four_octets : forall ip, 0 <= ip < 2 ^ 32 -> exists a b c d,
  intToIPv4 ip = Ret (a ++ [46] ++ b ++ [46] ++ c ++ [46] ++ d) /\
  group a (octet ip 3) /\ group b (octet ip 2) /\ group c (octet ip 1) /\ group d (octet ip 0).
Proof.
  intros ip H. unfold intToIPv4.
  pose proof (octet_land ip 0 ltac:(lia)) as E0. change (8 * 0) with 0 in E0. rewrite Z.shiftr_0_r in E0. pose proof (octet_land ip 1 ltac:(lia)) as E1.
  pose proof (octet_land ip 2 ltac:(lia)) as E2. pose proof (octet_land ip 3 ltac:(lia)) as E3.
  change (8 * 1) with 8 in E1. change (8 * 2) with 16 in E2. change (8 * 3) with 24 in E3. rewrite E0, E1, E2, E3. clear E0 E1 E2 E3.
  assert (O : forall k, 0 <= octet ip k <= 255) by (intros k; unfold octet; lia).
  destruct (dict_ok _ (O 0)) as (d & -> & Gd). destruct (dict_ok _ (O 1)) as (c & -> & Gc). destruct (dict_ok _ (O 2)) as (b & -> & Gb). destruct (dict_ok _ (O 3)) as (a & -> & Ga).
  cbn [obind]. exists a, b, c, d. split; [|auto]. clear O.
  destruct Ga as (_ & La & Da & _), Gb as (_ & Lb & Db & _), Gc as (_ & Lc & Dc & _), Gd as (_ & Ld & Dd & _).
  assert (Hr : List.length (repeat (@None Z) 16) = 16%nat) by reflexivity. set (r0 := repeat None 16) in *. clearbody r0.
  change 0%nat with (List.length (@nil (option Z))) at 1. change r0 with ([] ++ r0). rewrite strcpy_at by lia. cbn [obind app].
  set (r1 := skipn (S (List.length a)) r0). assert (H1 : List.length r1 = (15 - List.length a)%nat) by (unfold r1; rewrite skipn_length; lia).
  replace (List.length a) with (List.length (map (@Some Z) a)) by apply map_length. rewrite put_at. cbn [obind].
  clearbody r1. clear r0 Hr.
  assert (S1 : forall x y s r, (List.length s < List.length r)%nat -> y = map Some x ->
     strcpyAt (y ++ Some 46 :: r) (S (List.length y)) s = Ret (map Some (x ++ [46] ++ s) ++ Some 0 :: skipn (S (List.length s)) r)).
  { intros x y s r L ->. replace (map Some x ++ Some 46 :: r) with (map Some (x ++ [46]) ++ r) by (rewrite map_app, <- app_assoc; reflexivity).
    replace (S (List.length (map Some x))) with (List.length (map (@Some Z) (x ++ [46]))) by (rewrite !map_length, app_length; cbn; lia).
    rewrite strcpy_at by assumption. rewrite !map_app, <- !app_assoc. reflexivity. }
  rewrite (S1 a) by (reflexivity || lia). cbn [obind].
  set (r2 := skipn (S (List.length b)) r1). assert (H2 : List.length r2 = (14 - List.length a - List.length b)%nat) by (unfold r2; rewrite skipn_length; lia). clearbody r2.
  replace (S (List.length (map (@Some Z) a)) + List.length b)%nat with (List.length (map (@Some Z) (a ++ [46%Z] ++ b))) by (rewrite !map_length, !app_length; cbn; lia).
  rewrite put_at. cbn [obind]. rewrite (S1 (a ++ [46] ++ b)) by (reflexivity || lia). cbn [obind].
  set (r3 := skipn (S (List.length c)) r2). assert (H3 : List.length r3 = (13 - List.length a - List.length b - List.length c)%nat) by (unfold r3; rewrite skipn_length; lia). clearbody r3.
  replace (S (List.length (map (@Some Z) (a ++ [46%Z] ++ b))) + List.length c)%nat with (List.length (map (@Some Z) ((a ++ [46%Z] ++ b) ++ [46%Z] ++ c))) by (rewrite !map_length, !app_length; cbn [List.length]; lia).
  rewrite put_at. cbn [obind]. rewrite (S1 ((a ++ [46] ++ b) ++ [46] ++ c)) by (reflexivity || lia). cbn [obind].
  apply digits_only in Da, Db, Dc, Dd. rewrite readBuf_at.
  - f_equal. rewrite <- !app_assoc. reflexivity.
  - rewrite !in_app_iff. cbn. intuition discriminate.
Qed.
Lemma dotted_cur s : forall high cur t, ~ In 46 s -> exists v, (forall h, dotted s h cur = h * 256 + v) /\ dotted (s ++ t) high cur = dotted t high v.
Proof.
  induction s as [|c s IH]; intros high cur t H; cbn [dotted app].
  - exists cur. auto.
  - assert (c =? 46 = false) as -> by (apply Z.eqb_neq; intros ->; apply H; left; reflexivity). apply IH. intros X; apply H; right; exact X.
Qed.
Lemma dotted_group s v t high : group s v -> dotted (s ++ t) high 0 = dotted t high v.
Proof.
  intros (_ & _ & D & E & _). apply digits_only in D. destruct (dotted_cur s high 0 t (proj2 D)) as (w & W & ->). rewrite W in E. f_equal. lia.
Qed.
(** Reading the text gives back the address, ... *)
Theorem C57_readable : forall ip s, 0 <= ip < 2 ^ 32 -> intToIPv4 ip = Ret s -> dotted s 0 0 = ip.
Proof.
  intros ip s H E. destruct (C57_four_octets ip H) as (a & b & c & d & E' & Ga & Gb & Gc & Gd). rewrite E' in E. apply Ret_inj in E. subst s.
  rewrite (dotted_group a _ _ 0 Ga). cbn [app dotted Z.eqb]. change (46 =? 46) with true. cbv iota. rewrite (dotted_group b _ _ _ Gb). cbn [app dotted]. change (46 =? 46) with true. cbv iota.
  rewrite (dotted_group c _ _ _ Gc). cbn [app dotted]. change (46 =? 46) with true. cbv iota. rewrite <- (app_nil_r d), (dotted_group d _ _ _ Gd). cbn [dotted].
  unfold octet. change (256 ^ 3) with 16777216. change (256 ^ 2) with 65536. change (256 ^ 1) with 256. change (256 ^ 0) with 1. change (2 ^ 32) with 4294967296 in H.
  change 16777216 with (256 * 256 * 256). change 65536 with (256 * 256). rewrite <- !Z.div_div, Z.div_1_r by lia.
  rewrite Pos.eqb_refl.
  pose proof (Z.div_mod ip 256 ltac:(lia)). pose proof (Z.div_mod (ip / 256) 256 ltac:(lia)). pose proof (Z.div_mod (ip / 256 / 256) 256 ltac:(lia)).
  assert (0 <= ip / 256 / 256 / 256 < 256) by (rewrite !Z.div_div by lia; lia). rewrite (Z.mod_small (ip / 256 / 256 / 256)) by assumption. nia.
Qed.
(** ... so that different addresses have different texts. *)
Theorem C57_distinct : forall ip ip', 0 <= ip < 2 ^ 32 -> 0 <= ip' < 2 ^ 32 -> intToIPv4 ip = intToIPv4 ip' -> ip = ip'.
Proof.
  intros ip ip' H H' E. destruct (C57_four_octets ip H) as (a & b & c & d & E1 & _). rewrite <- (C57_readable ip _ H E1). rewrite E in E1. exact (C57_readable ip' _ H' E1).
Qed.
Example C57_ex : intToIPv4 3232235777 = Ret (B "192.168.1.1") /\ intToIPv4 4294967295 = Ret (B "255.255.255.255").
Proof. split; vm_compute; reflexivity. Qed.

(** * C72: lists of host addresses *)
(** Host names: no comma, colon or NUL, and no blank in front *)
Definition plainHost (h : hostAddr) : Prop :=
  ~ In 44 (haHost h) /\ ~ In 58 (haHost h) /\ ~ In 0 (haHost h) /\ (forall c r, haHost h = c :: r -> isWs c = false) /\
  int32_min <= haPort h <= int32_max.

Lemma decZ_chars z c : In c (decZ z) -> c = 45 \/ isDigit c = true.
Proof.
  destruct (Z.leb_spec 0 z) as [H | H].
  - destruct (decZ_nonneg z H) as (_ & D & _). rewrite forallb_forall in D. auto.
  - rewrite decZ_neg by assumption. intros [<- | X]; [auto|]. right. destruct (decZ_nonneg (- z)) as (_ & D & _); [lia|]. rewrite forallb_forall in D. auto.
Qed.
Lemma decZ_nil z : decZ z <> [].
Proof. destruct (Z.leb_spec 0 z) as [H | H]; [apply decZ_nonneg, H|rewrite decZ_neg by assumption; discriminate]. Qed.
Lemma toInt32_decZ z : int32_min <= z <= int32_max -> toInt32 (decZ z) = Some z.
Proof.
  intros R. assert (I : in_int32 z = true) by (unfold in_int32; lia).
  assert (K : forall n, 0 <= n -> exists c r, decZ n = c :: r /\ isDigit c = true).
  { intros n H. destruct (decZ_nonneg n H) as (N & D & _). destruct (decZ n) as [|c r]; [contradiction|]. exists c, r. cbn in D. apply andb_prop in D. tauto. }
  assert (DS : forall c r, isDigit c = true -> dropSpace (c :: r) = c :: r).
  { intros c r H. cbn. assert (isSpace c = false) as -> by (unfold isDigit, isSpace in *; lia). reflexivity. }
  unfold toInt32. destruct (Z.leb_spec 0 z) as [H | H].
  - destruct (K z H) as (c & r & E & D). destruct (decZ_nonneg z H) as (N & _ & G). specialize (G [] eq_refl). rewrite app_nil_r in G.
    rewrite E, DS by assumption. rewrite <- E.
    assert (X : takeSign (decZ z) = (false, decZ z)).
    { rewrite E. unfold takeSign. unfold isDigit in D. destruct c as [|p|p]; try reflexivity; try lia. do 7 (destruct p as [p|p|]; try reflexivity; try lia). }
    rewrite X, G, skipn_all, I. destruct (decZ z); [contradiction|reflexivity].
  - destruct (K (- z)) as (c & r & E & D); [lia|]. destruct (decZ_nonneg (- z)) as (N & _ & G); [lia|]. specialize (G [] eq_refl). rewrite app_nil_r in G.
    rewrite decZ_neg by assumption. change (dropSpace (45 :: decZ (- z))) with (45 :: decZ (- z)). cbn [takeSign]. rewrite G, skipn_all, Z.opp_involutive, I. destruct (decZ (- z)); [contradiction|reflexivity].
Qed.
Lemma splitFirst_app c a b : ~ In c a -> splitFirst c (a ++ c :: b) = Some (a, b).
Proof.
  induction a as [|x a IH]; intros H; cbn [app splitFirst]; [rewrite Z.eqb_refl; reflexivity|].
  assert (x =? c = false) as -> by (apply Z.eqb_neq; intros ->; apply H; left; reflexivity). rewrite IH by (intros X; apply H; right; exact X). reflexivity.
Qed.
Lemma cstr_id s : ~ In 0 s -> cstr s = s.
Proof.
  induction s as [|c s IH]; intros H; [reflexivity|]. cbn. assert (c =? 0 = false) as -> by (apply Z.eqb_neq; intros ->; apply H; left; reflexivity).
  rewrite IH; [reflexivity|]. intros X; apply H; right; exact X.
Qed.
(** the text of one host *)
Lemma hostText_ok h : plainHost h -> ~ In 44 (hostText h) /\ hostText h <> [] /\
  (forall sp, trimWs (repeat 32 sp ++ hostText h) = hostText h) /\ splitFirst 58 (hostText h) = Some (haHost h, decZ (haPort h)).
Proof.
  intros (H1 & H2 & H3 & H4 & H5). unfold hostText. rewrite cstr_id by assumption. splits.
  - rewrite in_app_iff. intros [X | [X | X]]; [auto|discriminate|]. apply decZ_chars in X. destruct X; discriminate.
  - destruct (haHost h); discriminate.
  - intros sp. unfold trimWs.
    assert (D1 : dropWs (repeat 32 sp ++ haHost h ++ [58] ++ decZ (haPort h)) = haHost h ++ [58] ++ decZ (haPort h)).
    { induction sp as [|sp IH]; [|exact IH]. cbn [repeat app]. destruct (haHost h) as [|c r] eqn:E; [reflexivity|]. cbn. rewrite (H4 c r eq_refl). reflexivity. }
    rewrite D1. destruct (decZ (haPort h)) as [|x l _] eqn:E using rev_ind; [destruct (decZ_nil _ E)|].
    assert (W : isWs x = false).
    { destruct (decZ_chars (haPort h) x) as [-> | X]; [rewrite E; apply in_or_app; right; left; reflexivity|reflexivity|]. unfold isDigit, isWs in *. lia. }
    rewrite !app_assoc, rev_unit. cbn [dropWs]. rewrite W. rewrite <- rev_unit, rev_involutive. reflexivity.
  - apply splitFirst_app. assumption.
Qed.
Lemma toHostsStr_eq hosts : forall s, s <> [] -> (forall h, In h hosts -> plainHost h) ->
  fold_left (fun s h => (if (List.length s =? 0)%nat then s else s ++ B ", ") ++ hostText h) hosts s = s ++ concat (map (fun h => 44 :: 32 :: hostText h) hosts).
Proof.
  induction hosts as [|h hosts IH]; intros s Ns H; cbn [fold_left map concat]; [rewrite app_nil_r; reflexivity|].
  rewrite IH; [|destruct s; [contradiction|discriminate]|intros x Hx; apply H; right; exact Hx].
  assert ((List.length s =? 0)%nat = false) as -> by (destruct s; [contradiction|reflexivity]). rewrite <- !app_assoc. reflexivity.
Qed.
Lemma split_hosts hosts : forall first, (forall h, In h (first :: hosts) -> plainHost h) -> forall sp fuel,
  (List.length (repeat 32%Z sp ++ hostText first ++ concat (map (fun h => 44%Z :: 32%Z :: hostText h) hosts)) < fuel)%nat ->
  splitFrom fuel [44] (repeat 32 sp ++ hostText first ++ concat (map (fun h => 44 :: 32 :: hostText h) hosts)) [] =
  (repeat 32 sp ++ hostText first) :: map (fun h => 32 :: hostText h) hosts.
Proof.
  induction hosts as [|h hosts IH]; intros first H sp fuel L.
  - cbn [map concat] in *. rewrite app_nil_r in *. rewrite split_tok; [reflexivity| |assumption]. destruct (hostText_ok first (H first (or_introl eq_refl))) as (N & _).
    rewrite in_app_iff. intros [X | X]; [apply repeat_spec in X; discriminate|contradiction].
  - cbn [map concat app] in *. rewrite app_assoc in *. destruct (hostText_ok first (H first (or_introl eq_refl))) as (N & _).
    destruct (split_piece 44 (repeat 32 sp ++ hostText first) (32 :: hostText h ++ concat (map (fun h => 44 :: 32 :: hostText h) hosts)) fuel []) as (f' & E & L').
    + rewrite in_app_iff. intros [X | X]; [apply repeat_spec in X; discriminate|contradiction].
    + rewrite app_length in L. cbn in L. cbn. lia.
    + rewrite E. cbn [app]. f_equal. apply (IH h) with (sp := 1%nat); [intros x Hx; apply H; right; exact Hx|exact L'].
Qed.
Lemma loop_hosts hosts : forall pieces, (forall h, In h hosts -> plainHost h) -> Forall2 (fun p h => exists sp, p = repeat 32 sp ++ hostText h) pieces hosts ->
  toHostsLoop pieces = Some hosts.
Proof.
  induction hosts as [|h hosts IH]; intros pieces H F; inversion F as [|p ? ps ? (sp & ->) F']; subst; [reflexivity|]. cbn [toHostsLoop].
  destruct (hostText_ok h (H h (or_introl eq_refl))) as (_ & _ & T & S). rewrite T, S. destruct (H h (or_introl eq_refl)) as (_ & _ & _ & _ & P).
  rewrite toInt32_decZ by exact P. rewrite (IH ps); [destruct h; reflexivity|intros x Hx; apply H; right; exact Hx|exact F'].
Qed.
(** What toHostsStr prints, toHosts reads back. *)
Theorem C72_round_trip : forall hosts, (forall h, In h hosts -> plainHost h) -> toHosts (toHostsStr hosts) = Some hosts.
Proof.
  intros [|h hosts] H; [reflexivity|]. unfold toHosts, toHostsStr. cbn [fold_left]. change ((if (List.length (@nil Z) =? 0)%nat then [] else [] ++ B ", ") ++ hostText h) with (hostText h).
  rewrite toHostsStr_eq; [|apply (hostText_ok h (H h (or_introl eq_refl)))|intros x Hx; apply H; right; exact Hx].
  apply loop_hosts; [exact H|]. unfold splitNonEmpty, follySplit. change (B ",") with [44].
  pose proof (split_hosts hosts h H 0%nat) as E. cbn [repeat app] in E. rewrite E by lia. cbn [filter].
  assert (Hne : strEqb (hostText h) [] = false) by (destruct (hostText_ok h (H h (or_introl eq_refl))) as (_ & N & _); destruct (hostText h); [contradiction|reflexivity]).
  rewrite Hne. cbn [negb]. constructor; [exists 0%nat; reflexivity|].
  clear. induction hosts as [|x hosts IH]; cbn [map filter]; [constructor|]. change (strEqb (32 :: hostText x) []) with false. cbn [negb]. constructor; [exists 1%nat; reflexivity|exact IH].
Qed.

Example C72_ex : toHostsStr [mkHost (B "10.0.0.1") 44500; mkHost (B "meta-1.local") (-7)] = B "10.0.0.1:44500, meta-1.local:-7" /\
  toHosts (B " 10.0.0.1:44500 ,,meta-1.local: -7") = Some [mkHost (B "10.0.0.1") 44500; mkHost (B "meta-1.local") (-7)] /\
  plainHost (mkHost (B "10.0.0.1") 44500).
Proof.
  split; [vm_compute; reflexivity|]. split; [vm_compute; reflexivity|]. unfold plainHost. splits; try (vm_compute; intuition discriminate).
  intros c r H. vm_compute in H. injection H as <- _. reflexivity.
Qed.
(** Everything toHosts returns has a port that fits an int32 and a host without colon and comma; a list in which
    one element has no colon or no port number is refused as a whole. *)
Lemma splitFirst_spec c s a b : splitFirst c s = Some (a, b) -> s = a ++ c :: b /\ ~ In c a.
Proof.
  revert a. induction s as [|x s IH]; intros a H; [discriminate|]. cbn in H. destruct (x =? c) eqn:E.
  - apply Z.eqb_eq in E. injection H as <- <-. subst. split; [reflexivity|tauto].
  - destruct (splitFirst c s) as [[a' b']|] eqn:E'; [|discriminate]. injection H as <- <-. destruct (IH a' eq_refl) as [-> N]. split; [reflexivity|].
    apply Z.eqb_neq in E. intros [X | X]; [auto|exact (N X)].
Qed.
Theorem C72_results : forall s hosts h, toHosts s = Some hosts -> In h hosts -> ~ In 58 (haHost h) /\ int32_min <= haPort h <= int32_max.
Proof.
  intros s hosts h. unfold toHosts. generalize (splitNonEmpty (B ",") s) as ps. intros ps. revert hosts.
  induction ps as [|p ps IH]; intros hosts H Hin; cbn in H; [injection H as <-; destruct Hin|].
  destruct (splitFirst 58 (trimWs p)) as [[a b]|] eqn:E; [|discriminate]. destruct (toInt32 b) as [z|] eqn:Ez; [|discriminate].
  destruct (toHostsLoop ps) as [l|]; [|discriminate]. injection H as <-. destruct Hin as [<- | Hin]; [|exact (IH l eq_refl Hin)].
  cbn. split; [apply (splitFirst_spec _ _ _ _ E)|]. unfold toInt32 in Ez. destruct (takeSign (dropSpace b)) as [neg s2]. destruct (digits s2 0) as [n v].
  destruct ((0 <? n)%nat && forallb isSpace (skipn n s2) && in_int32 (if neg then - v else v)) eqn:C; [|discriminate]. injection Ez as <-.
  rewrite !andb_true_iff in C. unfold in_int32 in C. lia.
Qed.
Lemma dropWs_part s : exists u, s = u ++ dropWs s.
Proof. induction s as [|c s [u IH]]; [exists []; reflexivity|]. cbn. destruct (isWs c); [exists (c :: u); cbn; congruence|exists []; reflexivity]. Qed.
Lemma trimWs_part s : exists u v, s = u ++ trimWs s ++ v.
Proof.
  destruct (dropWs_part s) as [u Hu]. unfold trimWs. destruct (dropWs_part (rev (dropWs s))) as [w Hw]. exists u, (rev w).
  rewrite <- rev_app_distr, <- Hw, rev_involutive. exact Hu.
Qed.
Lemma cuts_part d s ps p : cuts d s ps -> In p ps -> exists u v, s = u ++ p ++ v.
Proof.
  intros C. induction C as [s N|u v ps F C IH]; intros H.
  - destruct H as [<- | []]. exists [], []. rewrite app_nil_r. reflexivity.
  - destruct H as [<- | H]; [exists [], (d ++ v); reflexivity|]. destruct (IH H) as (a & b & ->). exists (u ++ d ++ a), b. rewrite <- !app_assoc. reflexivity.
Qed.
(** And each comes from the text: the host stands there, followed by a colon and a text of the port. *)
Theorem C72_from_the_text : forall s hosts h, toHosts s = Some hosts -> In h hosts ->
  exists u port v, s = u ++ haHost h ++ 58 :: port ++ v /\ toInt32 port = Some (haPort h).
Proof.
  intros s hosts h H Hin. unfold toHosts in H.
  assert (P : exists p, In p (splitNonEmpty (B ",") s) /\ exists b, splitFirst 58 (trimWs p) = Some (haHost h, b) /\ toInt32 b = Some (haPort h)).
  { revert hosts H Hin. generalize (splitNonEmpty (B ",") s) as ps. induction ps as [|p ps IH]; intros hosts H Hin; cbn in H; [injection H as <-; destruct Hin|].
    destruct (splitFirst 58 (trimWs p)) as [[a b]|] eqn:E; [|discriminate]. destruct (toInt32 b) as [z|] eqn:Ez; [|discriminate].
    destruct (toHostsLoop ps) as [l|]; [|discriminate]. injection H as <-. destruct Hin as [<- | Hin].
    - exists p. split; [left; reflexivity|]. exists b. split; assumption.
    - destruct (IH l eq_refl Hin) as (q & Hq & R). exists q. split; [right; exact Hq|exact R]. }
  destruct P as (p & Hp & b & Sp & T). apply filter_In in Hp. destruct Hp as [Hp _].
  destruct (cuts_part (B ",") s _ p (follySplit_cuts (B ",") s ltac:(discriminate)) Hp) as (u & v & ->). destruct (trimWs_part p) as (u' & v' & Hp').
  apply splitFirst_spec in Sp. destruct Sp as [Sp _]. exists (u ++ u'), b, (v' ++ v). split; [|exact T].
  rewrite Hp' at 1. rewrite Sp. rewrite <- !app_assoc. reflexivity.
Qed.
(** False for a host that contains a colon, as every IPv6 address does. *)
Theorem C72_ipv6_refuted : exists h, ~ In 44 (haHost h) /\ ~ In 0 (haHost h) /\ toHosts (toHostsStr [h]) = None.
Proof. exists (mkHost (B "::1") 80). splits; try (vm_compute; intuition discriminate). Qed.
Theorem C72_blank_refuted : exists h, ~ In 44 (haHost h) /\ ~ In 0 (haHost h) /\ ~ In 58 (haHost h) /\ toHosts (toHostsStr [h]) <> Some [h].
Proof. exists (mkHost (B " a") 80). splits; try (vm_compute; intuition discriminate). Qed.

Print Assumptions C72_from_the_text.
Print Assumptions C57_four_octets.
Print Assumptions C57_readable.
Print Assumptions C57_distinct.
Print Assumptions C72_round_trip.
Print Assumptions C72_results.
