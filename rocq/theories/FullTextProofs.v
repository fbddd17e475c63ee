(** Lemmas about the full-text commands: JSON texts read back, the shell's view of quoted texts, base64. *)
From Coq Require Import String Decimal DecimalString DecimalZ DecimalFacts List Permutation Lia.
From Verif Require Import Prelude ValueBase EvalModel NetModel DecProofs NetProps FullTextModel FullTextSpec.
Import ListNotations.
Local Open Scope Z_scope.
Local Open Scope list_scope.

(** * JSON *)
Section JsonInd.
  Variable P : json -> Prop.
  Hypothesis Hn : P JNull.
  Hypothesis Hb : forall b, P (JBool b).
  Hypothesis Hi : forall z, P (JInt z).
  Hypothesis Hs : forall s, P (JStr s).
  Hypothesis Ha : forall l, Forall P l -> P (JArr l).
  Hypothesis Ho : forall m, Forall (fun p => P (snd p)) m -> P (JObj m).
  Fixpoint json_rect' (j : json) : P j :=
    match j with
    | JNull => Hn | JBool b => Hb b | JInt z => Hi z | JStr s => Hs s
    | JArr l => Ha l ((fix G l := match l return Forall P l with [] => Forall_nil _ | x :: l' => Forall_cons _ (json_rect' x) (G l') end) l)
    | JObj m => Ho m ((fix G m := match m return Forall (fun p => P (snd p)) m with [] => Forall_nil _ | p :: m' => Forall_cons p (json_rect' (snd p)) (G m') end) m)
    end.
End JsonInd.

Lemma jsonAll_arr Q l : jsonAll Q (JArr l) <-> Forall (jsonAll Q) l.
Proof.
  split.
  - induction l as [|x l IH]; intros H; [apply Forall_nil|]. destruct H as [H1 H2]. apply Forall_cons; [exact H1|apply IH, H2].
  - induction l as [|x l IH]; intros H; [exact I|]. inversion H; subst. split; [assumption|apply IH; assumption].
Qed.
Lemma jsonAll_obj Q m : jsonAll Q (JObj m) <-> Forall (fun p => Forall Q (fst p) /\ jsonAll Q (snd p)) m.
Proof.
  split.
  - induction m as [|[k x] m IH]; intros H; [apply Forall_nil|]. destruct H as (H1 & H2 & H3). apply Forall_cons; [split; assumption|apply IH, H3].
  - induction m as [|[k x] m IH]; intros H; [exact I|]. inversion H as [|? ? X Y]; subst. destruct X. split; [assumption|split; [assumption|apply IH; assumption]].
Qed.
Definition jsonBytes_arr := jsonAll_arr isByte.
Definition jsonBytes_obj := jsonAll_obj isByte.

Lemma hexVal_digit n : 0 <= n < 16 -> hexVal (hexDigit n) = Some n.
Proof. intros H. unfold hexVal, hexDigit. destruct (Z.ltb_spec n 10); repeat match goal with |- context [if ?b then _ else _] => destruct b eqn:? end; f_equal; lia. Qed.
Lemma readStr_esc s r : Forall isByte s -> readStr (flat_map escByte s ++ 34 :: r) = Some (s, r).
Proof.
  induction s as [|c s IH]; intros H; [reflexivity|]. inversion H as [|? ? Hc Hs]; subst. specialize (IH Hs). unfold isByte in Hc.
  cbn [flat_map]. rewrite <- app_assoc. set (t := flat_map escByte s ++ 34 :: r) in *. clearbody t. unfold escByte.
  destruct (Z.eqb_spec c 34) as [-> | N1]; [cbn; rewrite IH; reflexivity|]. destruct (Z.eqb_spec c 92) as [-> | N2]; [cbn; rewrite IH; reflexivity|]. cbn [orb].
  destruct (Z.ltb_spec c 32) as [L | L].
  - destruct (Z.eqb_spec c 8) as [-> | ?]; [cbn; rewrite IH; reflexivity|]. destruct (Z.eqb_spec c 12) as [-> | ?]; [cbn; rewrite IH; reflexivity|].
    destruct (Z.eqb_spec c 10) as [-> | ?]; [cbn; rewrite IH; reflexivity|]. destruct (Z.eqb_spec c 13) as [-> | ?]; [cbn; rewrite IH; reflexivity|].
    destruct (Z.eqb_spec c 9) as [-> | ?]; [cbn; rewrite IH; reflexivity|].
    cbn [app readStr]. change (92 =? 34) with false. change (92 =? 92) with true. cbn iota.
    rewrite !hexVal_digit by lia. change (hexVal 48) with (Some 0). cbn iota. assert (c / 16 <? 8 = true) as -> by lia. rewrite IH. do 3 f_equal. lia.
  - cbn [app readStr]. assert (c =? 34 = false) as -> by lia. assert (c =? 92 = false) as -> by lia. assert (c <? 32 = false) as -> by lia. rewrite IH. reflexivity.
Qed.

Lemma readDigits_digits s : forall acc n z, digits s acc = (n, z) -> readDigits s acc = (z, skipn n s).
Proof.
  induction s as [|c s IH]; intros acc n z H; cbn in *; [inversion H; reflexivity|].
  unfold digit. destruct ((48 <=? c) && (c <=? 57)) eqn:D; [|inversion H; reflexivity].
  destruct (digits s (acc * 10 + (c - 48))) as [n' z'] eqn:E. inversion H; subst. cbn [skipn]. apply IH, E.
Qed.
Lemma readNat_decZ z r : 0 <= z -> stops r = true -> readNat (decZ z ++ r) = Some (z, r).
Proof.
  intros Hz Hr. destruct (decZ_nonneg z Hz) as (N & D & G). specialize (G r Hr). apply readDigits_digits in G.
  rewrite skipn_app, skipn_all, Nat.sub_diag in G. cbn in G. unfold readNat. destruct (decZ z) as [|c s]; [contradiction|]. cbn in D. apply andb_prop in D. destruct D as [D _].
  cbn [app]. unfold digit. unfold isDigit in D. rewrite D. f_equal. exact G.
Qed.

(** The first byte of a printed value *)
Definition jstart (c : Z) : Prop := c <> 93 /\ c <> 125 /\ c <> 39 /\ c <> 64 /\ c <> 10.
Lemma printJson_start j : exists c s, printJson j = c :: s /\ jstart c.
Proof.
  assert (R : jstart 110 /\ jstart 116 /\ jstart 102 /\ jstart 34 /\ jstart 91 /\ jstart 123 /\ jstart 45) by (unfold jstart; lia).
  destruct j as [|[]|z|s|l|m]; try (eexists _, _; split; [reflexivity|tauto]).
  cbn [printJson]. pose proof (decZ_chars z) as C. pose proof (decZ_nil z) as N. destruct (decZ z) as [|c s]; [contradiction|].
  exists c, s. split; [reflexivity|]. destruct (C c) as [-> | D]; [left; reflexivity|tauto|]. unfold isDigit in D. unfold jstart. lia.
Qed.

Lemma readElems_ok {A} (read : str -> option (A * str)) (pr : A -> str) close r :
  close <> 44 -> isDigit close = false ->
  forall l n, l <> [] -> (List.length l <= n)%nat ->
  Forall (fun x => forall t, stops t = true -> read (pr x ++ t) = Some (x, t)) l ->
  readElems read close n (joinStr [44] (map pr l) ++ close :: r) = Some (l, r).
Proof.
  intros Hc Hd. induction l as [|x l IH]; intros n N L F; [contradiction|]. inversion F as [|? ? Fx Fl]; subst.
  destruct n as [|n]; [cbn in L; lia|]. destruct l as [|y l].
  - cbn [map joinStr readElems]. rewrite Fx by (cbn; rewrite Hd; reflexivity). assert (close =? 44 = false) as -> by lia. rewrite Z.eqb_refl. reflexivity.
  - change (joinStr [44] (map pr (x :: y :: l))) with (pr x ++ [44] ++ joinStr [44] (map pr (y :: l))).
    rewrite <- app_assoc. cbn [readElems]. rewrite Fx by reflexivity. cbn [app]. change (44 =? 44) with true. cbn iota.
    rewrite IH; [reflexivity|discriminate|cbn in *; lia|assumption].
Qed.

Lemma joinStr_length sep l x : In x l -> (List.length x <= List.length (joinStr sep l))%nat.
Proof.
  induction l as [|y l IH]; intros H; [contradiction|]. destruct l as [|z l]; [destruct H as [-> | []]; reflexivity|].
  change (joinStr sep (y :: z :: l)) with (y ++ sep ++ joinStr sep (z :: l)). rewrite !app_length. destruct H as [-> | H]; [lia|]. specialize (IH H). lia.
Qed.
Lemma joinStr_count sep l : (forall x, In x l -> x <> []) -> (List.length l <= List.length (joinStr sep l))%nat.
Proof.
  induction l as [|y l IH]; intros H; [reflexivity|]. destruct l as [|z l].
  - specialize (H y (or_introl eq_refl)). cbn. destruct y; [contradiction|cbn; lia].
  - change (joinStr sep (y :: z :: l)) with (y ++ sep ++ joinStr sep (z :: l)). rewrite !app_length.
    assert (X : (List.length (z :: l) <= List.length (joinStr sep (z :: l)))%nat) by (apply IH; intros x Hx; apply H; right; exact Hx).
    pose proof (H y (or_introl eq_refl)) as N. destruct y; [contradiction|]. cbn [List.length] in *. lia.
Qed.

Lemma readValue_print j : forall f r, jsonBytes j -> (List.length (printJson j) < f)%nat -> stops r = true ->
  readValue f (printJson j ++ r) = Some (j, r).
Proof.
  induction j as [|b|z|s|l IH|m IH] using json_rect'; intros f r W L R; (destruct f as [|f]; [lia|]).
  - reflexivity.
  - destruct b; reflexivity.
  - cbn [printJson] in *. destruct (Z.leb_spec 0 z) as [Hz | Hz].
    + pose proof (readNat_decZ z r Hz R) as G. destruct (decZ_nonneg z Hz) as (N & D & _). destruct (decZ z) as [|c s]; [contradiction|].
      cbn in D. apply andb_prop in D. destruct D as [D _]. unfold isDigit in D. cbn [app] in *. cbn [readValue].
      assert (c =? 34 = false) as -> by lia. assert (c =? 91 = false) as -> by lia. assert (c =? 123 = false) as -> by lia.
      assert (E : forall p, hd c p <> c -> startsWith p (c :: s ++ r) = false) by (intros [|p q] X; [contradiction|]; unfold startsWith; cbn in *; assert (p =? c = false) as -> by lia; reflexivity).
      rewrite !E by (cbn; lia). assert (c =? 45 = false) as -> by lia. rewrite G. reflexivity.
    + rewrite decZ_neg by assumption. pose proof (readNat_decZ (- z) r) as G. cbn [app readValue]. change (45 =? 34) with false. change (45 =? 91) with false. change (45 =? 123) with false.
      change (startsWith (B "null") (45 :: decZ (- z) ++ r)) with false. change (startsWith (B "true") (45 :: decZ (- z) ++ r)) with false. change (startsWith (B "false") (45 :: decZ (- z) ++ r)) with false.
      change (45 =? 45) with true. cbn iota. rewrite G by (assumption || lia). do 3 f_equal. lia.
  - cbn [printJson] in *. unfold jsonQuote. rewrite <- !app_assoc. cbn [app readValue]. change (34 =? 34) with true. cbn iota. rewrite readStr_esc by exact W. reflexivity.
  - cbn [printJson] in *. rewrite <- !app_assoc. cbn [app readValue]. change (91 =? 34) with false. change (91 =? 91) with true. cbn iota.
    destruct l as [|x l].
    { reflexivity. }
    assert (X : readElems (readValue f) 93 f (joinStr [44] (map printJson (x :: l)) ++ 93 :: r) = Some (x :: l, r)).
    { rewrite app_length in L. cbn [List.length] in L.
      assert (LJ : forall y, In y (x :: l) -> (List.length (printJson y) <= List.length (joinStr [44%Z] (map printJson (x :: l))))%nat) by (intros y Hy; apply joinStr_length, in_map, Hy).
      assert (LC : (List.length (x :: l) <= List.length (joinStr [44%Z] (map printJson (x :: l))))%nat).
      { rewrite <- (map_length printJson (x :: l)). apply joinStr_count. intros y Hy. apply in_map_iff in Hy. destruct Hy as (j & <- & _). destruct (printJson_start j) as (c & s & -> & _). discriminate. }
      rewrite app_length in L. cbn [List.length] in L.
      apply readElems_ok; [lia|reflexivity|discriminate|lia|].
      apply Forall_forall. intros y Hy t Ht. rewrite Forall_forall in IH. apply IH; [exact Hy| |specialize (LJ y Hy); lia|exact Ht].
      apply jsonBytes_arr in W. rewrite Forall_forall in W. apply W, Hy. }
    destruct (printJson_start x) as (c & s & E & J). cbn [map] in *.
    assert (H : exists t, joinStr [44] (printJson x :: map printJson l) ++ 93 :: r = c :: t) by (rewrite E; destruct (map printJson l); eexists; reflexivity).
    destruct H as [t H]. unfold str in *. rewrite H in *. clear H. unfold jstart in J.
    destruct c as [|p|p]; try (rewrite X; reflexivity). do 7 (destruct p as [p|p|]; try (rewrite X; reflexivity)). lia.
  - cbn [printJson] in *. set (pr := fun p : str * json => jsonQuote (fst p) ++ [58] ++ printJson (snd p)) in *.
    rewrite <- !app_assoc. cbn [app readValue]. change (123 =? 34) with false. change (123 =? 91) with false. change (123 =? 123) with true. cbn iota.
    destruct m as [|x m].
    { reflexivity. }
    assert (X : readElems (readMember (readValue f)) 125 f (joinStr [44] (map pr (x :: m)) ++ 125 :: r) = Some (x :: m, r)).
    { rewrite app_length in L. cbn [List.length] in L.
      assert (LJ : forall y, In y (x :: m) -> (List.length (pr y) <= List.length (joinStr [44%Z] (map pr (x :: m))))%nat) by (intros y Hy; apply joinStr_length, in_map, Hy).
      assert (LC : (List.length (x :: m) <= List.length (joinStr [44%Z] (map pr (x :: m))))%nat).
      { rewrite <- (map_length pr (x :: m)). apply joinStr_count. intros y Hy. apply in_map_iff in Hy. destruct Hy as (j & <- & _). discriminate. }
      rewrite app_length in L. cbn [List.length] in L.
      apply readElems_ok; [lia|reflexivity|discriminate|lia|].
      apply Forall_forall. intros y Hy t Ht. rewrite Forall_forall in IH. apply jsonBytes_obj in W. rewrite Forall_forall in W. destruct (W y Hy) as [W1 W2].
      specialize (LJ y Hy). assert (LP : (List.length (printJson (snd y)) <= List.length (pr y))%nat) by (unfold pr; rewrite !app_length; lia).
      unfold pr, jsonQuote. rewrite <- !app_assoc. cbn [app readMember]. rewrite readStr_esc by exact W1. rewrite IH; [destruct y; reflexivity|exact Hy|exact W2|lia|exact Ht]. }
    assert (H : exists t, joinStr [44] (map pr (x :: m)) ++ 125 :: r = 34 :: t) by (cbn [map]; destruct (map pr m); eexists; reflexivity).
    destruct H as [t H]. unfold str in *. rewrite H in *. rewrite X. reflexivity.
Qed.

Lemma readJson_print j : jsonBytes j -> readJson (printJson j) = Some j.
Proof.
  intros H. unfold readJson. pose proof (readValue_print j (S (List.length (printJson j))) [] H) as X. rewrite app_nil_r in X.
  rewrite X; [reflexivity|lia|reflexivity].
Qed.

Section Arrange.
  Variable W : ftWorld.
  Hypothesis HW : forall m, Permutation m (wOrder W m).
  Lemma arrange_all Q j : jsonAll Q j -> jsonAll Q (arrange W j).
  Proof.
    induction j as [|b|z|s|l IH|m IH] using json_rect'; intros H; try exact H; cbn [arrange].
    - apply jsonAll_arr. apply jsonAll_arr in H. rewrite Forall_forall in *. intros x Hx. apply in_map_iff in Hx. destruct Hx as (y & <- & Hy). apply IH; auto.
    - apply jsonAll_obj. apply jsonAll_obj in H. rewrite Forall_forall in *. intros x Hx.
      apply (Permutation_in _ (Permutation_sym (HW _))) in Hx. apply in_map_iff in Hx. destruct Hx as (y & <- & Hy). cbn. destruct (H y Hy). split; [assumption|apply IH; auto].
  Qed.
  Lemma arrange_same j : jsame j (arrange W j).
  Proof.
    induction j as [|b|z|s|l IH|m IH] using json_rect'; try apply same_refl; cbn [arrange].
    - apply same_arr. induction IH; constructor; assumption.
    - destruct (Permutation_map_inv _ _ (Permutation_sym (HW (map (fun p => (fst p, arrange W (snd p))) m)))) as (m' & E & P).
      rewrite E. apply same_obj with (m' := m'); [exact P|]. assert (IH' : Forall (fun p => jsame (snd p) (arrange W (snd p))) m').
      { rewrite Forall_forall in *. intros p Hp. apply IH. apply (Permutation_in _ (Permutation_sym P)), Hp. }
      clear - IH'. induction IH'; constructor; auto.
  Qed.
  Lemma toJson_denotes j : jsonBytes j -> denotes (toJson W j) j.
  Proof. intros H. exists (arrange W j). split; [apply readJson_print, arrange_all, H|apply arrange_same]. Qed.
End Arrange.

(** jsame is transitive. *)
Lemma Forall2_swap {A C} (R : A -> C -> Prop) l l' : Forall2 R l l' -> Forall2 (fun y x => R x y) l' l.
Proof. induction 1; constructor; assumption. Qed.
Lemma Forall2_trans_in {A} (R : A -> A -> Prop) : forall l1 l2 l3,
  (forall x, In x l1 -> forall y z, R x y -> R y z -> R x z) -> Forall2 R l1 l2 -> Forall2 R l2 l3 -> Forall2 R l1 l3.
Proof.
  induction l1 as [|x l1 IH]; intros l2 l3 T H1 H2; inversion H1; subst; inversion H2; subst; constructor.
  - eapply T; [left; reflexivity|eassumption..].
  - eapply IH; [intros x' Hx; apply T; right; exact Hx|eassumption..].
Qed.
Lemma jsame_trans a : forall b c, jsame a b -> jsame b c -> jsame a c.
Proof.
  induction a as [|v|z|s|l IH|m IH] using json_rect'; intros b c H1 H2; inversion H1 as [|? ? F1|? m1 m2 P1 F1]; subst; try exact H2.
  - inversion H2 as [|? ? F2|]; subst; [exact H1|]. apply same_arr. eapply Forall2_trans_in; [|eassumption..]. rewrite Forall_forall in IH. intros x Hx y w. apply IH, Hx.
  - inversion H2 as [| |? m3 m4 P2 F2]; subst; [exact H1|].
    apply Forall2_swap in F1. destruct (Permutation_Forall2 P2 F1) as (m1' & Q & F1'). apply Forall2_swap in F1'. cbn beta in F1'.
    apply same_obj with (m' := m1'); [eapply perm_trans; eassumption|]. eapply Forall2_trans_in; [|eassumption..]. rewrite Forall_forall in IH.
    intros x Hx y w [E1 S1] [E2 S2]. split; [congruence|]. eapply IH; [|eassumption..]. apply (Permutation_in _ (Permutation_sym (perm_trans P1 Q))), Hx.
Qed.
Lemma jsame_perm m m' : Permutation m m' -> jsame (JObj m) (JObj m').
Proof. intros P. apply same_obj with (m' := m'); [exact P|]. clear. induction m'; constructor; auto using same_refl. Qed.
Lemma denotes_same s a b : jsame a b -> denotes s b -> denotes s a.
Proof. intros H (j & R & S). exists j. split; [exact R|]. eapply jsame_trans; eassumption. Qed.

(** * The bytes of a printed value *)
Lemma escByte_ge c d : isByte c -> In d (escByte c) -> 32 <= d.
Proof.
  unfold isByte, escByte, hexDigit. intros H. repeat match goal with |- context [if ?b then _ else _] => destruct b eqn:? end; cbn; intros X;
    repeat (destruct X as [<- | X]; [lia|]); contradiction.
Qed.
Lemma escByte_39 c d : isByte c -> c <> 39 -> In d (escByte c) -> d <> 39.
Proof.
  unfold isByte, escByte, hexDigit. intros H N. repeat match goal with |- context [if ?b then _ else _] => destruct b eqn:? end; cbn; intros X;
    repeat (destruct X as [<- | X]; [lia|]); contradiction.
Qed.
Section Bytes.
  Variables Q P : Z -> Prop.
  Hypothesis HE : forall c d, Q c -> In d (escByte c) -> P d.
  Hypothesis HP : forall c, 44 <= c -> P c.
  Hypothesis H34 : P 34.
  Lemma quote_all s : Forall Q s -> Forall P (jsonQuote s).
  Proof.
    intros H. unfold jsonQuote. apply Forall_app; split; [repeat constructor; exact H34|]. apply Forall_app; split; [|repeat constructor; exact H34].
    apply Forall_forall. intros d Hd. apply in_flat_map in Hd. destruct Hd as (c & Hc & Hd). rewrite Forall_forall in H. eapply HE; eauto.
  Qed.
  Lemma joinStr_all l : Forall (Forall P) l -> Forall P (joinStr [44] l).
  Proof.
    induction l as [|x l IH]; intros H; [apply Forall_nil|]. inversion H; subst. destruct l as [|y l]; [assumption|].
    change (joinStr [44] (x :: y :: l)) with (x ++ [44] ++ joinStr [44] (y :: l)). apply Forall_app; split; [assumption|]. apply Forall_app; split; [repeat constructor; apply HP; lia|auto].
  Qed.
  Lemma printJson_all j : jsonAll Q j -> Forall P (printJson j).
  Proof.
    induction j as [|b|z|s|l IH|m IH] using json_rect'; intros H; cbn [printJson].
    - cbn. repeat constructor; apply HP; lia.
    - destruct b; cbn; repeat constructor; apply HP; lia.
    - apply Forall_forall. intros c Hc. destruct (decZ_chars z c Hc) as [-> | D]; apply HP; [lia|]. unfold isDigit in D. lia.
    - apply quote_all, H.
    - apply Forall_app; split; [repeat constructor; apply HP; lia|]. apply Forall_app; split; [|repeat constructor; apply HP; lia]. apply joinStr_all.
      apply jsonAll_arr in H. rewrite Forall_forall in *. intros x Hx. apply in_map_iff in Hx. destruct Hx as (y & <- & Hy). auto.
    - apply Forall_app; split; [repeat constructor; apply HP; lia|]. apply Forall_app; split; [|repeat constructor; apply HP; lia]. apply joinStr_all.
      apply jsonAll_obj in H. rewrite Forall_forall in *. intros x Hx. apply in_map_iff in Hx. destruct Hx as (y & <- & Hy). destruct (H y Hy).
      apply Forall_app; split; [apply quote_all; assumption|]. apply Forall_app; split; [repeat constructor; apply HP; lia|auto].
  Qed.
End Bytes.
Lemma toJson_ge W j : (forall m, Permutation m (wOrder W m)) -> jsonBytes j -> Forall (fun c => 32 <= c) (toJson W j).
Proof. intros HW H. apply (printJson_all isByte); [apply escByte_ge|lia..|]. apply arrange_all; assumption. Qed.
Lemma toJson_39 W j : (forall m, Permutation m (wOrder W m)) -> jsonAll (fun c => isByte c /\ c <> 39) j -> Forall (fun c => c <> 39) (toJson W j).
Proof. intros HW H. apply (printJson_all (fun c => isByte c /\ c <> 39)); [intros c d []; apply escByte_39; assumption|lia..|]. apply arrange_all; assumption. Qed.

(** * The shell *)
Lemma sh_double s w ws cs r : forallb dqLiteral s = true -> shGo ShDouble (Some w) ws cs (s ++ r) = shGo ShDouble (Some (w ++ s)) ws cs r.
Proof.
  revert w. induction s as [|c s IH]; intros w H; [rewrite app_nil_r; reflexivity|]. cbn [forallb] in H. apply andb_prop in H. destruct H as [Hc Hs].
  unfold dqLiteral in Hc. cbn in Hc. cbn [app shGo]. assert (c =? 34 = false) as -> by lia. assert (c =? 92 = false) as -> by lia. assert (c =? 36 = false) as -> by lia. assert (c =? 96 = false) as -> by lia.
  cbn [orb]; unfold shPush. rewrite IH by assumption. rewrite <- app_assoc. reflexivity.
Qed.
Lemma sh_single_normalized s w ws cs r : shGo ShSingle (Some w) ws cs (normalizedJson s ++ r) = shGo ShSingle (Some (w ++ s)) ws cs r.
Proof.
  revert w. induction s as [|c s IH]; intros w; [rewrite app_nil_r; reflexivity|]. unfold normalizedJson in *. cbn [flat_map]. rewrite <- app_assoc.
  destruct (Z.eqb_spec c 39) as [-> | N].
  - cbn [app shGo]. change (39 =? 39) with true. change (92 =? 39) with false. change (92 =? 34) with false. change (92 =? 92) with true. change (39 =? 10) with false. unfold shOpen, shPush. rewrite IH, <- app_assoc. reflexivity.
  - cbn [app shGo]. assert (c =? 39 = false) as -> by lia. unfold shPush. rewrite IH, <- app_assoc. reflexivity.
Qed.
Lemma sh_single s w ws cs r : Forall (fun c => c <> 39) s -> shGo ShSingle (Some w) ws cs (s ++ r) = shGo ShSingle (Some (w ++ s)) ws cs r.
Proof.
  revert w. induction s as [|c s IH]; intros w H; [rewrite app_nil_r; reflexivity|]. inversion H; subst.
  cbn [app shGo]. assert (c =? 39 = false) as -> by lia. unfold shPush. rewrite IH, <- app_assoc by assumption. reflexivity.
Qed.
Lemma shLiteral_facts c : shLiteral c = true ->
  c <> 0 /\ (c =? 39) = false /\ (c =? 34) = false /\ (c =? 92) = false /\ (c =? 32) || (c =? 9) = false /\ (c =? 10) = false /\ (c =? 59) = false /\ shSpecial c = false /\ (c =? 61) = false.
Proof. unfold shLiteral, shSpecial. cbn. lia. Qed.
Lemma sh_plain s w ws cs r : forallb shLiteral s = true -> shGo ShPlain (Some w) ws cs (s ++ r) = shGo ShPlain (Some (w ++ s)) ws cs r.
Proof.
  revert w. induction s as [|c s IH]; intros w H; [rewrite app_nil_r; reflexivity|]. cbn [forallb] in H. apply andb_prop in H. destruct H as [Hc Hs].
  apply shLiteral_facts in Hc. destruct Hc as (_ & E1 & E2 & E3 & E4 & E5 & E6 & E7 & E8).
  cbn [app shGo]. rewrite E1, E2, E3, E4, E5, E6, E7, E8. cbn [orb andb]; unfold shPush. rewrite IH, <- app_assoc by assumption. reflexivity.
Qed.
Lemma sh_word s ws cs r : s <> [] -> forallb shLiteral s = true -> shGo ShPlain None ws cs (s ++ r) = shGo ShPlain (Some s) ws cs r.
Proof.
  intros N H. destruct s as [|c s]; [contradiction|]. cbn [forallb] in H. apply andb_prop in H. destruct H as [Hc Hs].
  apply shLiteral_facts in Hc. destruct Hc as (_ & E1 & E2 & E3 & E4 & E5 & E6 & E7 & E8).
  cbn [app shGo]. rewrite E1, E2, E3, E4, E5, E6, E7, E8. cbn [orb andb]; unfold shPush. rewrite sh_plain by assumption. reflexivity.
Qed.

Definition credWords (c : httpClient) : list str := match credentials c with None => [] | Some u => [B "-u"; u] end.
Lemma decZ_dq z : forallb dqLiteral (decZ z) = true.
Proof. apply forallb_forall. intros c H. apply decZ_chars in H. unfold isDigit, dqLiteral in *. cbn. lia. Qed.
Lemma sh_client c x ws cs r : plainClient c ->
  shGo ShPlain (Some x) ws cs (clientText c ++ r) = shGo ShDouble (Some (serverUrl c [])) (ws ++ [x] ++ credWords c) cs r.
Proof.
  intros (H1 & H2 & H3). unfold clientText, credWords, credentials.
  assert (U : forall y ws', shGo ShPlain (Some y) ws' cs (B " ""http://" ++ haHost (hcHost c) ++ B ":" ++ decZ (haPort (hcHost c)) ++ B "/" ++ r)
              = shGo ShDouble (Some (serverUrl c [])) (ws' ++ [y]) cs r).
  { intros y ws'. set (z := haHost (hcHost c) ++ _). change (shGo ShPlain (Some y) ws' cs (B " ""http://" ++ z)) with (shGo ShDouble (Some (B "http://")) (ws' ++ [y]) cs z).
    unfold z. rewrite !sh_double by (try assumption; try apply decZ_dq; reflexivity). unfold serverUrl. rewrite <- !app_assoc, app_nil_r. reflexivity. }
  destruct (hcUser c) as [|u0 u]; [cbn [app]; rewrite <- !app_assoc, U; reflexivity|].
  destruct (hcPassword c) as [|p0 p].
  - rewrite app_nil_r, <- !app_assoc. set (z := (u0 :: u) ++ _). change (shGo ShPlain (Some x) ws cs (B " -u " ++ z)) with (shGo ShPlain None ((ws ++ [x]) ++ [B "-u"]) cs z). unfold z.
    rewrite sh_word by (discriminate || assumption). rewrite U. rewrite <- !app_assoc. reflexivity.
  - rewrite <- !app_assoc. set (z := (u0 :: u) ++ _). change (shGo ShPlain (Some x) ws cs (B " -u " ++ z)) with (shGo ShPlain None ((ws ++ [x]) ++ [B "-u"]) cs z). unfold z.
    rewrite sh_word by (discriminate || assumption). rewrite !sh_plain by (assumption || reflexivity). rewrite U. rewrite <- !app_assoc. reflexivity.
Qed.

Lemma shell_nz cmd : Forall (fun c => c <> 0) cmd -> shell cmd = shGo ShPlain None [] [] cmd.
Proof. intros H. unfold shell. rewrite cstr_id; [reflexivity|]. intros X. rewrite Forall_forall in H. exact (H 0 X eq_refl). Qed.
Lemma nz_dq s : forallb dqLiteral s = true -> Forall (fun c => c <> 0) s.
Proof. intros H. rewrite forallb_forall in H. apply Forall_forall. intros c Hc. specialize (H c Hc). unfold dqLiteral in H. cbn in H. lia. Qed.
Lemma nz_lit s : forallb shLiteral s = true -> Forall (fun c => c <> 0) s.
Proof. intros H. rewrite forallb_forall in H. apply Forall_forall. intros c Hc. specialize (H c Hc). apply shLiteral_facts in H. tauto. Qed.
Lemma nz_ge s : Forall (fun c => 32 <= c) s -> Forall (fun c => c <> 0) s.
Proof. apply Forall_impl. intros; lia. Qed.
Lemma nz_norm s : Forall (fun c => c <> 0) s -> Forall (fun c => c <> 0) (normalizedJson s).
Proof.
  intros H. apply Forall_forall. intros d Hd. apply in_flat_map in Hd. destruct Hd as (c & Hc & Hd). rewrite Forall_forall in H. specialize (H c Hc).
  destruct (c =? 39); cbn in Hd; repeat (destruct Hd as [<- | Hd]; [lia|]); contradiction.
Qed.
Lemma nz_B (s : string) : forallb (fun c => negb (c =? 0)) (B s) = true -> Forall (fun c => c <> 0) (B s).
Proof. intros H. rewrite forallb_forall in H. apply Forall_forall. intros c Hc. specialize (H c Hc). lia. Qed.
Lemma nz_client c : plainClient c -> Forall (fun c => c <> 0) (clientText c).
Proof.
  intros (H1 & H2 & H3). unfold clientText. repeat (apply Forall_app; split); try (apply nz_B; reflexivity); try (apply nz_dq; (assumption || apply decZ_dq)).
  destruct (hcUser c) as [|u0 u]; [apply Forall_nil|]. repeat (apply Forall_app; split); [apply nz_B; reflexivity|apply nz_lit; assumption|].
  destruct (hcPassword c); [apply Forall_nil|]. apply Forall_app; split; [apply nz_B; reflexivity|apply nz_lit; assumption].
Qed.

(** a method after -X *)
Definition httpMethod (m : str) : Prop := m = B "GET" \/ m = B "PUT" \/ m = B "DELETE".
Lemma sh_curl m r : httpMethod m ->
  shGo ShPlain None [] [] (curlJson ++ B " -X" ++ m ++ r) = shGo ShPlain (Some (B "-X" ++ m)) [B "/usr/bin/curl"; B "-H"; jsonHeader] [] r.
Proof. intros [-> | [-> | ->]]; reflexivity. Qed.
Lemma sh_url c m path r : httpMethod m -> plainClient c -> forallb dqLiteral path = true ->
  shGo ShPlain None [] [] (curlJson ++ B " -X" ++ m ++ clientText c ++ path ++ B """" ++ r)
  = shGo ShPlain (Some (serverUrl c path)) ([B "/usr/bin/curl"; B "-H"; jsonHeader] ++ [B "-X" ++ m] ++ credWords c) [] r.
Proof.
  intros M C P. rewrite sh_curl, sh_client, sh_double by assumption. change (B """" ++ r) with (34 :: r). cbn [shGo]. change (34 =? 34) with true. cbn iota.
  unfold serverUrl. rewrite <- !app_assoc. reflexivity.
Qed.
Lemma curl_ok c m path ws data : httpMethod m ->
  (ws = [] /\ data = None \/ exists d, startsWith (B "@") d = false /\ d <> [] /\ ws = [B "-d" ++ d] /\ data = Some d) ->
  curl (([B "/usr/bin/curl"; B "-H"; jsonHeader] ++ [B "-X" ++ m] ++ credWords c) ++ serverUrl c path :: ws)
  = Some (mkRequest m (serverUrl c path) (credentials c) [jsonHeader] data).
Proof.
  intros M D.
  assert (T : forall user, curlGo (serverUrl c path :: ws) (Some m) None user [jsonHeader] None = Some (mkRequest m (serverUrl c path) user [jsonHeader] data)).
  { intros user. destruct D as [[-> ->] | (d & Hd & Hn & -> & ->)]; [reflexivity|].
    unfold serverUrl. change (B "http://") with (104 :: B "ttp://"). cbn [app]. destruct d as [|d0 d]; [contradiction|]. cbn [curlGo strEqb B startsWith firstn List.length]. 
    set (u := 104 :: _). transitivity (curlGo [B "-d" ++ (d0 :: d)] (Some m) (Some u) user [jsonHeader] None); [reflexivity|].
    transitivity (if startsWith (B "@") (d0 :: d) then None else Some (mkRequest m u user [jsonHeader] (Some (d0 :: d)))); [reflexivity|]. rewrite Hd. reflexivity. }
  unfold credWords. destruct M as [-> | [-> | ->]]; destruct (credentials c) as [u|];
    (etransitivity; [|apply T]; reflexivity).
Qed.
Lemma request_plain c m path : httpMethod m -> plainClient c -> forallb dqLiteral path = true ->
  requests (curlJson ++ B " -X" ++ m ++ clientText c ++ path ++ B """") (mkRequest m (serverUrl c path) (credentials c) [jsonHeader] None).
Proof.
  intros M C P. exists (([B "/usr/bin/curl"; B "-H"; jsonHeader] ++ [B "-X" ++ m] ++ credWords c) ++ [serverUrl c path]). split.
  - rewrite shell_nz.
    + rewrite <- (app_nil_r (B """")). rewrite sh_url by assumption. reflexivity.
    + generalize (nz_client c C). generalize (clientText c). intros ct NC. repeat (apply Forall_app; split); try exact NC; try (apply nz_B; reflexivity); try (apply nz_dq; assumption). destruct M as [-> | [-> | ->]]; apply nz_B; reflexivity.
  - apply curl_ok; [assumption|auto].
Qed.
Lemma request_data W c m path o : (forall m, Permutation m (wOrder W m)) -> httpMethod m -> plainClient c -> forallb dqLiteral path = true -> jsonBytes (JObj o) ->
  requests (curlJson ++ B " -X" ++ m ++ clientText c ++ path ++ B """" ++ B " -d'" ++ normalizedJson (toJson W (JObj o)) ++ B "'")
    (mkRequest m (serverUrl c path) (credentials c) [jsonHeader] (Some (toJson W (JObj o)))).
Proof.
  intros HW M C P J. exists (([B "/usr/bin/curl"; B "-H"; jsonHeader] ++ [B "-X" ++ m] ++ credWords c) ++ [serverUrl c path; B "-d" ++ toJson W (JObj o)]). split.
  - rewrite shell_nz.
    + rewrite sh_url by assumption. set (z := normalizedJson _ ++ _). set (ws := [B "/usr/bin/curl"; B "-H"; jsonHeader] ++ [B "-X" ++ m] ++ credWords c). clearbody ws.
      change (shGo ShPlain (Some (serverUrl c path)) ws [] (B " -d'" ++ z)) with (shGo ShSingle (Some (B "-d")) (ws ++ [serverUrl c path]) [] z). unfold z. rewrite sh_single_normalized.
      change (B "'") with [39]. cbn [shGo]. change (39 =? 39) with true. cbn iota. unfold shEndCmd, shEndWord.
      destruct ws; cbn [app]; [reflexivity|]. rewrite <- app_assoc. reflexivity.
    + assert (NJ : Forall (fun c => c <> 0) (normalizedJson (toJson W (JObj o)))) by (apply nz_norm, nz_ge, toJson_ge; assumption).
      revert NJ. generalize (normalizedJson (toJson W (JObj o))). intros nj NJ. generalize (nz_client c C). generalize (clientText c). intros ct NC. repeat (apply Forall_app; split); try exact NC; try exact NJ; try (apply nz_B; reflexivity); try (apply nz_dq; assumption).
      destruct M as [-> | [-> | ->]]; apply nz_B; reflexivity.
  - apply curl_ok; [assumption|]. right. exists (toJson W (JObj o)). splits; try reflexivity. discriminate.
Qed.

(** * base64 *)
Definition us (c : Z) : Z := if c =? 47 then 95 else c.
Definition b64Val (c : Z) : Z :=
  if (65 <=? c) && (c <=? 90) then c - 65 else if (97 <=? c) && (c <=? 122) then c - 71 else if (48 <=? c) && (c <=? 57) then c + 4 else if c =? 43 then 62 else 63.
Fixpoint unb64 (s : str) : str :=
  match s with
  | a :: b :: c :: d :: r =>
      if d =? 61 then (if c =? 61 then [b64Val a * 4 + b64Val b / 16] else [b64Val a * 4 + b64Val b / 16; b64Val b mod 16 * 16 + b64Val c / 4])
      else b64Val a * 4 + b64Val b / 16 :: b64Val b mod 16 * 16 + b64Val c / 4 :: b64Val c mod 4 * 64 + b64Val d :: unb64 r
  | _ => []
  end.
Lemma b64Val_char i : 0 <= i < 64 -> b64Val (us (b64Char i)) = i /\ us (b64Char i) <> 61.
Proof.
  intros H. unfold b64Char. destruct (Z.ltb_spec i 26); [|destruct (Z.ltb_spec i 52); [|destruct (Z.ltb_spec i 62); [|destruct (Z.eqb_spec i 62)]]];
    unfold us; match goal with |- context [?x =? 47] => destruct (Z.eqb_spec x 47); try lia end; unfold b64Val;
    repeat match goal with |- context [if ?b then _ else _] => destruct b eqn:? end; lia.
Qed.
Lemma unb64_ok : forall s, Forall isByte s -> unb64 (map us (base64 s)) = s.
Proof.
  fix G 1. intros [|a [|b [|c s]]] H.
  - reflexivity.
  - inversion H as [|? ? Ha _]; subst. unfold isByte in *. cbn [base64 map unb64]. change (us 61) with 61. change (61 =? 61) with true. cbn iota.
    rewrite !(fun i H => proj1 (b64Val_char i H)) by lia. f_equal. lia.
  - inversion H as [|? ? Ha H']; subst. inversion H' as [|? ? Hb _]; subst. unfold isByte in *. cbn [base64 map unb64]. change (us 61) with 61. change (61 =? 61) with true. cbn iota.
    assert (us (b64Char (b mod 16 * 4)) =? 61 = false) as -> by (apply Z.eqb_neq, b64Val_char; lia).
    rewrite !(fun i H => proj1 (b64Val_char i H)) by lia. f_equal; [lia|]. f_equal. lia.
  - inversion H as [|? ? Ha H']; subst. inversion H' as [|? ? Hb H'']; subst. inversion H'' as [|? ? Hc Hs]; subst. unfold isByte in Ha, Hb, Hc. cbn [base64 map unb64].
    assert (us (b64Char (c mod 64)) =? 61 = false) as -> by (apply Z.eqb_neq, b64Val_char; lia).
    rewrite !(fun i H => proj1 (b64Val_char i H)) by lia. rewrite (G s Hs). repeat (f_equal; try lia).
Qed.
Lemma base64_length : forall s, (List.length (base64 s) = 4 * ((List.length s + 2) / 3))%nat.
Proof.
  fix G 1. intros [|a [|b [|c s]]]; try reflexivity. cbn [base64 List.length]. rewrite G.
  replace (S (S (S (List.length s))) + 2)%nat with (1 * 3 + (List.length s + 2))%nat by lia. rewrite Nat.div_add_l by lia. lia.
Qed.
(** letters, digits and + - = _ *)
Definition docChar (c : Z) : bool :=
  ((48 <=? c) && (c <=? 57)) || ((65 <=? c) && (c <=? 90)) || ((97 <=? c) && (c <=? 122)) || existsb (Z.eqb c) (B "+-=_").
Lemma base64_chars : forall s, Forall isByte s -> Forall (fun c => docChar c = true) (map us (base64 s)).
Proof.
  assert (K : forall i, 0 <= i < 64 -> docChar (us (b64Char i)) = true).
  { intros i H. unfold b64Char. destruct (Z.ltb_spec i 26); [|destruct (Z.ltb_spec i 52); [|destruct (Z.ltb_spec i 62); [|destruct (Z.eqb_spec i 62)]]];
      unfold us; match goal with |- context [?x =? 47] => destruct (Z.eqb_spec x 47); try lia end; unfold docChar; cbn [existsb B map list_ascii_of_string]; try lia; reflexivity. }
  fix G 1. intros [|a [|b [|c s]]] H; cbn [base64 map].
  - constructor.
  - inversion H as [|? ? Ha _]; subst. unfold isByte in *. repeat constructor; try reflexivity; apply K; lia.
  - inversion H as [|? ? Ha H']; subst. inversion H' as [|? ? Hb _]; subst. unfold isByte in *. repeat constructor; try reflexivity; apply K; lia.
  - inversion H as [|? ? Ha H']; subst. inversion H' as [|? ? Hb H'']; subst. inversion H'' as [|? ? Hc Hs]; subst. unfold isByte in Ha, Hb, Hc.
    repeat (apply Forall_cons; [apply K; lia|]). apply G, Hs.
Qed.

(** * The length of a decimal text *)
Lemma uval_ge d : forall acc, 0 <= acc -> acc * 10 ^ Z.of_nat (List.length (B (NilEmpty.string_of_uint d))) <= uval d acc.
Proof.
  assert (K : forall c s, List.length (B (String c s)) = S (List.length (B s))) by reflexivity.
  induction d as [|d IH|d IH|d IH|d IH|d IH|d IH|d IH|d IH|d IH|d IH]; intros acc H; [cbn; lia|..];
    cbn [NilEmpty.string_of_uint uval]; rewrite K, Nat2Z.inj_succ, Z.pow_succ_r by lia;
    (etransitivity; [|apply IH; lia]); set (p := 10 ^ _); assert (0 < p) by (apply Z.pow_pos_nonneg; lia); nia.
Qed.
Lemma nzhead_D0 d d' : nzhead d <> D0 d'.
Proof. induction d; cbn; try discriminate. assumption. Qed.
Lemma decZ_length z n : 0 <= z < 10 ^ Z.of_nat n -> (0 < n)%nat -> (List.length (decZ z) <= n)%nat.
Proof.
  intros [Hz Hn] Np. unfold decZ. pose proof (DecimalZ.of_to z) as E.
  assert (P : exists u, Z.to_int z = Pos u) by (destruct z; cbn; eauto; lia). destruct P as [u P].
  assert (NU : unorm u = u).
  { pose proof (DecimalZ.to_of (Pos u)) as T. rewrite <- P, E in T at 1. rewrite P in T. cbn in T. injection T as T. symmetry. exact T. }
  rewrite P in *. cbn [NilZero.string_of_int Z.of_int] in *. unfold Z.of_uint in E. rewrite uval_of_uint in E. rewrite <- E in Hn. clear E P Hz.
  assert (K : forall c s, List.length (B (String c s)) = S (List.length (B s))) by reflexivity.
  assert (G : forall d k, 1 <= k -> uval d k < 10 ^ Z.of_nat n -> (S (List.length (B (NilEmpty.string_of_uint d))) <= n)%nat).
  { intros d k Hk Hu. pose proof (uval_ge d k) as X. assert (Y : 10 ^ Z.of_nat (List.length (B (NilEmpty.string_of_uint d))) < 10 ^ Z.of_nat n) by (set (q := 10 ^ Z.of_nat (List.length _)) in *; assert (0 < q) by (apply Z.pow_pos_nonneg; lia); nia).
    apply Z.pow_lt_mono_r_iff in Y; lia. }
  destruct u as [|d|d|d|d|d|d|d|d|d|d]; [cbn; lia|..];
    try (cbn [NilZero.string_of_uint NilEmpty.string_of_uint uval] in *; rewrite K; eapply G; [|exact Hn]; lia).
  unfold unorm in NU. cbn [nzhead] in NU. destruct (nzhead d) eqn:Q; try discriminate; [injection NU as <-; cbn; lia|]. exfalso. exact (nzhead_D0 _ _ Q).
Qed.

(** * Document identifiers *)
Lemma docVal_first v : docVal v = firstn 256 v.
Proof. unfold docVal, maxIndexType. destruct (Nat.ltb_spec 256 (List.length v)); [reflexivity|]. symmetry. apply firstn_all2. assumption. Qed.
Lemma firstn_bytes n v : Forall isByte v -> Forall isByte (firstn n v).
Proof. intros H. rewrite Forall_forall in *. intros c Hc. apply H. rewrite <- (firstn_skipn n v). apply in_or_app. left. exact Hc. Qed.
Lemma docId_eq W it : docId W it = docPart (diPart it) ++ wMd5 W (diColumn it) ++ map us (base64 (firstn 256 (diVal it))).
Proof. rewrite <- docVal_first. reflexivity. Qed.
Lemma isHex_doc c : isHex c -> docChar c = true.
Proof. unfold isHex, docChar. cbn. lia. Qed.
Lemma docPart_chars z : Forall (fun c => docChar c = true) (docPart z).
Proof.
  unfold docPart. apply Forall_app; split.
  - apply Forall_forall. intros c H. apply repeat_spec in H. subst. reflexivity.
  - apply Forall_forall. intros c H. apply decZ_chars in H. unfold isDigit, docChar in *. cbn. lia.
Qed.
Lemma docId_chars W it : worldOk W -> Forall isByte (diVal it) -> Forall (fun c => docChar c = true) (docId W it).
Proof.
  intros [HM _] V. rewrite docId_eq. apply Forall_app; split; [apply docPart_chars|]. apply Forall_app; split.
  - eapply Forall_impl; [apply isHex_doc|apply HM].
  - apply base64_chars, firstn_bytes, V.
Qed.
Lemma docPart_length z : 0 <= z <= int32_max -> List.length (docPart z) = 10%nat.
Proof.
  intros H. unfold docPart. rewrite app_length, repeat_length. assert ((List.length (decZ z) <= 10)%nat); [|lia].
  apply decZ_length; [|lia]. change (10 ^ Z.of_nat 10) with 10000000000. unfold int32_max in H. lia.
Qed.
Lemma digits_zeros n s z m : digits s 0 = (m, z) -> digits (repeat 48 n ++ s) 0 = ((n + m)%nat, z).
Proof. induction n as [|n IH]; intros H; [exact H|]. cbn [repeat app digits]. change ((48 <=? 48) && (48 <=? 57)) with true. cbn iota. change (0 * 10 + (48 - 48)) with 0. rewrite IH by exact H. reflexivity. Qed.
Lemma docPart_inj a b : 0 <= a -> 0 <= b -> docPart a = docPart b -> a = b.
Proof.
  intros Ha Hb E. destruct (decZ_nonneg a Ha) as (_ & _ & Ga). destruct (decZ_nonneg b Hb) as (_ & _ & Gb). specialize (Ga [] eq_refl). specialize (Gb [] eq_refl). rewrite app_nil_r in *.
  apply (digits_zeros (10 - List.length (decZ a))) in Ga. apply (digits_zeros (10 - List.length (decZ b))) in Gb. fold (docPart a) in Ga. fold (docPart b) in Gb. rewrite E in Ga. congruence.
Qed.
Lemma app_inj_len {A} (a b c d : list A) : List.length a = List.length c -> a ++ b = c ++ d -> a = c /\ b = d.
Proof. revert c. induction a as [|x a IH]; intros [|y c] L E; try discriminate; [auto|]. cbn in *. injection E as -> E. injection L as L. destruct (IH c L E). subst. auto. Qed.
Lemma docId_inj W a b : worldOk W -> 0 <= diPart a <= int32_max -> 0 <= diPart b <= int32_max -> Forall isByte (diVal a) -> Forall isByte (diVal b) ->
  docId W a = docId W b -> diPart a = diPart b /\ wMd5 W (diColumn a) = wMd5 W (diColumn b) /\ firstn 256 (diVal a) = firstn 256 (diVal b).
Proof.
  intros [HM _] Pa Pb Va Vb E. rewrite !docId_eq in E. apply app_inj_len in E; [|rewrite !docPart_length by assumption; reflexivity]. destruct E as [E1 E].
  apply app_inj_len in E; [|rewrite (proj1 (HM (diColumn a))), (proj1 (HM (diColumn b))); reflexivity]. destruct E as [E2 E].
  splits; [apply docPart_inj; lia || assumption|assumption|]. apply (f_equal unb64) in E. rewrite !unb64_ok in E by (apply firstn_bytes; assumption). exact E.
Qed.
Lemma docId_length W it : worldOk W -> 0 <= diPart it <= int32_max -> (List.length (docId W it) <= 386)%nat.
Proof.
  intros [HM _] P. rewrite docId_eq, !app_length, docPart_length, (proj1 (HM _)), map_length, base64_length by assumption.
  pose proof (firstn_le_length 256 (diVal it)) as L. assert (X : ((List.length (firstn 256 (diVal it)) + 2) / 3 <= (256 + 2) / 3)%nat) by (apply Nat.div_le_mono; lia).
  change ((256 + 2) / 3)%nat with 86%nat in X. lia.
Qed.

(** * Bulk *)
Lemma linesGo_line l r cur : Forall (fun c => c <> 10) l -> cur ++ l <> [] -> linesGo (l ++ 10 :: r) cur = (cur ++ l) :: linesGo r [].
Proof.
  revert cur. induction l as [|c l IH]; intros cur H N; cbn [app linesGo].
  - change (10 =? 10) with true. cbn iota. rewrite app_nil_r in *. destruct cur; [contradiction|reflexivity].
  - inversion H; subst. assert (c =? 10 = false) as -> by lia. rewrite IH; [rewrite <- app_assoc; reflexivity|assumption|]. rewrite <- app_assoc. destruct cur; discriminate.
Qed.

Lemma sh_bulk c r : plainClient c ->
  shGo ShPlain None [] [] (bulkHeader c ++ B " -d '" ++ r) = shGo ShSingle (Some []) ([B "/usr/bin/curl"; B "-H"; ndjsonHeader] ++ [B "-XPOST"] ++ credWords c ++ [serverUrl c (B "_bulk"); B "-d"]) [] r.
Proof.
  intros C. unfold bulkHeader. rewrite <- !app_assoc. set (z := clientText c ++ _).
  change (shGo ShPlain None [] [] (curlNdjson ++ B " -XPOST" ++ z)) with (shGo ShPlain (Some (B "-XPOST")) [B "/usr/bin/curl"; B "-H"; ndjsonHeader] [] z). unfold z.
  rewrite sh_client by assumption. set (ws := _ ++ [B "-XPOST"] ++ credWords c).
  change (shGo ShDouble (Some (serverUrl c [])) ws [] (B "_bulk""" ++ B " -d '" ++ r)) with (shGo ShSingle (Some []) (((ws ++ [((((serverUrl c [] ++ [95]) ++ [98]) ++ [117]) ++ [108]) ++ [107]]) ++ [B "-d"])) [] r).
  unfold ws, serverUrl. rewrite <- !app_assoc. reflexivity.
Qed.
Definition bulkText (W : ftWorld) (it : docItem) : str := toJson W (bulkMeta W it) ++ [10] ++ toJson W (bulkData W it) ++ [10].
Definition bulkable (it : docItem) : Prop := Forall (fun c => isByte c /\ c <> 39) (diIndex it) /\ Forall isByte (diVal it).
Lemma docChar_byte c : docChar c = true -> isByte c /\ c <> 39.
Proof. unfold docChar, isByte. cbn. lia. Qed.
Lemma bulkMeta_all W it : worldOk W -> bulkable it -> jsonAll (fun c => isByte c /\ c <> 39) (bulkMeta W it).
Proof.
  intros HW [HI HV]. assert (K : forall s : string, forallb (fun c => (0 <=? c) && (c <? 256) && negb (c =? 39)) (B s) = true -> Forall (fun c => isByte c /\ c <> 39) (B s)).
  { intros s H. rewrite forallb_forall in H. apply Forall_forall. intros c Hc. specialize (H c Hc). unfold isByte. lia. }
  cbn [bulkMeta obj1 jsonAll]. splits; try (apply K; reflexivity); try exact I; [|exact HI].
  eapply Forall_impl; [apply docChar_byte|]. apply docId_chars; assumption.
Qed.
Lemma B_bytes (s : string) : Forall isByte (B s).
Proof.
  unfold B. apply Forall_forall. intros c H. apply in_map_iff in H. destruct H as (a & <- & _). unfold isByte.
  pose proof (Ascii.N_ascii_bounded a). lia.
Qed.
Lemma bulkData_bytes W it : worldOk W -> Forall isByte (diVal it) -> jsonBytes (bulkData W it).
Proof.
  intros [HM _] HV. unfold jsonBytes. cbn [bulkData jsonAll]. splits; try apply B_bytes; try exact I; [rewrite docVal_first; apply firstn_bytes; exact HV|].
  eapply Forall_impl; [|apply HM]. unfold isHex, isByte. lia.
Qed.
Lemma jsonAll_impl (P Q : Z -> Prop) j : (forall c, P c -> Q c) -> jsonAll P j -> jsonAll Q j.
Proof.
  intros I. induction j as [|b|z|s|l IH|m IH] using json_rect'; intros H; try exact H.
  - eapply Forall_impl; [exact I|exact H].
  - apply jsonAll_arr. apply jsonAll_arr in H. rewrite Forall_forall in *. auto.
  - apply jsonAll_obj. apply jsonAll_obj in H. rewrite Forall_forall in *. intros x Hx. destruct (H x Hx). split; [eapply Forall_impl; [exact I|assumption]|auto].
Qed.
Lemma sh_items W items w ws cs r : worldOk W -> Forall bulkable items ->
  shGo ShSingle (Some w) ws cs (flat_map (bulkItem W) items ++ r) = shGo ShSingle (Some (w ++ flat_map (bulkText W) items)) ws cs r.
Proof.
  intros HW. revert w. induction items as [|it items IH]; intros w H; [cbn; rewrite app_nil_r; reflexivity|]. inversion H; subst.
  cbn [flat_map]. unfold bulkItem at 1. rewrite <- !app_assoc. rewrite sh_single by (apply toJson_39; [apply HW|apply bulkMeta_all; assumption]).
  rewrite sh_single by (repeat constructor; discriminate). rewrite sh_single_normalized. rewrite sh_single by (repeat constructor; discriminate). rewrite IH by assumption.
  unfold bulkText. rewrite <- !app_assoc. reflexivity.
Qed.
Lemma bulkText_lines W items : worldOk W -> Forall bulkable items ->
  linesGo (flat_map (bulkText W) items) [] = flat_map (fun it => [toJson W (bulkMeta W it); toJson W (bulkData W it)]) items.
Proof.
  intros HW H. assert (K : forall j, jsonBytes j -> Forall (fun c => c <> 10) (toJson W j) /\ toJson W j <> []).
  { intros j J. split; [eapply Forall_impl; [|apply toJson_ge; [apply HW|exact J]]; cbn; lia|]. unfold toJson. destruct (printJson_start (arrange W j)) as (c & s & -> & _). discriminate. }
  induction H as [|it items B H IH]; [reflexivity|]. cbn [flat_map]. unfold bulkText at 1. rewrite <- !app_assoc.
  assert (J1 : jsonBytes (bulkMeta W it)) by (eapply jsonAll_impl; [|apply bulkMeta_all; assumption]; cbn; tauto).
  assert (J2 : jsonBytes (bulkData W it)) by (apply bulkData_bytes; [assumption|apply B]).
  destruct (K _ J1), (K _ J2).
  cbn [app]. rewrite linesGo_line by assumption. rewrite linesGo_line by assumption. rewrite IH. reflexivity.
Qed.
