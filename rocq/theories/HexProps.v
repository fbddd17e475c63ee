(** Property C179: the hexadecimal text of bytes *)
From Coq Require Import String List.
From Verif Require Import Prelude ValueBase HexModel.
Import ListNotations.
Local Open Scope Z_scope.
Local Open Scope list_scope.

(** * Specification: two hexadecimal digits, then the character in brackets if it can be printed; bytes are separated by a blank *)
Definition digitChar (d : Z) : Z := if d <? 10 then 48 + d else 55 + d.
Definition shown (b : Z) : str := [digitChar (b / 16); digitChar (b mod 16)] ++ if (32 <=? b) && (b <=? 126) then [40; b; 41] else [].
Definition bytes (s : str) : Prop := Forall (fun b => 0 <= b < 256) s.
(** Reading it back: the next byte, and the rest behind the blank *)
Definition charDigit (c : Z) : Z := if c <? 65 then c - 48 else c - 55.
Fixpoint readHex (fuel : nat) (t : str) : str :=
  match fuel, t with
  | S f, h :: l :: r => let b := 16 * charDigit h + charDigit l in b :: readHex f (skipn (if (32 <=? b) && (b <=? 126) then 4 else 1) r)
  | _, _ => []
  end.

Lemma table_shown : forallb (fun n => strEqb (hexOf (Z.of_nat n)) (shown (Z.of_nat n))) (seq 0 256) = true.
Proof. vm_compute. reflexivity. Qed.
Lemma strEqb_true a : forall b, strEqb a b = true -> a = b.
Proof. induction a as [|x a IH]; intros [|y b] E; cbn in E; try discriminate; [reflexivity|]. apply andb_prop in E. destruct E as [E1 E2]. apply Z.eqb_eq in E1. f_equal; auto. Qed.
Lemma hexOf_shown b : 0 <= b < 256 -> hexOf b = shown b.
Proof.
  intros H. pose proof table_shown as T. rewrite forallb_forall in T. specialize (T (Z.to_nat b)). rewrite Z2Nat.id in T by lia.
  apply strEqb_true, T, in_seq. lia.
Qed.
(** The text is that of the bytes one by one, with blanks between. *)
Theorem C179_shape : forall s, bytes s -> toHexStr s = joinStr [32] (map shown s).
Proof.
  assert (G : forall s acc, bytes s -> fold_left (fun buf c => buf ++ B " " ++ hexOf c) s acc = acc ++ flat_map (fun c => 32 :: shown c) s).
  { induction s as [|b s IH]; intros acc H; cbn [fold_left flat_map]; [rewrite app_nil_r; reflexivity|]. inversion H; subst. rewrite IH by assumption. rewrite hexOf_shown by assumption. rewrite <- !app_assoc. reflexivity. }
  intros [|b s] H; [reflexivity|]. inversion H; subst. unfold toHexStr. rewrite G, hexOf_shown by assumption. clear. revert b. induction s as [|c s IH]; intros b; cbn [flat_map map joinStr]; [apply app_nil_r|].
  f_equal. cbn [app]. f_equal. apply IH.
Qed.
Lemma charDigit_char d : 0 <= d < 16 -> charDigit (digitChar d) = d.
Proof. intros H. unfold charDigit, digitChar. destruct (Z.ltb_spec d 10); [replace (48 + d <? 65) with true by lia; lia|replace (55 + d <? 65) with false by lia; lia]. Qed.
(** It tells the bytes: reading the digits gives them back. *)
Theorem C179_reads_back : forall s, bytes s -> readHex (length s) (toHexStr s) = s.
Proof.
  intros s H. rewrite C179_shape by exact H. induction s as [|b s IH]; [reflexivity|]. inversion H as [|x l Hb Hs]; subst. specialize (IH Hs).
  assert (D : 16 * charDigit (digitChar (b / 16)) + charDigit (digitChar (b mod 16)) = b) by (rewrite !charDigit_char by lia; lia).
  assert (J : exists r, joinStr [32] (map shown (b :: s)) = digitChar (b / 16) :: digitChar (b mod 16) :: r /\
    skipn (if (32 <=? b) && (b <=? 126) then 4 else 1) r = joinStr [32] (map shown s)).
  { destruct s as [|c s].
    - cbn [map joinStr]. unfold shown. eexists. split; [reflexivity|]. destruct ((32 <=? b) && (b <=? 126)); reflexivity.
    - cbn [map]. change (joinStr [32] (shown b :: shown c :: map shown s)) with (shown b ++ [32] ++ joinStr [32] (shown c :: map shown s)). unfold shown at 1. eexists. split; [reflexivity|]. destruct ((32 <=? b) && (b <=? 126)); reflexivity. }
  destruct J as (r & -> & J). cbn [length readHex]. rewrite D, J, IH. reflexivity.
Qed.
(** Different bytes have different texts. *)
Theorem C179_distinct : forall s t, bytes s -> bytes t -> toHexStr s = toHexStr t -> s = t.
Proof.
  assert (R : forall s f, bytes s -> (length s <= f)%nat -> readHex f (toHexStr s) = s).
  { intros s f H L. rewrite <- (C179_reads_back s H) at 2. rewrite C179_shape by exact H. revert f L. induction s as [|b s IH]; intros f L; [destruct f; reflexivity|].
    inversion H as [|x l Hb Hs]; subst. destruct f as [|f]; [cbn in L; lia|]. cbn [length].
    assert (D : 16 * charDigit (digitChar (b / 16)) + charDigit (digitChar (b mod 16)) = b) by (rewrite !charDigit_char by lia; lia).
    destruct s as [|c s].
    - cbn [map joinStr]. unfold shown. cbn [app readHex]. rewrite D. f_equal. destruct ((32 <=? b) && (b <=? 126)); cbn [skipn]; destruct f; reflexivity.
    - cbn [map]. change (joinStr [32] (shown b :: shown c :: map shown s)) with (shown b ++ [32] ++ joinStr [32] (map shown (c :: s))). unfold shown at 1 3. cbn [app]. cbn [readHex]. rewrite D. f_equal.
      destruct ((32 <=? b) && (b <=? 126)); cbn [app skipn]; apply IH; try assumption; cbn [length] in *; lia. }
  intros s t Hs Ht E. rewrite <- (R s (length s + length t)%nat Hs) by lia. rewrite E. apply R; [exact Ht|lia].
Qed.
Example C179_ex : toHexStr [0; 65; 41; 255] = B "00 41(A) 29()) FF" /\ readHex 4 (B "00 41(A) 29()) FF") = [0; 65; 41; 255] /\ toHexStr [] = [].
Proof. splits; reflexivity. Qed.
Print Assumptions C179_shape. Print Assumptions C179_reads_back. Print Assumptions C179_distinct.
