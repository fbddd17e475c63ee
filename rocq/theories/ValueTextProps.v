(** Theorems about the text of dates, times and other simple values (C183). *)
From Coq Require Import String List.
From Verif Require Import Prelude ValueBase DateModel DateSpec TimeModel TimeSpec ValueModel ValueProofs EvalModel DecProofs FullTextProofs ExprTextProofs CastProps.
Import ListNotations.
Local Open Scope list_scope.
Local Open Scope Z_scope.

(** The number z written with exactly n decimal digits. *)
Fixpoint written (n : nat) (z : Z) (s : str) : Prop :=
  match n, s with
  | O, [] => z = 0
  | S n', c :: s' => exists k r, 0 <= k <= 9 /\ 0 <= r < 10 ^ Z.of_nat n' /\ c = 48 + k /\ z = k * 10 ^ Z.of_nat n' + r /\ written n' r s'
  | _, _ => False
  end.

Lemma written_range n : forall z s, written n z s -> 0 <= z < 10 ^ Z.of_nat n.
Proof.
  destruct n as [|n]; intros z [|c s] H; try contradiction; cbn [written] in H; [subst; cbn; lia|].
  destruct H as (k & r & Hk & Hr & _ & -> & _). rewrite Nat2Z.inj_succ, Z.pow_succ_r by lia. nia.
Qed.
Lemma written_length n : forall z s, written n z s -> length s = n.
Proof. induction n as [|n IH]; intros z [|c s] H; try contradiction; auto. destruct H as (k & r & _ & _ & _ & _ & H). cbn. f_equal. eauto. Qed.
Lemma written_one n : forall z s t, written n z s -> written n z t -> s = t.
Proof.
  induction n as [|n IH]; intros z [|c s] [|d t] H K; try contradiction; auto.
  destruct H as (k & r & Hk & Hr & -> & -> & H), K as (k' & r' & Hk' & Hr' & -> & Q & K).
  assert (k = k') by nia. subst k'. assert (r = r') by lia. subst r'. f_equal. eauto.
Qed.
Lemma written_num n : forall z z' s, written n z s -> written n z' s -> z = z'.
Proof.
  induction n as [|n IH]; intros z z' [|c s] H K; try contradiction; cbn in H, K; [congruence|].
  destruct H as (k & r & Hk & Hr & -> & -> & H), K as (k' & r' & Hk' & Hr' & Q & -> & K). assert (k = k') by lia. subst. now rewrite (IH _ _ _ H K).
Qed.
(** texts compare as the numbers, and then as what follows *)
Lemma written_lt n : forall a b s t u v, written n a s -> written n b t ->
  strLtb (s ++ u) (t ++ v) = if a <? b then true else if b <? a then false else strLtb u v.
Proof.
  induction n as [|n IH]; intros a b [|c s] [|d t] u v H K; try contradiction.
  - cbn in H, K. subst. reflexivity.
  - destruct H as (k & r & Hk & Hr & -> & -> & H), K as (k' & r' & Hk' & Hr' & -> & -> & K). cbn [app strLtb].
    rewrite (IH _ _ _ _ u v H K). set (p := 10 ^ Z.of_nat n) in *. clearbody p.
    destruct (Z.ltb_spec (48 + k) (48 + k')) as [L|L]; cbn [orb].
    + replace (k * p + r <? k' * p + r') with true; [reflexivity|]. symmetry. apply Z.ltb_lt. nia.
    + destruct (Z.eqb_spec (48 + k) (48 + k')) as [Q|Q]; cbn [andb].
      * assert (k' = k) by lia. subst k'. replace (k * p + r <? k * p + r') with (r <? r') by (destruct (Z.ltb_spec r r'), (Z.ltb_spec (k * p + r) (k * p + r')); lia).
        replace (k * p + r' <? k * p + r) with (r' <? r) by (destruct (Z.ltb_spec r' r), (Z.ltb_spec (k * p + r') (k * p + r)); lia). reflexivity.
      * replace (k * p + r <? k' * p + r') with false by (symmetry; apply Z.ltb_ge; nia). replace (k' * p + r' <? k * p + r) with true by (symmetry; apply Z.ltb_lt; nia). reflexivity.
Qed.
Lemma written_app n s t u v z : written n z s -> written n z t -> s ++ u = t ++ v -> u = v.
Proof. intros H K. rewrite (written_one _ _ _ _ H K). apply app_inv_head. Qed.
(** the digits of a number, with zeros in front *)
Lemma digits_written s : Forall digit s -> forall acc, fold_left (fun a d => a * 10 + (d - 48)) s acc = acc * 10 ^ Z.of_nat (length s) + fold_left (fun a d => a * 10 + (d - 48)) s 0 /\
  written (length s) (fold_left (fun a d => a * 10 + (d - 48)) s 0) s.
Proof.
  induction 1 as [|c s Hc Hs IH]; intros acc; cbn [fold_left length].
  - cbn. split; [lia|reflexivity].
  - destruct (IH (acc * 10 + (c - 48))) as [I1 W]. destruct (IH (0 * 10 + (c - 48))) as [I2 _]. split.
    + rewrite I1, I2, Nat2Z.inj_succ, Z.pow_succ_r by lia. ring.
    + exists (c - 48), (fold_left (fun a d => a * 10 + (d - 48)) s 0). unfold digit in Hc. splits; auto; try lia; try exact (proj2 (written_range _ _ _ W)).
      exact (proj1 (written_range _ _ _ W)).
Qed.
Lemma zeros_written k n z s : written n z s -> written (k + n) z (repeat 48 k ++ s).
Proof.
  intros H. induction k as [|k IH]; [exact H|]. cbn [Nat.add repeat app written]. exists 0, z. pose proof (written_range _ _ _ IH). splits; auto; lia.
Qed.
Lemma dec_written z : 0 <= z -> written (length (decZ z)) z (decZ z).
Proof. intros H. destruct (valueOf_dec z H) as (V & D & _). destruct (digits_written _ D 0) as [_ W]. unfold valueOf in V. rewrite V in W. exact W. Qed.
Lemma pad_written n z : 0 <= z < 10 ^ Z.of_nat n -> (0 < n)%nat -> written n z (padZ n z).
Proof.
  intros H N. unfold padZ. replace (z <? 0) with false by lia. rewrite Z.abs_eq by lia. cbn [length Nat.add app].
  pose proof (decZ_length z n H N) as L. pose proof (zeros_written (n - length (decZ z)) _ _ _ (dec_written z ltac:(lia))) as W.
  replace (n - length (decZ z) + length (decZ z))%nat with n in W by lia. exact W.
Qed.
Lemma year_written z : 1000 <= z <= 9999 -> written 4 z (decZ z).
Proof.
  intros H. pose proof (decZ_length z 4 ltac:(cbn; lia) ltac:(lia)) as L. pose proof (dec_written z ltac:(lia)) as W. pose proof (written_range _ _ _ W) as R.
  destruct (length (decZ z)) as [|[|[|[|[|n]]]]]; cbn in R; try lia. exact W.
Qed.

(** ** Dates *)
Lemma month_len_31 b m : month_len b m <= 31.
Proof. unfold month_len. repeat match goal with |- context [match ?x with _ => _ end] => destruct x end; lia. Qed.
Lemma date_ranges d : valid_date gregorian_leap d -> 1 <= month d <= 12 /\ 1 <= day d <= 31.
Proof. intros (_ & Hm & Hd). pose proof (month_len_31 (gregorian_leap (year d)) (month d)). lia. Qed.
(** From the year 1000 to 9999 the text is the year in four digits, the month and the day in two. *)
Theorem C183_date : forall X d, valid_date gregorian_leap d -> 1000 <= year d <= 9999 ->
  exists y m k, vstr X (VDate d) = y ++ B "-" ++ m ++ B "-" ++ k /\ written 4 (year d) y /\ written 2 (month d) m /\ written 2 (day d) k.
Proof.
  intros X d V Y. destruct (date_ranges d V) as [Hm Hd].
  exists (decZ (year d)), (padZ 2 (month d)), (padZ 2 (day d)). splits; [reflexivity|now apply year_written|apply pad_written; cbn; lia..].
Qed.
(** The text of an existing date of any year is the text of no other. *)
Lemma dec_app y y' s t : stops s = true -> stops t = true -> decZ y ++ s = decZ y' ++ t -> y = y' /\ s = t.
Proof. intros Hs Ht E. pose proof (rdInt_dec y s Hs) as R. rewrite E, (rdInt_dec y' t Ht) in R. injection R as <- <-. auto. Qed.
Lemma app_same {A} (a b u v : list A) : length a = length b -> a ++ u = b ++ v -> a = b /\ u = v.
Proof.
  revert b. induction a as [|x a IH]; intros [|y b] L E; try discriminate L; auto. injection L as L. injection E as -> E. destruct (IH b L E) as [-> ->]. auto.
Qed.
Lemma pad_app n a b u v : (0 < n)%nat -> 0 <= a < 10 ^ Z.of_nat n -> 0 <= b < 10 ^ Z.of_nat n -> padZ n a ++ u = padZ n b ++ v -> a = b /\ u = v.
Proof.
  intros N A C E. pose proof (pad_written n a A N) as Wa. pose proof (pad_written n b C N) as Wb.
  apply app_same in E as [Q E]; [|now rewrite (written_length _ _ _ Wa), (written_length _ _ _ Wb)].
  split; [rewrite Q in Wa; exact (written_num _ _ _ _ Wa Wb)|exact E].
Qed.
Ltac chop E Q := match type of E with
  | padZ ?n ?a ++ _ = padZ ?n ?b ++ _ => apply pad_app in E as [Q E]; [|cbn; lia..]
  | padZ ?n ?a = padZ ?n ?b => let K := fresh in assert (K : padZ n a ++ [] = padZ n b ++ []) by (now rewrite !app_nil_r); apply pad_app in K as [Q _]; [|cbn; lia..]
  | B _ ++ _ = B _ ++ _ => apply app_inv_head in E
  end.
Theorem C183_date_tells : forall X a b, valid_date gregorian_leap a -> valid_date gregorian_leap b -> vstr X (VDate a) = vstr X (VDate b) -> a = b.
Proof.
  intros X [ya ma da] [yb mb db] Va Vb E. destruct (date_ranges _ Va) as [Ma Da], (date_ranges _ Vb) as [Mb Db]. cbn [vstr] in E. unfold dateStr in E. cbn [year month day] in *.
  apply dec_app in E as [-> E]; [|reflexivity..]. chop E Q0. chop E Q1. chop E Q2. chop E Q3. congruence.
Qed.
(** In these years texts compare as the dates do. *)
Lemma lt_after c u v : strLtb (c ++ u) (c ++ v) = strLtb u v.
Proof. induction c as [|x c IH]; [reflexivity|]. cbn. rewrite Z.ltb_irrefl, Z.eqb_refl. exact IH. Qed.
Lemma strLtb_nil s : strLtb s [] = false.
Proof. now destruct s. Qed.
Theorem C183_date_order : forall X a b, valid_date gregorian_leap a -> valid_date gregorian_leap b -> 1000 <= year a <= 9999 -> 1000 <= year b <= 9999 ->
  (vlessThan X (VStr (vstr X (VDate a))) (VStr (vstr X (VDate b))) = VBool true <-> date_before a b) /\
  vlessThan X (VStr (vstr X (VDate a))) (VStr (vstr X (VDate b))) = vlessThan X (VDate a) (VDate b).
Proof.
  intros X a b Va Vb Ya Yb. destruct (date_ranges _ Va) as [Ma Da], (date_ranges _ Vb) as [Mb Db].
  assert (Q : strLtb (dateStr a) (dateStr b) = dateLt a b).
  { unfold dateStr. rewrite (written_lt 4 (year a) (year b)) by (now apply year_written). rewrite lt_after, (written_lt 2 (month a) (month b)) by (apply pad_written; cbn; lia).
    rewrite lt_after, <- (app_nil_r (padZ 2 (day a))), <- (app_nil_r (padZ 2 (day b))), (written_lt 2 (day a) (day b)) by (apply pad_written; cbn; lia).
    unfold dateLt. cbn [strLtb].
    repeat match goal with |- context [?x <? ?y] => destruct (Z.ltb_spec x y) | |- context [?x =? ?y] => destruct (Z.eqb_spec x y) end; cbn [negb]; try reflexivity; lia. }
  assert (K : vlessThan X (VStr (vstr X (VDate a))) (VStr (vstr X (VDate b))) = VBool (dateLt a b)) by (rewrite <- Q; reflexivity).
  split; [|rewrite K; reflexivity]. rewrite K. unfold date_before, dateLt.
  destruct (Z.eqb_spec (year a) (year b)), (Z.eqb_spec (month a) (month b)), (Z.eqb_spec (day a) (day b)); cbn [negb];
    (split; [intros T; try discriminate T; injection T as T; lia|intros T; f_equal; lia]).
Qed.
(** Outside of them they do not: the year is not padded. *)
Theorem C183_date_order_refuted : exists a b, valid_date gregorian_leap a /\ valid_date gregorian_leap b /\ date_before a b /\
  forall X, vlessThan X (VStr (vstr X (VDate b))) (VStr (vstr X (VDate a))) = VBool true.
Proof. exists (mkDate 999 12 31), (mkDate 1000 1 1). splits; [repeat split; vm_compute; discriminate|repeat split; vm_compute; discriminate|left; reflexivity|intros X; reflexivity]. Qed.

(** ** Times of day *)
Definition time_before (a b : time) : Prop :=
  thour a < thour b \/ thour a = thour b /\ (tminute a < tminute b \/ tminute a = tminute b /\ (tsec a < tsec b \/ tsec a = tsec b /\ tmicro a < tmicro b)).
Theorem C183_time : forall X t, valid_time t ->
  exists h m s u, vstr X (VTime t) = h ++ B ":" ++ m ++ B ":" ++ s ++ B "." ++ u /\
    written 2 (thour t) h /\ written 2 (tminute t) m /\ written 2 (tsec t) s /\ written 6 (tmicro t) u.
Proof.
  intros X t ((Hh & Hm & Hs) & Hu). exists (padZ 2 (thour t)), (padZ 2 (tminute t)), (padZ 2 (tsec t)), (padZ 6 (tmicro t)).
  splits; [reflexivity|apply pad_written; cbn; lia..].
Qed.
Theorem C183_time_tells : forall X a b, valid_time a -> valid_time b -> vstr X (VTime a) = vstr X (VTime b) -> a = b.
Proof.
  intros X [h1 m1 s1 u1] [h2 m2 s2 u2] ((Ha & Ma & Sa) & Ua) ((Hb & Mb & Sb) & Ub) E. cbn [vstr] in E. unfold timeStr in E. cbn [thour tminute tsec tmicro] in *.
  chop E Q0. chop E Q1. chop E Q2. chop E Q3. chop E Q4. chop E Q5. chop E Q6. congruence.
Qed.
Theorem C183_time_order : forall X a b, valid_time a -> valid_time b ->
  (vlessThan X (VStr (vstr X (VTime a))) (VStr (vstr X (VTime b))) = VBool true <-> time_before a b) /\
  vlessThan X (VStr (vstr X (VTime a))) (VStr (vstr X (VTime b))) = vlessThan X (VTime a) (VTime b).
Proof.
  intros X a b ((Ha & Ma & Sa) & Ua) ((Hb & Mb & Sb) & Ub).
  assert (Q : strLtb (timeStr a) (timeStr b) = timeLt a b).
  { unfold timeStr. rewrite (written_lt 2 (thour a) (thour b)) by (apply pad_written; cbn; lia). rewrite lt_after, (written_lt 2 (tminute a) (tminute b)) by (apply pad_written; cbn; lia).
    rewrite lt_after, (written_lt 2 (tsec a) (tsec b)) by (apply pad_written; cbn; lia).
    rewrite lt_after, <- (app_nil_r (padZ 6 (tmicro a))), <- (app_nil_r (padZ 6 (tmicro b))), (written_lt 6 (tmicro a) (tmicro b)) by (apply pad_written; cbn; lia).
    unfold timeLt, timeFields. cbn [strLtb lexLt].
    repeat match goal with |- context [?x <? ?y] => destruct (Z.ltb_spec x y) | |- context [?x =? ?y] => destruct (Z.eqb_spec x y) end; cbn [negb]; try reflexivity; lia. }
  assert (K : vlessThan X (VStr (vstr X (VTime a))) (VStr (vstr X (VTime b))) = VBool (timeLt a b)) by (rewrite <- Q; reflexivity).
  split; [|rewrite K; reflexivity]. rewrite K. unfold time_before, timeLt, timeFields. cbn [lexLt].
  destruct (Z.eqb_spec (thour a) (thour b)), (Z.eqb_spec (tminute a) (tminute b)), (Z.eqb_spec (tsec a) (tsec b)), (Z.eqb_spec (tmicro a) (tmicro b)); cbn [negb];
    (split; [intros T; try discriminate T; injection T as T; lia|intros T; f_equal; lia]).
Qed.

(** ** Date-times *)
Theorem C183_datetime : forall X t, valid_datetime t ->
  exists h m s, vstr X (VDateTime t) = vstr X (VDate (date_of t)) ++ B "T" ++ h ++ B ":" ++ m ++ B ":" ++ s ++ B "." ++ vstr X (VInt (dmicro t)) /\
    written 2 (dhour t) h /\ written 2 (dminute t) m /\ written 2 (dsec t) s.
Proof.
  intros X t (_ & (Hh & Hm & Hs) & _). exists (padZ 2 (dhour t)), (padZ 2 (dminute t)), (padZ 2 (dsec t)).
  splits; [cbn [vstr]; unfold datetimeStr, dateStr, date_of; cbn [year month day]; rewrite <- !app_assoc; reflexivity|apply pad_written; cbn; lia..].
Qed.
Theorem C183_datetime_tells : forall X a b, valid_datetime a -> valid_datetime b -> vstr X (VDateTime a) = vstr X (VDateTime b) -> a = b.
Proof.
  intros X [y1 o1 d1 h1 m1 s1 u1] [y2 o2 d2 h2 m2 s2 u2] (Va & (Ha & Ma & Sa) & Ua) (Vb & (Hb & Mb & Sb) & Ub) E. destruct (date_ranges _ Va) as [Ma' Da], (date_ranges _ Vb) as [Mb' Db].
  cbn [vstr] in E. unfold datetimeStr, date_of in *. cbn [dyear dmonth dday dhour dminute dsec dmicro year month day] in *.
  apply dec_app in E as [-> E]; [|reflexivity..]. chop E Q0. chop E Q1. chop E Q2. chop E Q3. chop E Q4. chop E Q5. chop E Q6. chop E Q7. chop E Q8. chop E Q9. chop E R0.
  assert (K : decZ u1 ++ [] = decZ u2 ++ []) by (now rewrite !app_nil_r). apply dec_app in K as [K _]; [|reflexivity..]. congruence.
Qed.
(** Date-times of different seconds compare as their texts do. *)
Definition second_before (a b : datetime) : Prop :=
  date_before (date_of a) (date_of b) \/ date_of a = date_of b /\
  (dhour a < dhour b \/ dhour a = dhour b /\ (dminute a < dminute b \/ dminute a = dminute b /\ dsec a < dsec b)).
Theorem C183_datetime_order : forall X a b, valid_datetime a -> valid_datetime b -> 1000 <= dyear a <= 9999 -> 1000 <= dyear b <= 9999 -> second_before a b ->
  vlessThan X (VStr (vstr X (VDateTime a))) (VStr (vstr X (VDateTime b))) = VBool true /\ vlessThan X (VStr (vstr X (VDateTime b))) (VStr (vstr X (VDateTime a))) = VBool false.
Proof.
  intros X a b (Va & (Ha & Ma & Sa) & Ua) (Vb & (Hb & Mb & Sb) & Ub) Ya Yb S. destruct (date_ranges _ Va) as [Ma' Da], (date_ranges _ Vb) as [Mb' Db].
  unfold second_before, date_before, date_of in *. cbn [year month day] in *.
  assert (S' : dyear a < dyear b \/ dyear a = dyear b /\ (dmonth a < dmonth b \/ dmonth a = dmonth b /\ (dday a < dday b \/ dday a = dday b /\
    (dhour a < dhour b \/ dhour a = dhour b /\ (dminute a < dminute b \/ dminute a = dminute b /\ dsec a < dsec b))))).
  { destruct S as [S|[S1 S2]]; [lia|]. injection S1 as -> -> ->. lia. }
  assert (G : forall a b, 1000 <= dyear a <= 9999 -> 1000 <= dyear b <= 9999 -> 1 <= dmonth a <= 12 -> 1 <= dmonth b <= 12 -> 1 <= dday a <= 31 -> 1 <= dday b <= 31 ->
    0 <= dhour a <= 23 -> 0 <= dhour b <= 23 -> 0 <= dminute a <= 59 -> 0 <= dminute b <= 59 -> 0 <= dsec a <= 59 -> 0 <= dsec b <= 59 ->
    strLtb (datetimeStr a) (datetimeStr b) = if dyear a <? dyear b then true else if dyear b <? dyear a then false else
      if dmonth a <? dmonth b then true else if dmonth b <? dmonth a then false else if dday a <? dday b then true else if dday b <? dday a then false else
      if dhour a <? dhour b then true else if dhour b <? dhour a then false else if dminute a <? dminute b then true else if dminute b <? dminute a then false else
      if dsec a <? dsec b then true else if dsec b <? dsec a then false else strLtb (B "." ++ decZ (dmicro a)) (B "." ++ decZ (dmicro b))).
  { clear. intros a b. intros. unfold datetimeStr. rewrite (written_lt 4 (dyear a) (dyear b)) by (now apply year_written). rewrite lt_after, (written_lt 2 (dmonth a) (dmonth b)) by (apply pad_written; cbn; lia).
    rewrite lt_after, (written_lt 2 (dday a) (dday b)) by (apply pad_written; cbn; lia). rewrite lt_after, (written_lt 2 (dhour a) (dhour b)) by (apply pad_written; cbn; lia).
    rewrite lt_after, (written_lt 2 (dminute a) (dminute b)) by (apply pad_written; cbn; lia). rewrite lt_after, (written_lt 2 (dsec a) (dsec b)) by (apply pad_written; cbn; lia). reflexivity. }
  cbn [vstr].
  assert (K1 : strLtb (datetimeStr a) (datetimeStr b) = true).
  { rewrite G by assumption. repeat match goal with |- context [?x <? ?y] => destruct (Z.ltb_spec x y) end; try reflexivity; lia. }
  assert (K2 : strLtb (datetimeStr b) (datetimeStr a) = false).
  { rewrite G by assumption. repeat match goal with |- context [?x <? ?y] => destruct (Z.ltb_spec x y) end; try reflexivity; lia. }
  split; [change (VBool (strLtb (datetimeStr a) (datetimeStr b)) = VBool true)|change (VBool (strLtb (datetimeStr b) (datetimeStr a)) = VBool false)]; congruence.
Qed.
(** Within a second they do not: the microseconds are not padded, so that 5 of them read as a half second. *)
Theorem C183_microseconds_refuted : exists a b, valid_datetime a /\ valid_datetime b /\ dmicro a = 5 /\ dmicro b = 40 /\ (forall X, vlessThan X (VDateTime a) (VDateTime b) = VBool true) /\
  (forall X, vlessThan X (VStr (vstr X (VDateTime b))) (VStr (vstr X (VDateTime a))) = VBool true) /\ (forall X, vstr X (VDateTime a) = B "2020-02-29T12:30:00.5").
Proof. exists (mkDT 2020 2 29 12 30 0 5), (mkDT 2020 2 29 12 30 0 40). splits; [repeat split; vm_compute; discriminate|repeat split; vm_compute; discriminate|intros; reflexivity..]. Qed.

(** ** All simple values *)
Definition simple (v : value) : Prop :=
  match v with
  | VEmpty | VNull _ | VBool _ | VInt _ | VStr _ => True
  | VDate d => valid_date gregorian_leap d
  | VTime t => valid_time t
  | VDateTime t => valid_datetime t
  | _ => False
  end.
(** the kind of value a text is of *)
Definition has (c : Z) (s : str) : bool := existsb (Z.eqb c) s.
Definition textKind (s : str) : Z :=
  match s with
  | [] => 0
  | c :: r => if c =? 34 then 1 else if (c =? 95) || (c =? 78) then 2 else if (c =? 116) || (c =? 102) then 3
              else if has 84 s then 4 else if has 58 s then 5 else if has 45 r then 6 else 7
  end.
Lemma has_app c a b : has c (a ++ b) = has c a || has c b.
Proof. apply existsb_app. Qed.
Lemma written_no n c : isDigit c = false -> forall z s, written n z s -> has c s = false.
Proof.
  intros D. induction n as [|n IH]; intros z [|x s] H; try contradiction; [reflexivity|]. destruct H as (k & r & Hk & Hr & -> & _ & H). change (has c ((48 + k) :: s)) with ((c =? 48 + k) || has c s).
  rewrite (IH _ _ H), orb_false_r. unfold isDigit in D. lia.
Qed.
Lemma dec_head2 z : exists c s, decZ z = c :: s /\ (c = 45 \/ isDigit c = true) /\ forallb isDigit s = true.
Proof.
  destruct (Z.leb_spec 0 z) as [H|H].
  - destruct (decZ_nonneg z H) as (N & D & _). destruct (decZ z) as [|c s]; [congruence|]. cbn in D. apply andb_true_iff in D as [D1 D2]. eauto 6.
  - rewrite decZ_neg by exact H. destruct (decZ_nonneg (- z) ltac:(lia)) as (N & D & _). exists 45, (decZ (- z)). auto.
Qed.
Lemma digits_no c s : isDigit c = false -> forallb isDigit s = true -> has c s = false.
Proof.
  intros D F. destruct (has c s) eqn:E; auto. apply existsb_exists in E as [x [I Q]]. apply Z.eqb_eq in Q. subst x. rewrite forallb_forall in F. rewrite (F c I) in D. discriminate D.
Qed.
Definition kindNo (v : value) : Z :=
  match v with VStr _ => 1 | VEmpty | VNull _ => 2 | VBool _ => 3 | VDateTime _ => 4 | VTime _ => 5 | VDate _ => 6 | _ => 7 end.
Lemma kind_numeric c s : c = 45 \/ isDigit c = true -> textKind (c :: s) = if has 84 s then 4 else if has 58 s then 5 else if has 45 s then 6 else 7.
Proof.
  intros H. cbn [textKind]. unfold has. cbn [existsb]. unfold isDigit in H.
  replace (c =? 34) with false by lia. replace (c =? 95) with false by lia. replace (c =? 78) with false by lia. replace (c =? 116) with false by lia.
  replace (c =? 102) with false by lia. replace (84 =? c) with false by lia. replace (58 =? c) with false by lia. reflexivity.
Qed.
Ltac nos1 c := repeat first [rewrite (has_app c) | rewrite (digits_no c _ eq_refl) by eassumption
  | match goal with |- context [has c (padZ ?n ?z)] => rewrite (written_no n c eq_refl z (padZ n z)) by (apply pad_written; cbn; lia) end].
Ltac nos := nos1 84; nos1 58; nos1 45; cbn [has existsb B map list_ascii_of_string app orb].
Lemma kind_text X v : simple v -> textKind (vstr X v) = kindNo v.
Proof.
  destruct v as [| n |b| z | |s| d| t| t| | | | | | |]; intros S; try contradiction S; try reflexivity.
  - destruct n; reflexivity.
  - destruct b; reflexivity.
  - cbn [vstr]. destruct (dec_head2 z) as (c & s & -> & Hc & Hs). rewrite kind_numeric by exact Hc. nos. reflexivity.
  - cbn [vstr]. unfold dateStr. destruct (dec_head2 (year d)) as (c & s & -> & Hc & Hs). destruct (date_ranges _ S) as [Hm Hd]. cbn [app]. rewrite kind_numeric by exact Hc. nos. reflexivity.
  - destruct S as ((Hh & Hm & Hs) & Hu). cbn [vstr]. unfold timeStr. assert (W : written 2 (thour t) (padZ 2 (thour t))) by (apply pad_written; cbn; lia).
    destruct (padZ 2 (thour t)) as [|c s]; [contradiction W|]. destruct W as (k & r & Hk & Hr & -> & _ & W). cbn [app]. rewrite kind_numeric by (right; unfold isDigit; lia).
    rewrite has_app, (written_no _ 84 eq_refl _ _ W), (has_app 58 s), (written_no _ 58 eq_refl _ _ W). nos. reflexivity.
  - destruct S as (Sd & (Hh & Hm & Hs) & Hu). cbn [vstr]. unfold datetimeStr. destruct (dec_head2 (dyear t)) as (c & s & -> & Hc & Hs'). destruct (date_ranges _ Sd) as [Ho Hd].
    unfold date_of in *. cbn [year month day] in *. cbn [app]. rewrite kind_numeric by exact Hc. nos. reflexivity.
Qed.
(** The text of a simple value that is no float is the text of no other. *)
Theorem C183_tells : forall X a b, simple a -> simple b -> vstr X a = vstr X b -> a = b.
Proof.
  intros X a b Sa Sb E. pose proof (kind_text X a Sa) as Ka. pose proof (kind_text X b Sb) as Kb. rewrite E, Kb in Ka. clear Kb.
  destruct a, b; try contradiction Sa; try contradiction Sb; cbn in Ka; try discriminate Ka; clear Ka; cbn [vstr] in E.
  - reflexivity.
  - destruct n; vm_compute in E; discriminate E.
  - destruct n; vm_compute in E; discriminate E.
  - destruct n, n0; vm_compute in E; try discriminate E; reflexivity.
  - destruct b0, b; vm_compute in E; try discriminate E; reflexivity.
  - f_equal. assert (K : decZ z ++ [] = decZ z0 ++ []) by (now rewrite !app_nil_r). now apply dec_app in K as [K _].
  - cbn in E. injection E as E. apply app_inj_tail in E as [-> _]. reflexivity.
  - f_equal. now apply (C183_date_tells X).
  - f_equal. now apply (C183_time_tells X).
  - f_equal. now apply (C183_datetime_tells X).
Qed.
(** Lists, sets and maps do not tell their items: quotes and commas are not escaped, and both braces of sets and maps are alike. *)
Theorem C183_containers_refuted : exists a b c d, a <> b /\ c <> d /\ forall X, vstr X a = vstr X b /\ vstr X c = vstr X d.
Proof.
  exists (VList [VStr (B "a"); VStr (B "b")]), (VList [VStr (B "a"",""b")]), (VSet []), (VMap []). splits; try discriminate. intros X. split; reflexivity.
Qed.
Example C183_ex : forall X, simple (VDate (mkDate (-44) 3 15)) /\ vstr X (VDate (mkDate (-44) 3 15)) = B "-44-03-15" /\ vstr X (VTime (mkTime 9 5 7 42)) = B "09:05:07.000042" /\
  simple (VTime (mkTime 9 5 7 42)) /\ written 6 42 (B "000042") /\ valid_date gregorian_leap (mkDate 2020 2 29) /\ second_before (mkDT 2020 2 29 12 30 0 5) (mkDT 2020 2 29 12 30 1 0) /\
  valid_datetime (mkDT 2020 2 29 12 30 1 0).
Proof.
  intros X. splits; try reflexivity; try (repeat split; vm_compute; discriminate).
  - exact (pad_written 6 42 ltac:(cbn; lia) ltac:(lia)).
  - right. split; [reflexivity|]. right. split; [reflexivity|]. right. split; [reflexivity|]. cbn. lia.
Qed.
Print Assumptions C183_date.
Print Assumptions C183_date_tells.
Print Assumptions C183_date_order.
Print Assumptions C183_date_order_refuted.
Print Assumptions C183_time.
Print Assumptions C183_time_tells.
Print Assumptions C183_time_order.
Print Assumptions C183_datetime.
Print Assumptions C183_datetime_tells.
Print Assumptions C183_datetime_order.
Print Assumptions C183_microseconds_refuted.
Print Assumptions C183_tells.
Print Assumptions C183_containers_refuted.
