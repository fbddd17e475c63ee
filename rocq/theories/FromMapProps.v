(** Properties C85 to C87: dates and times built from maps, random bounds, timestamps. *)
From Coq Require Import String List.
From Verif Require Import Prelude Trans DateModel DateSpec DateProofs TimeModel TimeSpec TimeProofs ValueBase ValueModel GraphModel EvalModel FuncModel
  FuncTableModel FuncTableProofs FuncTableProps.
Import ListNotations.
Local Open Scope list_scope.
Local Open Scope string_scope.
Open Scope Z_scope.

(** * C85: dates from maps *)
(** The integer under a key of the map, or the default of the type. *)
Definition fieldOf (m : list (str * value)) (k : string) (def : Z) : Z :=
  match lookup (B k) m with Some (VInt z) => z | _ => def end.
(** Only these keys, and only integers. *)
Definition onlyInts (keys : list string) (m : list (str * value)) : Prop :=
  forall k v, In (k, v) m -> In k (map B keys) /\ exists z, v = VInt z.

Definition overlay (m : list (str * value)) (d : datetime) : datetime :=
  mkDT (fieldOf m "year" (dyear d)) (fieldOf m "month" (dmonth d)) (fieldOf m "day" (dday d)) (fieldOf m "hour" (dhour d))
       (fieldOf m "minute" (dminute d)) (fieldOf m "second" (dsec d)) (fieldOf m "microsecond" (dmicro d)).
Definition entryOk (ok : str -> bool) (e : str * value) : Prop :=
  ok (fst e) = true /\ exists z lo hi, snd e = VInt z /\ fieldRange (fst e) = Some (lo, hi) /\ lo <= z <= hi.

Lemma lookup_notin {V} k (m : list (str * V)) : ~ In k (map fst m) -> lookup k m = None.
Proof.
  induction m as [|[k' v] m IH]; cbn; auto. intros H. destruct (strEqb k k') eqn:E; [apply strEqb_eq' in E; subst; tauto|]. auto.
Qed.
Lemma lookup_in {V} k (v : V) m : NoDup (map fst m) -> In (k, v) m -> lookup k m = Some v.
Proof.
  induction m as [|[k' w] m IH]; cbn; [tauto|]. intros N H. apply NoDup_cons_iff in N. destruct N as [N1 N2].
  destruct H as [H | H].
  - injection H as -> ->. rewrite strEqb_refl'. reflexivity.
  - destruct (strEqb k k') eqn:E; [|auto]. apply strEqb_eq' in E. subst k'. exfalso. apply N1.
    change k with (fst (k, v)). apply in_map. exact H.
Qed.

Lemma fieldRange_cases k lo hi : fieldRange k = Some (lo, hi) ->
  In k (map B ["year"; "month"; "day"; "hour"; "minute"; "second"; "microsecond"]).
Proof.
  unfold fieldRange. intros H.
  repeat match type of H with (if strEqb ?a ?b then _ else _) = _ =>
    destruct (strEqb a b) eqn:E; [apply strEqb_eq' in E; subst k; cbn [map In]; tauto|clear E] end. discriminate.
Qed.

Lemma overlay_cons k z lo hi m d : fieldRange k = Some (lo, hi) -> ~ In k (map fst m) ->
  overlay ((k, VInt z) :: m) d = overlay m (setField k z d).
Proof.
  intros R N. apply fieldRange_cases in R. apply lookup_notin in N. destruct d.
  assert (L : forall x, lookup x ((k, VInt z) :: m) = if strEqb x k then Some (VInt z) else lookup x m) by reflexivity.
  unfold overlay, fieldOf. rewrite !L. cbn [map In] in R.
  repeat (destruct R as [<- | R]; [rewrite ?N; reflexivity|]). destruct R.
Qed.

Lemma fromMap_spec ok m : NoDup (map fst m) -> forall d r,
  fromMapLoop ok m d = Some r <-> Forall (entryOk ok) m /\ r = overlay m d.
Proof.
  induction m as [|[k v] m IH]; intros N d r; cbn [fromMapLoop].
  - split; [intros H; injection H as <-; split; [constructor|]; destruct d; reflexivity|intros [_ ->]; destruct d; reflexivity].
  - cbn in N. apply NoDup_cons_iff in N. destruct N as [N1 N2]. specialize (IH N2). split.
    + destruct v; try discriminate. destruct (ok k) eqn:O; [|discriminate]. destruct (fieldRange k) as [[lo hi]|] eqn:F; [|discriminate].
      destruct ((z <? lo) || (hi <? z)) eqn:R; [discriminate|]. intros H. apply IH in H. destruct H as [H1 ->]. split.
      * constructor; [|exact H1]. split; [exact O|]. exists z, lo, hi. cbn. splits; auto; lia.
      * symmetry. eapply overlay_cons; eauto.
    + intros [H ->]. apply Forall_cons_iff in H. destruct H as [[O (z & lo & hi & Hv & F & R)] H]. cbn in *. subst v. rewrite O, F.
      destruct ((z <? lo) || (hi <? z)) eqn:G; [lia|]. apply IH. split; [exact H|]. eapply overlay_cons; eauto.
Qed.

(** The range check of one entry, recovered from the field it ends up in. *)
Lemma field_entry m k z : NoDup (map fst m) -> In (B k, VInt z) m -> forall def, fieldOf m k def = z.
Proof. intros N H def. unfold fieldOf. rewrite (lookup_in _ _ _ N H). reflexivity. Qed.

Lemma inKeys k keys : existsb (strEqb k) (map B keys) = true <-> In k (map B keys).
Proof.
  rewrite existsb_exists. split.
  - intros [x [H1 H2]]. apply strEqb_eq' in H2. subst. exact H1.
  - intros H. exists k. split; [exact H|apply strEqb_refl'].
Qed.

(** TimeUtils::dateFromMap always answers, and accepts exactly the maps that describe an existing date. *)
Theorem C85_date_from_map : forall m, NoDup (map fst m) -> exists r, dateFromMap m = Ret r /\
  forall d, r = Some d <->
    onlyInts ["year"; "month"; "day"] m /\
    d = mkDate (fieldOf m "year" 0) (fieldOf m "month" 1) (fieldOf m "day" 1) /\ valid_date gregorian_leap d.
Proof.
  intros m N. unfold dateFromMap. destruct (fromMapLoop isDateKey m dt0) as [e|] eqn:E.
  - apply (fromMap_spec _ _ N) in E. destruct E as [H ->]. cbn [overlay dyear dmonth dday dt0].
    set (y := fieldOf m "year" 0). set (mo := fieldOf m "month" 1). set (da := fieldOf m "day" 1).
    assert (R : forall k def lo hi, In k ["year"; "month"; "day"] -> fieldRange (B k) = Some (lo, hi) -> lo <= def <= hi -> lo <= fieldOf m k def <= hi).
    { intros k def lo hi Hk F D. unfold fieldOf. destruct (lookup (B k) m) as [v|] eqn:L; [|exact D].
      assert (Hin : In (B k, v) m).
      { clear - L. induction m as [|[k' w] m IH]; cbn in L; [discriminate|]. destruct (strEqb (B k) k') eqn:G;
          [apply strEqb_eq' in G; injection L as ->; left; congruence|right; auto]. }
      rewrite Forall_forall in H. destruct (H _ Hin) as [_ (z & l2 & h2 & Hv & F2 & B2)]. cbn in *. subst v. rewrite F in F2. injection F2 as <- <-. exact B2. }
    assert (Ry : -32768 <= y <= 32767) by (apply R; [cbn; tauto|reflexivity|lia]).
    assert (Rm : 1 <= mo <= 12) by (apply R; [cbn; tauto|reflexivity|lia]).
    assert (Rd : 1 <= da <= 31) by (apply R; [cbn; tauto|reflexivity|lia]).
    unfold validateDate. cbn [year month day]. rewrite validate_in_range by assumption. cbn [obind]. eexists. split; [reflexivity|].
    intros d. destruct (da <=? month_len (gregorian_leap y) mo) eqn:V; split.
    + intros G. injection G as <-. splits; [|reflexivity|unfold valid_date; cbn; lia..].
      intros k v Hin. rewrite Forall_forall in H. destruct (H _ Hin) as [O (z & _ & _ & Hv & _)]. cbn in O, Hv.
      split; [apply (inKeys k ["year"; "month"; "day"]); exact O|eauto].
    + intros (_ & -> & _). reflexivity.
    + discriminate.
    + intros (_ & -> & W). unfold valid_date in W. cbn in W. lia.
  - eexists. split; [reflexivity|]. intros d. split; [discriminate|]. intros (O & -> & V).
    exfalso. enough (K : fromMapLoop isDateKey m dt0 = Some (overlay m dt0)) by congruence.
    apply (fromMap_spec _ _ N). split; [|reflexivity]. apply Forall_forall. intros [k v] Hin. destruct (O k v Hin) as [Hk [z ->]].
    split; [apply (inKeys k ["year"; "month"; "day"]); exact Hk|]. unfold valid_date in V. cbn [year month day] in V.
    pose proof (month_len_bounds (gregorian_leap (fieldOf m "year" 0)) (fieldOf m "month" 1)).
    cbn [map In] in Hk. destruct Hk as [<- | [<- | [<- | []]]]; cbn [fst snd]; exists z; do 2 eexists; (split; [reflexivity|split; [reflexivity|]]).
    + rewrite (field_entry m _ _ N Hin) in V. lia.
    + rewrite (field_entry m "month" _ N Hin) in V. lia.
    + rewrite (field_entry m "day" _ N Hin) in *. lia.
Qed.

Lemma lookup_In {V} k (v : V) m : lookup k m = Some v -> In (k, v) m.
Proof.
  induction m as [|[k' w] m IH]; cbn; [discriminate|]. destruct (strEqb k k') eqn:G; intros L;
    [apply strEqb_eq' in G; injection L as ->; left; congruence|right; auto].
Qed.
Lemma field_range ok m k def lo hi : Forall (entryOk ok) m -> fieldRange (B k) = Some (lo, hi) -> lo <= def <= hi -> lo <= fieldOf m k def <= hi.
Proof.
  intros H F D. unfold fieldOf. destruct (lookup (B k) m) as [v|] eqn:L; [|exact D]. apply lookup_In in L.
  rewrite Forall_forall in H. destruct (H _ L) as [_ (z & l2 & h2 & Hv & F2 & B2)]. cbn in *. subst v. rewrite F in F2. injection F2 as <- <-. exact B2.
Qed.
Lemma only_of_entries ok keys m : (forall k, ok k = existsb (strEqb k) (map B keys)) -> Forall (entryOk ok) m -> onlyInts keys m.
Proof.
  intros E H k v Hin. rewrite Forall_forall in H. destruct (H _ Hin) as [O (z & _ & _ & Hv & _)]. cbn in O, Hv.
  split; [apply inKeys; rewrite <- E; exact O|eauto].
Qed.

(** The same for date-times. *)
Theorem C85_datetime_from_map : forall m, NoDup (map fst m) -> exists r, dateTimeFromMap m = Ret r /\
  forall d, r = Some d <->
    onlyInts ["year"; "month"; "day"; "hour"; "minute"; "second"; "microsecond"] m /\
    d = mkDT (fieldOf m "year" 0) (fieldOf m "month" 1) (fieldOf m "day" 1) (fieldOf m "hour" 0) (fieldOf m "minute" 0)
             (fieldOf m "second" 0) (fieldOf m "microsecond" 0) /\ valid_datetime d.
Proof.
  intros m N. unfold dateTimeFromMap. destruct (fromMapLoop (fun k => isDateKey k || isTimeKey k) m dt0) as [e|] eqn:E.
  - apply (fromMap_spec _ _ N) in E. destruct E as [H ->]. cbn [overlay dyear dmonth dday dhour dminute dsec dmicro dt0].
    pose proof (field_range _ m "year" 0 _ _ H eq_refl ltac:(lia)) as Ry. pose proof (field_range _ m "month" 1 _ _ H eq_refl ltac:(lia)) as Rm.
    pose proof (field_range _ m "day" 1 _ _ H eq_refl ltac:(lia)) as Rd. pose proof (field_range _ m "hour" 0 _ _ H eq_refl ltac:(lia)) as Rh.
    pose proof (field_range _ m "minute" 0 _ _ H eq_refl ltac:(lia)) as Ri. pose proof (field_range _ m "second" 0 _ _ H eq_refl ltac:(lia)) as Rs.
    pose proof (field_range _ m "microsecond" 0 _ _ H eq_refl ltac:(lia)) as Ru.
    unfold overlay, dt0. cbn [dyear dmonth dday dhour dminute dsec dmicro].
    unfold validateDateTime. cbn [dyear dmonth dday]. rewrite validate_in_range by assumption. cbn [obind]. eexists. split; [reflexivity|].
    intros d. destruct (fieldOf m "day" 1 <=? month_len (gregorian_leap (fieldOf m "year" 0)) (fieldOf m "month" 1)) eqn:V; split.
    + intros G. injection G as <-. split; [|split; [reflexivity|unfold valid_datetime, valid_date, valid_time_of_day, date_of; cbn; lia]].
      eapply only_of_entries; [|exact H]. intros k. unfold isDateKey, isTimeKey. cbn [existsb map]. rewrite !Bool.orb_false_r. rewrite <- !Bool.orb_assoc. reflexivity.
    + intros (_ & -> & _). reflexivity.
    + discriminate.
    + intros (_ & -> & W). unfold valid_datetime, valid_date, date_of in W. cbn in W. lia.
  - eexists. split; [reflexivity|]. intros d. split; [discriminate|]. intros (O & -> & V).
    exfalso. enough (K : fromMapLoop (fun k => isDateKey k || isTimeKey k) m dt0 = Some (overlay m dt0)) by congruence.
    apply (fromMap_spec _ _ N). split; [|reflexivity]. apply Forall_forall. intros [k v] Hin. destruct (O k v Hin) as [Hk [z ->]].
    unfold valid_datetime, valid_date, valid_time_of_day, date_of in V. cbn [year month day dyear dmonth dday dhour dminute dsec dmicro] in V.
    pose proof (month_len_bounds (gregorian_leap (fieldOf m "year" 0)) (fieldOf m "month" 1)).
    cbn [map In] in Hk. destruct Hk as [<- | [<- | [<- | [<- | [<- | [<- | [<- | []]]]]]]]; cbn [fst snd]; (split; [reflexivity|]);
      exists z; do 2 eexists; (split; [reflexivity|split; [reflexivity|]]); rewrite (field_entry m _ _ N Hin) in *; lia.
Qed.
(** And for times of day. *)
Theorem C85_time_from_map : forall m, NoDup (map fst m) -> forall t, timeFromMap m = Some t <->
    onlyInts ["hour"; "minute"; "second"; "microsecond"] m /\
    t = mkTime (fieldOf m "hour" 0) (fieldOf m "minute" 0) (fieldOf m "second" 0) (fieldOf m "microsecond" 0) /\ valid_time t.
Proof.
  intros m N t. unfold timeFromMap. destruct (fromMapLoop isTimeKey m dt0) as [e|] eqn:E.
  - apply (fromMap_spec _ _ N) in E. destruct E as [H ->].
    pose proof (field_range _ m "hour" 0 _ _ H eq_refl ltac:(lia)) as Rh.
    pose proof (field_range _ m "minute" 0 _ _ H eq_refl ltac:(lia)) as Ri. pose proof (field_range _ m "second" 0 _ _ H eq_refl ltac:(lia)) as Rs.
    pose proof (field_range _ m "microsecond" 0 _ _ H eq_refl ltac:(lia)) as Ru. unfold overlay, dt0. cbn [dhour dminute dsec dmicro]. split.
    + intros G. injection G as <-. split; [|split; [reflexivity|unfold valid_time, valid_time_of_day; cbn; lia]].
      eapply only_of_entries; [|exact H]. reflexivity.
    + intros (_ & -> & _). reflexivity.
  - split; [discriminate|]. intros (O & -> & V).
    exfalso. enough (K : fromMapLoop isTimeKey m dt0 = Some (overlay m dt0)) by congruence.
    apply (fromMap_spec _ _ N). split; [|reflexivity]. apply Forall_forall. intros [k v] Hin. destruct (O k v Hin) as [Hk [z ->]].
    unfold valid_time, valid_time_of_day in V. cbn [thour tminute tsec tmicro] in V.
    cbn [map In] in Hk. destruct Hk as [<- | [<- | [<- | [<- | []]]]]; cbn [fst snd]; (split; [reflexivity|]);
      exists z; do 2 eexists; (split; [reflexivity|split; [reflexivity|]]); rewrite (field_entry m _ _ N Hin) in *; lia.
Qed.
Example C85_example :
  dateFromMap [(B "day", VInt 29); (B "month", VInt 2); (B "year", VInt 2020)] = Ret (Some (mkDate 2020 2 29))
  /\ dateFromMap [(B "day", VInt 29); (B "month", VInt 2); (B "year", VInt 2021)] = Ret None
  /\ dateFromMap [(B "hour", VInt 1)] = Ret None /\ timeFromMap [(B "hour", VInt 24)] = None.
Proof. splits; reflexivity. Qed.

(** datetime(map) gives the UTC date-time of the civil time the map describes in the configured zone: reading it back in that
    zone gives the fields of the map, and its unix time is the civil one minus the offset. The hypothesis excludes results that
    leave the range of years. *)
Theorem C85_datetime_call : forall X W o m d s, NoDup (map fst m) -> dateTimeFromMap m = Ret (Some d) ->
  dateTimeToUnixSeconds d = Ret s -> min_unix <= s - wOffset W <= max_unix ->
  exists u, callFunction X W (B "datetime") o [VMap m] = Some (Ret (VDateTime u)) /\ valid_datetime u /\
    dateTimeToUnixSeconds u = Ret (s - wOffset W) /\ utcToDateTime (wOffset W) u = Ret d.
Proof.
  intros X W o m d s N Hd Hs Hr.
  destruct (C85_datetime_from_map m N) as (r & Hr1 & Hr2). rewrite Hd in Hr1. apply Ret_inj in Hr1. subst r.
  assert (V : valid_datetime d) by (apply Hr2; reflexivity).
  destruct (dateTimeShift_spec d (- wOffset W) s V Hs ltac:(lia)) as (u & Hu & Vu & Su & _).
  exists u. splits; auto.
  - transitivity (Some (fDatetime W o [VMap m])); [reflexivity|]. unfold fDatetime. rewrite Hd. cbn [obind]. unfold dateTimeToUTC. rewrite Hu. reflexivity.
  - unfold utcToDateTime. pose proof (dateTimeShift_inv d (- wOffset W) s u V Hs ltac:(lia) Hu) as K.
    rewrite Z.opp_involutive in K. exact K.
Qed.
Example C85_call_example : callFunction tX tW (B "datetime") tO [VMap [(B "year", VInt 2020)]] = Some (Ret (VDateTime (mkDT 2019 12 31 16 0 0 0))).
Proof. reflexivity. Qed.

(** date() accepts every map without undefined behaviour, likewise time() for any offset a zone can have. *)
Theorem C85_date_call : forall X W o m, NoDup (map fst m) -> exists v, callFunction X W (B "date") o [VMap m] = Some (Ret v).
Proof.
  intros X W o m N. destruct (C85_date_from_map m N) as (r & Hr & _). eexists.
  transitivity (Some (fDate W o [VMap m])); [reflexivity|]. unfold fDate. rewrite Hr. reflexivity.
Qed.
Theorem C85_time_call : forall X W o m, NoDup (map fst m) -> -2147483648 <= wOffset W <= 2147483647 ->
  exists v, callFunction X W (B "time") o [VMap m] = Some (Ret v).
Proof.
  intros X W o m N Hoff. assert (G : exists v, fTime W o [VMap m] = Ret v).
  { unfold fTime. destruct (timeFromMap m) as [t|] eqn:E; [|eexists; reflexivity].
    apply (C85_time_from_map m N) in E. destruct E as (_ & _ & V). unfold timeToUTC.
    destruct (timeShift_spec t (- wOffset W) V ltac:(lia)) as (t' & Ht & _). rewrite Ht. cbn [obind]. eexists; reflexivity. }
  destruct G as [v Hv]. exists v. transitivity (Some (fTime W o [VMap m])); [reflexivity|]. rewrite Hv. reflexivity.
Qed.

(** The clock reads a time within the range of years, and milliseconds below a second. *)
Definition goodClock (o : oracle) : Prop := 0 <= oUnix o <= max_unix /\ 0 <= oMillis o <= 999.
Lemma validate_tm y m d : -32768 <= y <= 32767 -> 1 <= m <= 12 -> exists b, validateYMD y m d = Ret b.
Proof. intros. rewrite validate_in_range by assumption. eexists; reflexivity. Qed.
(** With a sane clock, std::get_time within its contract and an offset that fits its type, date, time and timestamp return on
    every accepted call. *)
Theorem C84_clock_functions : forall X W o args name, goodWorld W -> goodClock o ->
  In name [B "date"; B "time"; B "timestamp"] -> sizeOf args <= 1 ->
  (forall m, args = [VMap m] -> NoDup (map fst m)) -> exists v, callFunction X W name o args = Some (Ret v).
Proof.
  intros X W o args name (Gd & Gt & Gdt & Goff) (Gu & Gm) Hn Ha Hmap.
  destruct args as [|v [|w args]]; [| |rewrite !sizeOf_cons in Ha; pose proof (sizeOf_nonneg args); lia].
  - destruct (unixSecondsToDateTime_spec (oUnix o)) as (d & Hd & _); [unfold min_unix; lia|].
    cbn [In] in Hn. destruct Hn as [<- | [<- | [<- | []]]].
    + assert (G : exists v, fDate W o [] = Ret v).
      { unfold fDate, utcDate, unixSecondsToDate. destruct (oUnix o =? -1); [eexists; reflexivity|]. rewrite Hd. cbn. eexists; reflexivity. }
      destruct G as [v G]. exists v. rewrite <- G. reflexivity.
    + assert (G : exists v, fTime W o [] = Ret v).
      { unfold fTime, utcTime, unixSecondsToTime. rewrite Hd. cbn. eexists; reflexivity. }
      destruct G as [v G]. exists v. rewrite <- G. reflexivity.
    + eexists; reflexivity.
  - cbn [In] in Hn. destruct Hn as [<- | [<- | [<- | []]]].
    + assert (G : exists r, fDate W o [v] = Ret r).
      { destruct v; try (eexists; reflexivity).
        - unfold fDate, parseDate. destruct (wGetDate W s) as [t|] eqn:E; [|eexists; reflexivity].
          destruct (Gd _ _ E) as (T1 & T2 & T3 & _). unfold validateDate. cbn [year month day].
          replace (wrap16 (tmYear t + 1900)) with (tmYear t + 1900) by (unfold wrap16; lia).
          replace (wrap8 (tmMon t + 1)) with (tmMon t + 1) by (unfold wrap8; lia).
          destruct (validate_tm (tmYear t + 1900) (tmMon t + 1) (wrap8 (tmDay t))) as [b Hb]; [lia|lia|]. rewrite Hb. cbn. eexists; reflexivity.
        - destruct (C85_date_from_map m (Hmap m eq_refl)) as (r & Hr & _). unfold fDate. rewrite Hr. eexists; reflexivity. }
      destruct G as [r G]. exists r. rewrite <- G. reflexivity.
    + destruct v; try (eexists; reflexivity).
      * assert (G : exists r, fTime W o [VStr s] = Ret r).
        { unfold fTime, parseTime. destruct (wGetTime W s) as [t|] eqn:E; [|eexists; reflexivity].
          destruct (Gt _ _ E) as (_ & _ & _ & T4 & T5 & T6). unfold timeToUTC, timeShift. destruct (- wOffset W =? 0); [eexists; reflexivity|].
          unfold timeToSeconds, addI64. cbn [thour tminute tsec].
          replace (wrap8 (tmHour t)) with (tmHour t) by (unfold wrap8; lia). replace (wrap8 (tmMin t)) with (tmMin t) by (unfold wrap8; lia).
          replace (wrap8 (tmSec t)) with (tmSec t) by (unfold wrap8; lia).
          set (k := tmSec t + tmMin t * kSecondsOfMinute + tmHour t * kSecondsOfHour + - wOffset W).
          assert (Hk : -2147483648 <= k <= 2147580000) by (unfold k, kSecondsOfMinute, kSecondsOfHour; lia).
          replace (in_int64 k) with true by (unfold in_int64, int64_min, int64_max; lia). cbn [obind].
          destruct (unixSecondsToDateTime_spec k) as (d & Hd & _); [unfold min_unix, max_unix; lia|].
          unfold unixSecondsToTime. rewrite Hd. cbn. eexists; reflexivity. }
        destruct G as [r G]. exists r. rewrite <- G. reflexivity.
      * exact (C85_time_call X W o m (Hmap m eq_refl) Goff).
    + assert (G : exists r, fTimestamp W o [v] = Ret r).
      { destruct v; try (eexists; reflexivity).
        unfold fTimestamp, toTimestamp, parseDateTime. destruct (wGetDateTime W s) as [t|] eqn:E; [|eexists; reflexivity].
        destruct (Gdt _ _ E) as (T1 & T2 & T3 & T4 & T5 & T6). unfold validateDateTime. cbn [dyear dmonth dday].
        replace (wrap16 (tmYear t + 1900)) with (tmYear t + 1900) by (unfold wrap16; lia).
        replace ((tmMon t + 1) mod 16) with (tmMon t + 1) by lia.
        destruct (validate_tm (tmYear t + 1900) (tmMon t + 1) (tmDay t mod 32)) as [b Hb]; [lia|lia|]. rewrite Hb. cbn [obind].
        destruct b; [|eexists; reflexivity]. cbn [dmicro]. change (negb (0 =? 0)) with false. cbv iota.
        rewrite unix_eq by (cbn; lia). cbn [obind]. eexists; reflexivity. }
      destruct G as [r G]. exists r. rewrite <- G. reflexivity.
Qed.
Example C84_clock_example : goodWorld tW /\ goodClock tO /\ callFunction tX tW (B "date") tO [] = Some (Ret (VDate (mkDate 2020 9 13))).
Proof.
  split; [|split; [|reflexivity]].
  - unfold goodWorld, tW. cbn. splits; intros; try discriminate; lia.
  - unfold goodClock, max_unix. cbn. lia.
Qed.

(** * C86: random numbers stay within their bounds *)
Definition goodRandom (o : oracle) : Prop := 0 <= oRand32 o < 4294967296 /\ 0 <= oRand64 o < two64.
(** False for rand32(max) with a maximum above 2^31: the result is cast to int32_t. *)
Theorem C86_rand32_max_refuted : exists o max, goodRandom o /\ 0 < max <= 4294967295 /\
  (forall X W, callFunction X W (B "rand32") o [VInt max] = Some (Ret (VInt (-1294967296)))).
Proof.
  exists (mkOracle S754_nan 3000000000 0 0 0 0), 4000000000. split; [unfold goodRandom, two64; cbn; lia|]. split; [lia|]. reflexivity.
Qed.
Theorem C86_rand32_max_partial : forall X W o max, goodRandom o -> 0 < max <= 2147483648 ->
  exists r, callFunction X W (B "rand32") o [VInt max] = Some (Ret (VInt r)) /\ 0 <= r < max.
Proof.
  intros X W o max G H. exists (wrap32 (below (oRand32 o) max)). split.
  - transitivity (Some (fRand32 o [VInt max])); [reflexivity|]. unfold fRand32. destruct ((max <? 0) || (4294967295 <? max)) eqn:E; [lia|reflexivity].
  - unfold below, wrap32. destruct (max =? 0) eqn:E; [lia|]. pose proof (Z.mod_pos_bound (oRand32 o) max ltac:(lia)). lia.
Qed.
Theorem C86_rand32_range : forall X W o lo hi, goodRandom o -> 0 <= lo < hi -> hi <= 4294967295 ->
  exists r, callFunction X W (B "rand32") o [VInt lo; VInt hi] = Some (Ret (VInt r)) /\ lo <= r < hi.
Proof.
  intros X W o lo hi G H H2. exists (lo + below (oRand32 o) (hi - lo)). split.
  - transitivity (Some (fRand32 o [VInt lo; VInt hi])); [reflexivity|]. unfold fRand32.
    destruct ((hi <? 0) || (lo <? 0) || (4294967295 <? hi) || (4294967295 <? lo)) eqn:E; [lia|].
    destruct (hi <=? lo) eqn:F; [lia|reflexivity].
  - unfold below. destruct (hi - lo =? 0) eqn:E; [lia|]. pose proof (Z.mod_pos_bound (oRand32 o) (hi - lo) ltac:(lia)). lia.
Qed.
Theorem C86_rand64 : forall X W o lo hi, goodRandom o -> 0 <= lo < hi -> hi <= int64_max ->
  (exists r, callFunction X W (B "rand64") o [VInt hi] = Some (Ret (VInt r)) /\ 0 <= r < hi) /\
  (exists r, callFunction X W (B "rand64") o [VInt lo; VInt hi] = Some (Ret (VInt r)) /\ lo <= r < hi).
Proof.
  intros X W o lo hi G H H2. unfold int64_max in H2. split.
  - exists (below (oRand64 o) hi). unfold below. destruct (hi =? 0) eqn:E; [lia|]. pose proof (Z.mod_pos_bound (oRand64 o) hi ltac:(lia)). split; [|lia].
    transitivity (Some (fRand64 o [VInt hi])); [reflexivity|]. unfold fRand64, below. rewrite E. destruct (hi <? 0) eqn:F; [lia|].
    do 3 f_equal. unfold wrap64. lia.
  - exists (lo + below (oRand64 o) (hi - lo)). unfold below. destruct (hi - lo =? 0) eqn:E; [lia|].
    pose proof (Z.mod_pos_bound (oRand64 o) (hi - lo) ltac:(lia)). split; [|lia].
    transitivity (Some (fRand64 o [VInt lo; VInt hi])); [reflexivity|]. unfold fRand64, below. rewrite E.
    destruct ((hi <? 0) || (lo <? 0) || (hi <=? lo)) eqn:F; [lia|]. do 3 f_equal. unfold wrap64. lia.
Qed.
(** Bad bounds give a null, never a number. *)
Theorem C86_bad_bounds : forall X W o lo hi, (hi < 0 \/ lo < 0 \/ hi <= lo) ->
  callFunction X W (B "rand32") o [VInt lo; VInt hi] = Some (Ret (VNull NBadData)) /\
  callFunction X W (B "rand64") o [VInt lo; VInt hi] = Some (Ret (VNull NBadData)).
Proof.
  intros X W o lo hi H. split.
  - transitivity (Some (fRand32 o [VInt lo; VInt hi])); [reflexivity|]. unfold fRand32.
    destruct ((hi <? 0) || (lo <? 0) || (4294967295 <? hi) || (4294967295 <? lo)) eqn:E; [reflexivity|].
    destruct (hi <=? lo) eqn:F; [reflexivity|lia].
  - transitivity (Some (fRand64 o [VInt lo; VInt hi])); [reflexivity|]. unfold fRand64.
    destruct ((hi <? 0) || (lo <? 0) || (hi <=? lo)) eqn:F; [reflexivity|lia].
Qed.
Example C86_example : callFunction tX tW (B "rand32") tO [VInt 5; VInt 9] = Some (Ret (VInt 8)) /\ goodRandom tO.
Proof. split; [reflexivity|]. unfold goodRandom, two64. cbn. lia. Qed.

(** * C87: timestamps *)
(** timestamp(int) accepts exactly the integers between 0 and INT64_MAX / 10^9. *)
Theorem C87_int : forall X W o z, callFunction X W (B "timestamp") o [VInt z] =
  Some (Ret (if (0 <=? z) && (z <=? 9223372036) then VInt z else VNull NBadData)).
Proof.
  intros X W o z. transitivity (Some (fTimestamp W o [VInt z])); [reflexivity|]. unfold fTimestamp, toTimestamp, checkTimestamp. cbn [obind].
  change kMaxTimestamp with 9223372036.
  destruct ((z <? 0) || (9223372036 <? z)) eqn:E; destruct ((0 <=? z) && (z <=? 9223372036)) eqn:F; try reflexivity; lia.
Qed.
(** False that timestamp(s) is the unix time of datetime(s): datetime() applies the zone offset and timestamp() does not. *)
Definition text2020 (s : str) : option tmFields := Some (mkTm 120 0 1 0 0 0).
Definition zoneW (off : Z) : world := mkWorld (fun _ x => x) (fun x _ => x) (fun x _ => x) (fun _ => None) (fun _ => None) text2020 off 100.
Theorem C87_same_instant_refuted : exists W, goodWorld W /\ forall X o s, exists t u z,
  callFunction X W (B "timestamp") o [VStr s] = Some (Ret (VInt t)) /\
  callFunction X W (B "datetime") o [VStr s] = Some (Ret (VDateTime u)) /\
  dateTimeToUnixSeconds u = Ret z /\ t = z + 28800.
Proof.
  exists (zoneW 28800). split.
  - unfold goodWorld, zoneW, text2020. cbn. splits; try discriminate; try lia. intros s t H. injection H as <-. unfold tmOk. cbn. lia.
  - intros X o s. exists 1577836800, (mkDT 2019 12 31 16 0 0 0), 1577808000. splits; reflexivity.
Qed.
(** They differ by exactly the offset whenever both are defined. *)
Theorem C87_differ_by_offset_partial : forall X W o s t u z, goodWorld W ->
  (forall f, wGetDateTime W s = Some f -> tmSec f <= 59) ->
  callFunction X W (B "timestamp") o [VStr s] = Some (Ret (VInt t)) ->
  callFunction X W (B "datetime") o [VStr s] = Some (Ret (VDateTime u)) ->
  dateTimeToUnixSeconds u = Ret z -> min_unix <= t - wOffset W <= max_unix -> t = z + wOffset W.
Proof.
  intros X W o s t u z (_ & _ & Gdt & Goff) Hsec Ht Hu Hz Hr.
  assert (Ht' : fTimestamp W o [VStr s] = Ret (VInt t)).
  { apply (f_equal (fun x => match x with Some y => y | None => UB end)) in Ht. exact Ht. }
  assert (Hu' : fDatetime W o [VStr s] = Ret (VDateTime u)).
  { apply (f_equal (fun x => match x with Some y => y | None => UB end)) in Hu. exact Hu. }
  clear Ht Hu. unfold fTimestamp, toTimestamp in Ht'. unfold fDatetime in Hu'. unfold parseDateTime in *.
  destruct (wGetDateTime W s) as [f|] eqn:E; [|discriminate Ht'].
  destruct (Gdt _ _ E) as (T1 & T2 & T3 & T4 & T5 & T6). specialize (Hsec f eq_refl). unfold validateDateTime in *. cbn [dyear dmonth dday] in *.
  replace (wrap16 (tmYear f + 1900)) with (tmYear f + 1900) in * by (unfold wrap16; lia).
  replace ((tmMon f + 1) mod 16) with (tmMon f + 1) in * by lia. replace (tmDay f mod 32) with (tmDay f) in * by lia.
  replace (tmHour f mod 32) with (tmHour f) in * by lia. replace (tmMin f mod 64) with (tmMin f) in * by lia. replace (tmSec f mod 64) with (tmSec f) in * by lia.
  rewrite validate_in_range in * by lia. cbn [obind] in *.
  destruct (tmDay f <=? month_len (gregorian_leap (tmYear f + 1900)) (tmMon f + 1)) eqn:V; [|discriminate Ht'].
  set (d := mkDT _ _ _ _ _ _ _) in *. cbn [dmicro d] in Ht'. change (negb (0 =? 0)) with false in Ht'. cbv iota in Ht'.
  assert (Vd : valid_datetime d) by (unfold valid_datetime, valid_date, valid_time_of_day, date_of, d; cbn; lia).
  destruct (unix_valid d Vd) as (s0 & Hs0 & _). rewrite Hs0 in Ht'. cbn [obind] in Ht'. unfold checkTimestamp in Ht'.
  destruct ((s0 <? 0) || (kMaxTimestamp <? s0)); [discriminate Ht'|]. apply Ret_inj in Ht'. injection Ht' as <-.
  destruct (dateTimeShift_spec d (- wOffset W) s0 Vd Hs0 ltac:(lia)) as (u' & Hu1 & _ & Su & _).
  unfold dateTimeToUTC in Hu'. rewrite Hu1 in Hu'. cbn [obind] in Hu'. apply Ret_inj in Hu'. injection Hu' as <-. rewrite Su in Hz. apply Ret_inj in Hz. lia.
Qed.
Example C87_example : callFunction tX (zoneW 0) (B "timestamp") tO [VStr (B "2020-01-01T00:00:00")] = Some (Ret (VInt 1577836800))
  /\ callFunction tX (zoneW 0) (B "datetime") tO [VStr (B "2020-01-01T00:00:00")] = Some (Ret (VDateTime (mkDT 2020 1 1 0 0 0 0)))
  /\ dateTimeToUnixSeconds (mkDT 2020 1 1 0 0 0 0) = Ret 1577836800.
Proof. splits; reflexivity. Qed.

Print Assumptions C85_date_from_map.
Print Assumptions C85_datetime_from_map.
Print Assumptions C85_time_from_map.
Print Assumptions C85_datetime_call.
Print Assumptions C85_date_call.
Print Assumptions C85_time_call.
Print Assumptions C84_clock_functions.
Print Assumptions C86_rand32_max_refuted.
Print Assumptions C86_rand32_max_partial.
Print Assumptions C86_rand32_range.
Print Assumptions C86_rand64.
Print Assumptions C86_bad_bounds.
Print Assumptions C87_int.
Print Assumptions C87_same_instant_refuted.
Print Assumptions C87_differ_by_offset_partial.
