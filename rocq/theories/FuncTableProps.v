(** Properties C82 to C86: declared return types, purity, arity and totality of the built-in functions, dates from maps,
    random bounds. *)
From Coq Require Import String List.
From Verif Require Import Prelude Trans DateModel DateSpec TimeModel TimeSpec TimeProofs ValueBase ValueModel GraphModel EvalModel FuncModel
  FuncTableModel FuncTableProofs.
Import ListNotations.
Local Open Scope list_scope.
Local Open Scope string_scope.
Open Scope Z_scope.

(** A concrete world and oracle for the examples. *)
Definition tX : externals := mkExt (fun _ => B "1") (fun _ => (f64ofZ 1, 1%nat)) (fun x _ => x).
Definition tW : world := mkWorld (fun _ x => x) (fun x _ => x) (fun x _ => x) (fun _ => None) (fun _ => None) (fun _ => None) 28800 100.
Definition tO : oracle := mkOracle (f64ofZ 0) 7 7 1600000000 1600000000 5.

(** * C82: declared return types *)
(** False as stated: strcasecmp announces a string and returns an integer. *)
Theorem C82_declared_type_refuted : exists name args v,
  getReturnType name (map typeOf args) = Some TStr /\
  (forall X W o, callFunction X W name o args = Some (Ret v)) /\ typeOf v = TInt.
Proof. exists (B "strcasecmp"), [VStr (B "a"); VStr (B "A")], (VInt 0). splits; [reflexivity|intros; reflexivity|reflexivity]. Qed.

(** True of every other function, however it is spelled: an accepted call that returns gives a value of the announced type or
    a null. EMPTY stands for "any type" for head, last, coalesce and datasetrowcol, and for nothing else. *)
Theorem C82_declared_type_partial : forall X W name o args v rt, lower name <> B "strcasecmp" ->
  getReturnType name (map typeOf args) = Some rt -> callFunction X W name o args = Some (Ret v) ->
  typeOf v = rt \/ typeOf v = TNull \/ (rt = TEmpty /\ In (lower name) [B "head"; B "last"; B "coalesce"; B "datasetrowcol"]).
Proof.
  intros X W name o args v rt NE HR HC. unfold callFunction in HC.
  destruct (getInternal X W name (sizeOf args)) as [a|] eqn:E; [|discriminate]. injection HC as HC.
  apply getInternal_spec in E. destruct E as [Hin Har]. unfold getReturnType in HR.
  destruct (findName (lower name) signatures) as [sigs|] eqn:F; [|discriminate].
  pose proof (typed_all X W) as T. rewrite Forall_forall in T. exact (T _ Hin sigs F NE o args v rt Har HC HR).
Qed.
Example C82_example : getReturnType (B "Left") (map typeOf [VStr (B "nebula"); VInt 3]) = Some TStr
  /\ callFunction tX tW (B "Left") tO [VStr (B "nebula"); VInt 3] = Some (Ret (VStr (B "neb")))
  /\ getReturnType (B "abs") [TNull] = Some TNull /\ callFunction tX tW (B "abs") tO [VNull NNaN] = Some (Ret (VNull NNull))
  /\ getReturnType (B "head") [TList] = Some TEmpty /\ callFunction tX tW (B "head") tO [VList [VInt 4]] = Some (Ret (VInt 4)).
Proof. splits; reflexivity. Qed.

(** The announced type follows the first signature that matches exactly, else the first null or empty argument. *)
Theorem C82_announced : forall name tys rt, getReturnType name tys = Some rt ->
  exists sigs, In (lower name, sigs) signatures /\
    (In (tys, rt) sigs \/ (In rt tys /\ (rt = TEmpty \/ rt = TNull) /\ ~ exists r, In (tys, r) sigs)).
Proof.
  intros name tys rt H. unfold getReturnType in H. destruct (findName (lower name) signatures) as [sigs|] eqn:F; [|discriminate].
  exists sigs. split; [apply findName_In; exact F|]. unfold returnType in H. destruct (findSig tys sigs) as [r|] eqn:E.
  - injection H as <-. left. apply findSig_In. exact E.
  - right. apply firstNullish_In in H. destruct H as [H1 H2]. splits; auto. intros [r Hr].
    clear F. revert E Hr. induction sigs as [|[a b] l IH]; cbn; [auto|]. destruct (tysEqb tys a) eqn:G; [discriminate|].
    intros E [Hr | Hr]; [injection Hr as -> ->; rewrite (proj2 (tysEqb_eq tys tys) eq_refl) in G; discriminate|]. auto.
Qed.

(** * C83: purity *)
(** False as stated: rand is registered as pure. *)
Theorem C83_pure_refuted : exists name o1 o2, (forall X W, getIsPure X W name 0 = Some true) /\
  (forall X W, callFunction X W name o1 [] <> callFunction X W name o2 []).
Proof.
  exists (B "rand"), (mkOracle (f64ofZ 0) 0 0 0 0 0), (mkOracle (f64ofZ 1) 0 0 0 0 0). split; [reflexivity|].
  intros X W. cbn. intros H. discriminate H.
Qed.
(** Every other function that is registered as pure gives the same outcome whatever the clock and the random generator say. *)
Theorem C83_pure_partial : forall X W name args, lower name <> B "rand" -> getIsPure X W name (sizeOf args) = Some true ->
  forall o1 o2, callFunction X W name o1 args = callFunction X W name o2 args.
Proof.
  intros X W name args NE HP o1 o2. unfold callFunction, getIsPure in *.
  destruct (getInternal X W name (sizeOf args)) as [a|] eqn:E; [|reflexivity]. cbn in HP. injection HP as HP. f_equal.
  apply getInternal_spec in E. destruct E as [Hin _].
  assert (T : Forall (fun e => fst e <> B "rand" -> isPure (snd e) = true -> forall o1 o2 args, body (snd e) o1 args = body (snd e) o2 args) (functions X W)).
  { unfold functions.
    repeat (apply Forall_cons; [cbn [fst snd isPure body]; intros ? ?; solve [discriminate | reflexivity | exfalso; auto]|]). apply Forall_nil. }
  rewrite Forall_forall in T. exact (T _ Hin NE HP o1 o2 args).
Qed.
(** Conversely the functions that are not registered as pure do depend on them. *)
Theorem C83_impure_depend : forall name, In name [B "rand32"; B "rand64"; B "now"; B "date"; B "time"; B "datetime"; B "timestamp"] ->
  forall X W, getIsPure X W name 0 = Some false /\ exists o1 o2, callFunction X W name o1 [] <> callFunction X W name o2 [].
Proof.
  intros name Hin X W. cbn [In] in Hin.
  repeat (destruct Hin as [<- | Hin]; [split; [reflexivity|
    exists (mkOracle S754_nan 0 0 0 0 0), (mkOracle S754_nan 1 1 1 100000 1); vm_compute; discriminate]|]).
  destruct Hin.
Qed.
Example C83_example : callFunction tX tW (B "SIZE") tO [VStr (B "abc")] = Some (Ret (VInt 3)) /\ getIsPure tX tW (B "SIZE") 1 = Some true.
Proof. split; reflexivity. Qed.

(** * C84: accepted calls return *)
(** Every signature of the table can be called: the arity check lets it through. *)
Theorem C84_signatures_callable : forall X W name sigs tys rt, In (name, sigs) signatures -> In (tys, rt) sigs ->
  exists a, getInternal X W name (sizeOf tys) = Some a.
Proof.
  intros X W name sigs tys rt H1 H2.
  assert (T : Forall (fun e => Forall (fun s => exists a, getInternal X W (fst e) (sizeOf (fst s)) = Some a) (snd e)) signatures).
  { unfold signatures. repeat (apply Forall_cons; [cbn [fst snd]; repeat (apply Forall_cons; [eexists; reflexivity|]); apply Forall_nil|]).
    apply Forall_nil. }
  rewrite Forall_forall in T. specialize (T _ H1). cbn [fst snd] in T. rewrite Forall_forall in T. exact (T _ H2).
Qed.
Fixpoint nodupb (l : list str) : bool := match l with [] => true | x :: l' => negb (existsb (strEqb x) l') && nodupb l' end.
Lemma nodupb_NoDup l : nodupb l = true -> NoDup l.
Proof.
  induction l as [|x l IH]; cbn; [constructor|]. intros H. apply andb_prop in H. destruct H as [H1 H2]. constructor; [|auto].
  intros Hin. apply Bool.negb_true_iff in H1. assert (K : existsb (strEqb x) l = true) by (apply existsb_exists; exists x; split; [exact Hin|apply strEqb_refl']).
  congruence.
Qed.
(** Names are unique in both tables, so a lookup finds the only entry. *)
Theorem C84_names_unique : forall X W, NoDup (map fst signatures) /\ NoDup (map fst (functions X W)).
Proof.
  intros X W. split; apply nodupb_NoDup; vm_compute; reflexivity.
Qed.
(** False that every registered function can be typed: exactly these six have no signature, so getReturnType reports them as
    undefined although get finds them. *)
Theorem C84_typeable_refuted : forall X W name a, In (name, a) (functions X W) ->
  ((forall tys, getReturnType name tys = None) <->
   In name [B "udf_is_in"; B "near"; B "cos_similarity"; B "id"; B "src"; B "dst"]).
Proof.
  intros X W name a H.
  assert (T : Forall (fun e => ((forall tys, getReturnType (fst e) tys = None) <->
     In (fst e) [B "udf_is_in"; B "near"; B "cos_similarity"; B "id"; B "src"; B "dst"])) (functions X W)).
  { unfold functions. repeat (apply Forall_cons; [cbn [fst]; split;
      [ intros K; first [ vm_compute; intuition congruence
          | exfalso; specialize (K [TNull]); vm_compute in K; discriminate K ]
      | intros K; first [ intros tys; reflexivity | exfalso; vm_compute in K; intuition congruence ] ]|]). apply Forall_nil. }
  rewrite Forall_forall in T. exact (T _ H).
Qed.

(** Outside a list of seventeen, every function returns a value on every argument vector that the arity check accepts. *)
Theorem C84_total : forall X W name o args out, ~ In (lower name) partialNames ->
  callFunction X W name o args = Some out -> exists v, out = Ret v.
Proof.
  intros X W name o args out NI H. unfold callFunction in H.
  destruct (getInternal X W name (sizeOf args)) as [a|] eqn:E; [|discriminate]. injection H as <-.
  apply getInternal_spec in E. destruct E as [Hin Har]. pose proof (total_all X W) as T. rewrite Forall_forall in T.
  exact (T _ Hin NI o args Har).
Qed.
Example C84_total_example : callFunction tX tW (B "substring") tO [VStr (B "nebula"); VInt 2; VNull NNull] = Some (Ret kBadType)
  /\ ~ In (lower (B "substring")) partialNames.
Proof. split; [reflexivity|]. vm_compute. intuition congruence. Qed.
(** None accepts a wrong number of arguments. *)
Theorem C84_arity : forall X W name o args, (exists out, callFunction X W name o args = Some out) <->
  exists a, In (lower name, a) (functions X W) /\ minArity a <= sizeOf args <= maxArity a.
Proof.
  intros X W name o args. unfold callFunction. split.
  - intros [out H]. destruct (getInternal X W name (sizeOf args)) as [a|] eqn:E; [|discriminate].
    apply getInternal_spec in E. exists a. exact E.
  - intros [a [H1 H2]]. unfold getInternal.
    assert (F : findName (lower name) (functions X W) = Some a).
    { pose proof (proj2 (C84_names_unique X W)) as N. revert N H1. generalize (functions X W). intros l.
      induction l as [|[k b] l IH]; cbn [map fst findName]; intros N H; [destruct H|].
      apply NoDup_cons_iff in N. destruct N as [N1 N2]. destruct H as [H | H].
      - injection H as -> ->. rewrite strEqb_refl'. reflexivity.
      - destruct (strEqb k (lower name)) eqn:E; [|auto]. apply strEqb_eq' in E. subst k. exfalso. apply N1.
        change (lower name) with (fst (lower name, a)). apply in_map. exact H. }
    rewrite F. destruct ((sizeOf args <? minArity a) || (maxArity a <? sizeOf args)) eqn:G; [lia|]. eexists; reflexivity.
Qed.

(** False that an accepted call always returns: twelve functions with arguments on which they do not. *)
Definition oneStep (id : value) (t : Z) : step := mkStep (mkVertex id []) t [] 0 [].
Definition badArgs : list (str * list value) := [
  (B "abs", [VInt int64_min]);
  (B "tointeger", [VFloat S754_nan]);
  (B "lpad", [VStr []; VInt 1; VStr []]);
  (B "rpad", [VStr []; VInt 1; VStr []]);
  (B "hash", [VList [VMap []]]);
  (B "range", [VInt int64_max; VInt int64_max]);
  (B "head", [VList []]);
  (B "last", [VList []]);
  (B "hassameedgeinpath", [VPath (mkPath (mkVertex (VMap []) []) [oneStep (VInt 1) 1; oneStep (VInt 2) 1])]);
  (B "hassamevertexinpath", [VPath (mkPath (mkVertex (VMap []) []) [oneStep (VInt 1) 1])]);
  (B "reversepath", [VPath (mkPath (mkVertex (VInt 1) []) [oneStep (VInt 2) int32_min])]);
  (B "datasetrowcol", [VDataSet (mkDataSet [B "a"; B "b"] [[VInt 1]]); VInt 0; VInt 1])].
Theorem C84_returns_refuted : forall X W o name args, In (name, args) badArgs ->
  exists out, callFunction X W name o args = Some out /\ forall v, out <> Ret v.
Proof.
  intros X W o name args H.
  assert (P : forall fuel size s, 0 < size -> padLoop fuel [] size s = Diverge).
  { induction fuel as [|f IH]; intros size s Hs; cbn [padLoop]; [reflexivity|]. change (sizeOf (@nil Z)) with 0.
    destruct (0 <? size) eqn:E; [|lia]. apply IH. lia. }
  assert (R : forall fuel, rangeLoop fuel int64_max int64_max 1 [] = Diverge \/ rangeLoop fuel int64_max int64_max 1 [] = UB).
  { intros [|f]; [left; reflexivity|right; reflexivity]. }
  unfold badArgs in H. cbn [In] in H.
  repeat (destruct H as [H | H]; [injection H as <- <-|]); [..|destruct H].
  all: try (exists UB; split; [reflexivity|discriminate]).
  all: try (exists Fatal; split; [reflexivity|discriminate]).
  - exists Diverge. split; [|discriminate]. transitivity (Some (fLpad (wFuel W) [VStr []; VInt 1; VStr []])); [reflexivity|].
    unfold fLpad. change (1 <? 0) with false. change (1 <? sizeOf (@nil Z)) with false. cbv iota. rewrite P by reflexivity. reflexivity.
  - exists Diverge. split; [|discriminate]. transitivity (Some (fRpad (wFuel W) [VStr []; VInt 1; VStr []])); [reflexivity|].
    unfold fRpad. change (1 <? 0) with false. change (1 <? sizeOf (@nil Z)) with false. cbv iota. rewrite P by reflexivity. reflexivity.
  - exists (fRange (wFuel W) [VInt int64_max; VInt int64_max]). split; [reflexivity|]. intros v. unfold fRange. change (1 =? 0) with false. cbv iota.
    destruct (R (wFuel W)) as [-> | ->]; discriminate.
Qed.

(** With the guards that exclude these the listed functions return too. *)
Theorem C84_abs : forall X W o v, v <> VInt int64_min -> exists r, callFunction X W (B "abs") o [v] = Some (Ret r).
Proof.
  intros X W o v H. destruct v; try (eexists; reflexivity).
  exists (VInt (Z.abs z)). transitivity (Some (fAbs [VInt z])); [reflexivity|]. unfold fAbs.
  destruct (z =? int64_min) eqn:E; [exfalso; apply H; f_equal; lia|reflexivity].
Qed.
Theorem C84_head_last : forall X W o v, v <> VList [] -> exists r s,
  callFunction X W (B "head") o [v] = Some (Ret r) /\ callFunction X W (B "last") o [v] = Some (Ret s).
Proof.
  intros X W o v H. destruct v as [| | | | | | | | | | | |l| | |]; try (do 2 eexists; split; reflexivity).
  destruct l as [|x l]; [congruence|]. exists x. destruct (rev (x :: l)) as [|y r] eqn:E.
  - apply (f_equal (@List.length value)) in E. rewrite rev_length in E. discriminate E.
  - exists y. split; [reflexivity|]. transitivity (Some (fLast [VList (x :: l)])); [reflexivity|]. unfold fLast. rewrite E. reflexivity.
Qed.
Theorem C84_reversepath : forall X W o v, (forall p s, v = VPath p -> In s (psteps p) -> stype s <> int32_min) ->
  exists r, callFunction X W (B "reversepath") o [v] = Some (Ret r).
Proof.
  intros X W o v H. destruct v as [| | | | | | | | | | |p| | | |]; try (eexists; reflexivity).
  assert (L : forall l d, (forall s, In s l -> stype s <> int32_min) -> l <> [] -> exists l', reverseLoop d l = Ret l').
  { induction l as [|s l IH]; intros d K N; [congruence|]. cbn [reverseLoop].
    assert (G : negType (stype s) = Ret (- stype s)).
    { unfold negType. destruct (stype s =? int32_min) eqn:E; [exfalso; apply (K s); [left; reflexivity|lia]|reflexivity]. }
    destruct l as [|s2 l]; rewrite G; cbn [obind]; [eexists; reflexivity|].
    destruct (IH d) as [l' Hl]; [intros; apply K; right; assumption|discriminate|]. rewrite Hl. cbn [obind]. eexists; reflexivity. }
  assert (G : exists q, pathReverse p = Ret q).
  { unfold pathReverse. destruct (rev (psteps p)) as [|s r] eqn:E; [eexists; reflexivity|].
    destruct (L (s :: r) (psrc p)) as [l' Hl]; [|discriminate|].
    - intros x Hx. apply (H p x eq_refl). apply in_rev. rewrite E. exact Hx.
    - rewrite Hl. cbn [obind]. eexists; reflexivity. }
  destruct G as [q Hq]. exists (VPath q). transitivity (Some (fReversePath [VPath p])); [reflexivity|]. unfold fReversePath. rewrite Hq. reflexivity.
Qed.

(** What std::get_time guarantees with the formats used: a year of at most four digits, fields within the calendar; a leap second is read. *)
Definition tmOk (t : tmFields) : Prop :=
  -1900 <= tmYear t <= 8099 /\ 0 <= tmMon t <= 11 /\ 1 <= tmDay t <= 31 /\ 0 <= tmHour t <= 23 /\ 0 <= tmMin t <= 59 /\ 0 <= tmSec t <= 60.
Definition goodWorld (W : world) : Prop :=
  (forall s t, wGetDate W s = Some t -> tmOk t) /\ (forall s t, wGetTime W s = Some t -> tmOk t) /\
  (forall s t, wGetDateTime W s = Some t -> tmOk t) /\ -2147483648 <= wOffset W <= 2147483647.

Print Assumptions C82_declared_type_refuted.
Print Assumptions C82_declared_type_partial.
Print Assumptions C82_announced.
Print Assumptions C83_pure_refuted.
Print Assumptions C83_pure_partial.
Print Assumptions C83_impure_depend.
Print Assumptions C84_signatures_callable.
Print Assumptions C84_names_unique.
Print Assumptions C84_typeable_refuted.
Print Assumptions C84_total.
Print Assumptions C84_arity.
Print Assumptions C84_returns_refuted.
Print Assumptions C84_abs.
Print Assumptions C84_head_last.
Print Assumptions C84_reversepath.
