(** C129: handlers of signals. *)
From Verif Require Import Prelude SignalModel.

(** * Specification *)
(** a signal that may be given to install *)
Definition mayInstall (sig : Z) : Prop := 1 <= sig <= 64 /\ sig <> 9 /\ sig <> 19.
(** the C library keeps signals 32 and 33 for itself *)
Definition reserved (sig : Z) : bool := (sig =? 32) || (sig =? 33).
(** the signals that end the process even when they are handled *)
Definition fatal (sig : Z) : Prop := sig = 4 \/ sig = 6 \/ sig = 7 \/ sig = 8 \/ sig = 11.
(** the signals of one call of install that come to be handled: those before the first reserved one *)
Fixpoint taken (sigs : list Z) : list Z :=
  match sigs with [] => [] | sig :: r => if reserved sig then [] else sig :: taken r end.
Definition names (sigs : list (Z * list sigInfo)) : list Z := map fst sigs.
(** who handles a signal after what has happened: the last that installed it *)
Fixpoint owner (es : list happening) (sig : Z) : option Z :=
  match es with
  | [] => None
  | e :: r =>
      match owner r sig with
      | Some h => Some h
      | None => match e with
                | Install sigs (Some h) => if existsb (Z.eqb sig) (taken (names sigs)) then Some h else None
                | _ => None
                end
      end
  end.
(** a first install was made *)
Definition started (es : list happening) : bool := existsb (fun e => match e with Install (_ :: _) _ => true | _ => false end) es.
(** no signal arrives inside an install, no empty handler is installed *)
Definition quietOne (e : happening) : Prop :=
  match e with Install sigs h => (forall p, In p sigs -> snd p = []) /\ h <> None | Arrives _ _ _ => True end.
Definition quiet (es : list happening) : Prop := forall e, In e es -> quietOne e.
(** the calls that "upon any signal, the corresponding handler is invoked" promises *)
Fixpoint heard (before es : list happening) : list call :=
  match es with
  | [] => []
  | e :: r =>
      match e with
      | Arrives sig pid uid => match owner before sig with Some h => [mkCall h false sig pid uid] | None => [] end
      | Install _ _ => []
      end ++ heard (before ++ [e]) r
  end.

(** * Proofs *)
Lemma owner_app es e sig : owner (es ++ [e]) sig =
  match owner [e] sig with Some h => Some h | None => owner es sig end.
Proof.
  induction es as [|x es IH]; [cbn; destruct e as [sigs [h|]|]; cbn; try reflexivity; destruct (existsb _ _); reflexivity|].
  cbn [app owner]. rewrite IH. cbn [owner]. destruct e as [sigs [h|]|]; cbn; try (destruct (owner es sig); reflexivity).
  destruct (existsb _ _); [reflexivity|]. destruct (owner es sig); reflexivity.
Qed.
Lemma started_app es e : started (es ++ [e]) = started es || started [e].
Proof. unfold started. rewrite existsb_app. reflexivity. Qed.

(** what the process looks like after a quiet history *)
Record inv (own : Z -> option Z) (st : bool) (s : proc) : Prop := {
  iInit : pInit s = st;
  iOwned : forall sig h, own sig = Some h -> pHandlers s (sig - 1) = Some h /\ pDisp s sig = HookAct;
  iFree : forall sig, own sig = None -> pDisp s sig = if st && ((sig =? 13) || (sig =? 1)) then IgnoreAct else DefaultAct;
  iNone : st = false -> forall sig, own sig = None;
  iEmpty : forall sig, own sig = None -> pHandlers s (sig - 1) = None
}.
Definition give (own : Z -> option Z) (sig h : Z) : Z -> option Z := fun x => if x =? sig then Some h else own x.
Lemma inv_ext own own' st s : (forall x, own x = own' x) -> inv own st s -> inv own' st s.
Proof.
  intros E [I1 I2 I3 I4 I5]. split; [exact I1| | | |].
  - intros x h H. apply I2. rewrite E. exact H.
  - intros x H. apply I3. rewrite E. exact H.
  - intros H x. rewrite <- E. apply I4, H.
  - intros x H. apply I5. rewrite E. exact H.
Qed.
Lemma reserved_ok sig : mayInstall sig -> sigactionOk sig = negb (reserved sig).
Proof.
  intros [A [B C]]. unfold sigactionOk, reserved, SIGKILL, SIGSTOP. cbn [existsb].
  destruct (Z.eqb_spec sig 9); [lia|]. destruct (Z.eqb_spec sig 19); [lia|].
  replace (1 <=? sig) with true by lia. replace (sig <=? 64) with true by lia. cbn [andb orb]. rewrite orb_false_r. reflexivity.
Qed.
Lemma install_inv own st s sig h : inv own st s -> pFate s = Running ->
  let r := install s sig (Some h) [] in
  pCalls (fst r) = pCalls s /\
  ((mayInstall sig /\ reserved sig = false /\ snd r = true /\ pFate (fst r) = Running /\ inv (give own sig h) true (fst r)) \/
   (mayInstall sig /\ reserved sig = true /\ snd r = false /\ pFate (fst r) = Running /\ inv own true (fst r)) \/
   (~ mayInstall sig /\ snd r = false /\ pFate (fst r) = Terminated)).
Proof.
  intros [I1 I2 I3 I4 I5] R. unfold install.
  set (s1 := if pInit s then s else _).
  assert (R1 : pFate s1 = Running) by (unfold s1; destruct (pInit s); assumption).
  assert (C1 : pCalls s1 = pCalls s) by (unfold s1; destruct (pInit s); reflexivity).
  assert (J : inv own true s1).
  { unfold s1. rewrite I1. destruct st; [split; assumption|]. cbn.
    split; [reflexivity| | |discriminate|exact I5].
    - intros x hx Hx. rewrite (I4 eq_refl) in Hx. discriminate.
    - intros x Hx. cbn. unfold set, SIGPIPE, SIGHUP. rewrite (I3 _ Hx). cbn.
      destruct (x =? 1); [rewrite orb_true_r; reflexivity|]. destruct (x =? 13); reflexivity. }
  clearbody s1. clear I1 I2 I3 I4 I5. destruct J as [J1 J2 J3 J4 J5].
  destruct ((1 <=? sig) && (sig <=? 64) && negb (sig =? SIGKILL) && negb (sig =? SIGSTOP)) eqn:V.
  - assert (M : mayInstall sig) by (unfold mayInstall, SIGKILL, SIGSTOP in *; lia).
    unfold installInternal. rewrite (reserved_ok _ M). destruct (reserved sig) eqn:Rs; cbn.
    + split; [exact C1|]. right. left. split; [exact M|]. split; [reflexivity|]. split; [reflexivity|]. split; [exact R1|].
      split; assumption.
    + rewrite R1. cbn. split; [exact C1|]. left. split; [exact M|]. split; [reflexivity|]. split; [reflexivity|]. split; [reflexivity|].
      split; cbn; [exact J1| | |discriminate|].
      * unfold give, set. intros x hx. destruct (Z.eqb_spec x sig) as [->|N].
        -- rewrite Z.eqb_refl. intros [= ->]. split; reflexivity.
        -- intros Hx. replace (x - 1 =? sig - 1) with false by lia. exact (J2 _ _ Hx).
      * unfold give, set. intros x Hx. destruct (x =? sig); [discriminate|]. exact (J3 _ Hx).
      * unfold give, set. intros x Hx. destruct (Z.eqb_spec x sig) as [_|N]; [discriminate|]. replace (x - 1 =? sig - 1) with false by lia. exact (J5 _ Hx).
  - cbn. split; [exact C1|]. right. right. split; [|split; reflexivity].
    unfold mayInstall, SIGKILL, SIGSTOP in *. lia.
Qed.

Definition giveAll (own : Z -> option Z) (l : list Z) (h : Z) : Z -> option Z := fun x => if existsb (Z.eqb x) l then Some h else own x.
Definition nonEmpty {A} (l : list A) : bool := match l with [] => false | _ => true end.
Lemma installList_inv h sigs : forall own st s, (forall p, In p sigs -> snd p = []) -> inv own st s -> pFate s = Running ->
  let r := installList s sigs (Some h) in
  pCalls (fst r) = pCalls s /\
  (pFate (fst r) = Running -> inv (giveAll own (taken (names sigs)) h) (st || nonEmpty sigs) (fst r) /\ snd r = forallb (fun x => negb (reserved x)) (names sigs)) /\
  ((forall x, In x (names sigs) -> mayInstall x) -> pFate (fst r) = Running).
Proof.
  induction sigs as [|[sig d] sigs IH]; intros own st s Q J R.
  - cbn. split; [reflexivity|]. split; [|intros _; exact R]. intros _. rewrite orb_false_r. split; [|reflexivity]. exact (inv_ext _ _ _ _ (fun x => eq_refl) J).
  - assert (d = []) by exact (Q _ (or_introl eq_refl)). subst d.
    destruct (install_inv _ _ _ sig h J R) as [C K]. cbn [installList names map fst taken nonEmpty]. rewrite orb_true_r.
    destruct (install s sig (Some h) []) as [s1 ok]. cbn [fst snd] in *.
    destruct K as [(M & Rs & Ok & R1 & J1)|[(M & Rs & Ok & R1 & J1)|(M & Ok & R1)]]; rewrite R1.
    + subst ok. destruct (IH _ _ _ (fun p Hp => Q p (or_intror Hp)) J1 R1) as (C2 & K2 & K3).
      split; [congruence|]. split.
      * intros R2. destruct (K2 R2) as [J2 O2]. cbn [orb] in J2. split; [|cbn [forallb]; rewrite Rs; exact O2].
        rewrite Rs. refine (inv_ext _ _ _ _ _ J2). intros x. unfold giveAll, give. cbn [existsb].
        fold (names sigs). destruct (existsb (Z.eqb x) (taken (names sigs))); [rewrite orb_true_r; reflexivity|]. rewrite orb_false_r. reflexivity.
      * intros A. apply K3. intros x Hx. apply A. right. exact Hx.
    + subst ok. cbn [fst snd]. split; [exact C|]. split; [|intros _; exact R1]. intros _. cbn [forallb]. rewrite Rs. split; [|reflexivity].
      exact (inv_ext _ _ _ _ (fun x => eq_refl) J1).
    + cbn [fst snd]. split; [exact C|]. split; [rewrite R1; discriminate|]. intros A. exfalso. apply M, A. left. reflexivity.
Qed.

Lemma fatal_dec sig : {fatal sig} + {~ fatal sig}.
Proof. unfold fatal. destruct (Z.eq_dec sig 4), (Z.eq_dec sig 6), (Z.eq_dec sig 7), (Z.eq_dec sig 8), (Z.eq_dec sig 11); try (left; lia); right; lia. Qed.
Lemma fatal_test sig : existsb (Z.eqb sig) [SIGSEGV; SIGABRT; SIGILL; SIGFPE; SIGBUS] = if fatal_dec sig then true else false.
Proof.
  unfold fatal, SIGSEGV, SIGABRT, SIGILL, SIGFPE, SIGBUS. cbn [existsb]. destruct (fatal_dec sig) as [F|F]; unfold fatal in F; lia.
Qed.
Lemma fatal_kills sig : fatal sig -> defaultKills sig = true.
Proof. intros [->|[->|[->|[->| ->]]]]; reflexivity. Qed.

Lemma call_owned s f sig pid uid h : pFate s = Running -> pHandlers s (sig - 1) = Some h ->
  callHandler s f sig pid uid = mkProc (pInit s) (pHandlers s) (pDisp s) (pCalls s ++ [mkCall h f sig pid uid]) Running.
Proof. intros R H. unfold callHandler. rewrite R, H. reflexivity. Qed.
(** what one arrival does *)
Lemma deliver_owned own st s sig pid uid h : inv own st s -> pFate s = Running -> own sig = Some h ->
  let s' := deliver s sig pid uid in
  (fatal sig -> pCalls s' = pCalls s ++ [mkCall h true sig pid uid; mkCall h false sig pid uid] /\ pFate s' = Killed sig) /\
  (sig = 17 -> pCalls s' = pCalls s ++ [mkCall h false sig pid uid; mkCall h false sig pid uid] /\ pFate s' = Running /\ inv own st s') /\
  (~ fatal sig -> sig <> 17 -> pCalls s' = pCalls s ++ [mkCall h false sig pid uid] /\ pFate s' = Running /\ inv own st s').
Proof.
  intros [I1 I2 I3 I4 I5] R O. destruct (I2 _ _ O) as [H D]. unfold deliver. rewrite R, D. unfold doHandle. rewrite fatal_test.
  destruct (fatal_dec sig) as [F|F].
  - split; [|split; [intros ->; unfold fatal in F; lia|contradiction]]. intros _.
    rewrite (call_owned s true sig pid uid h R H). cbn [pFate]. rewrite (call_owned _ false sig pid uid h); [|reflexivity|exact H]. cbn [pFate].
    unfold defaultAction. rewrite (fatal_kills _ F). cbn. rewrite <- app_assoc. split; reflexivity.
  - split; [contradiction|]. destruct (Z.eqb_spec sig SIGCHLD) as [E|N]; unfold SIGCHLD in *.
    + split; [|contradiction]. intros _. rewrite (call_owned s false sig pid uid h R H), (call_owned _ false sig pid uid h); [|reflexivity|exact H].
      cbn. rewrite <- app_assoc.
      split; [reflexivity|]. split; [reflexivity|]. split; assumption.
    + split; [contradiction|]. intros _ _. rewrite (call_owned s false sig pid uid h R H). cbn. split; [reflexivity|]. split; [reflexivity|]. split; assumption.
Qed.
Lemma deliver_free own st s sig pid uid : inv own st s -> pFate s = Running -> own sig = None ->
  let s' := deliver s sig pid uid in
  pCalls s' = pCalls s /\ (pFate s' = Running -> inv own st s') /\
  pFate s' = if (st && ((sig =? 13) || (sig =? 1))) || negb (defaultKills sig) then Running else Killed sig.
Proof.
  intros J R O. pose proof (iFree _ _ _ J _ O) as D. unfold deliver. rewrite R, D. destruct (st && ((sig =? 13) || (sig =? 1))); cbn.
  - split; [reflexivity|]. split; [intros _; exact J|exact R].
  - unfold defaultAction. destruct (defaultKills sig); cbn; [split; [reflexivity|]; split; [discriminate|reflexivity]|].
    split; [reflexivity|]. split; [intros _; exact J|exact R].
Qed.

Lemma running_back s e : pFate (hstep s e) = Running -> pFate s = Running.
Proof. unfold hstep. destruct (pFate s) eqn:E; [reflexivity| |]; intros H; rewrite E in H; discriminate. Qed.
Lemma hrun_app es e : hrun (es ++ [e]) = hstep (hrun es) e.
Proof. unfold hrun. rewrite fold_left_app. reflexivity. Qed.
Lemma history_inv es : quiet es -> pFate (hrun es) = Running -> inv (owner es) (started es) (hrun es).
Proof.
  induction es as [|e es IH] using rev_ind; intros Q R.
  - split; [reflexivity|discriminate|reflexivity|reflexivity|reflexivity].
  - rewrite hrun_app in *. pose proof (running_back _ _ R) as R0.
    assert (J : inv (owner es) (started es) (hrun es)) by (apply IH; [intros x Hx; apply Q, in_or_app; left; exact Hx|exact R0]).
    assert (Qe : quietOne e) by (apply Q, in_or_app; right; left; reflexivity).
    rewrite started_app. unfold hstep in *. rewrite R0 in *. destruct e as [sigs [h|]|sig pid uid].
    + destruct Qe as [Qe _]. destruct (installList_inv h sigs _ _ _ Qe J R0) as (_ & K & _). destruct (K R) as [K1 _].
      replace (started [Install sigs (Some h)]) with (nonEmpty sigs) by (destruct sigs; reflexivity).
      refine (inv_ext _ _ _ _ _ K1). intros x. rewrite owner_app. cbn. unfold giveAll. destruct (existsb _ _); reflexivity.
    + destruct Qe as [_ Qe]. contradiction.
    + cbn [started existsb]. rewrite orb_false_r. refine (inv_ext _ _ _ _ (fun x => eq_sym (owner_app es _ x)) _). cbn [owner].
      destruct (owner es sig) as [h|] eqn:O.
      * destruct (deliver_owned _ _ _ sig pid uid _ J R0 O) as (A & B & C).
        destruct (fatal_dec sig) as [F|F]; [destruct (A F) as [_ E]; rewrite E in R; discriminate|].
        destruct (Z.eq_dec sig 17) as [E|N]; [apply (B E)|apply (C F N)].
      * destruct (deliver_free _ _ _ sig pid uid J R0 O) as (_ & B & _). exact (B R).
Qed.

Lemma heard_app es : forall b e, heard b (es ++ [e]) = heard b es ++ heard (b ++ es) [e].
Proof.
  induction es as [|x es IH]; intros b e; [rewrite app_nil_r; reflexivity|]. cbn [app].
  cbn [heard]. rewrite IH, app_assoc. cbn [heard]. rewrite <- (app_assoc b). reflexivity.
Qed.

(** * C129 *)
(** Installing signals that may be installed, at any time: the process goes on, nothing is called, and from then on the handler has these
    signals, up to a reserved one; all of them if the answer is OK. The others keep theirs. *)
Theorem C129_install : forall es sigs h, quiet es -> pFate (hrun es) = Running -> (forall p, In p sigs -> snd p = []) ->
  (forall x, In x (names sigs) -> mayInstall x) ->
  let r := installList (hrun es) sigs (Some h) in
  pFate (fst r) = Running /\ pCalls (fst r) = pCalls (hrun es) /\
  (snd r = true <-> forall x, In x (names sigs) -> reserved x = false) /\
  (snd r = true -> forall x, In x (names sigs) -> owner (es ++ [Install sigs (Some h)]) x = Some h) /\
  (forall x, ~ In x (names sigs) -> owner (es ++ [Install sigs (Some h)]) x = owner es x).
Proof.
  intros es sigs h Q R Qs V r. destruct (installList_inv h sigs _ _ _ Qs (history_inv es Q R) R) as (C & K & T).
  specialize (T V). destruct (K T) as [_ O]. split; [exact T|]. split; [exact C|].
  assert (A : snd r = true <-> forall x, In x (names sigs) -> reserved x = false).
  { unfold r. rewrite O, forallb_forall. split; intros H x Hx; specialize (H x Hx); destruct (reserved x); easy. }
  split; [exact A|]. split.
  - intros Ok x Hx. rewrite owner_app. cbn.
    assert (E : taken (names sigs) = names sigs).
    { pose proof (proj1 A Ok) as B. clear -B. induction (names sigs) as [|y l IH]; [reflexivity|]. cbn. rewrite (B y (or_introl eq_refl)), IH; [reflexivity|].
      intros z Hz. apply B. right. exact Hz. }
    rewrite E. replace (existsb (Z.eqb x) (names sigs)) with true; [reflexivity|]. symmetry. apply existsb_exists. exists x. split; [exact Hx|apply Z.eqb_refl].
  - intros x Hx. rewrite owner_app. cbn. destruct (existsb (Z.eqb x) (taken (names sigs))) eqn:E; [|reflexivity]. exfalso. apply Hx.
    apply existsb_exists in E. destruct E as (y & Hy & Ey). apply Z.eqb_eq in Ey. subst y.
    clear -Hy. induction (names sigs) as [|y l IH]; [exact Hy|]. cbn in Hy. destruct (reserved y); [contradiction|]. destruct Hy as [->|Hy]; [left; reflexivity|right; exact (IH Hy)].
Qed.
Example C129_install_ex :
  let r := installList init [(2, []); (15, [])] (Some 7) in snd r = true /\ pFate (fst r) = Running /\ owner [Install [(2, []); (15, [])] (Some 7)] 15 = Some 7 /\
  snd (installList init [(2, []); (32, []); (15, [])] (Some 7)) = false /\ owner [Install [(2, []); (32, []); (15, [])] (Some 7)] 15 = None.
Proof. cbv zeta. splits; reflexivity. Qed.

(** A signal that has a handler and is neither SIGCHLD nor one of the fatal ones: the handler is called once, told the number of the signal and its
    sender; the process goes on and the handler stays. *)
Theorem C129_arrival : forall es sig pid uid h, quiet es -> pFate (hrun es) = Running -> owner es sig = Some h -> ~ fatal sig -> sig <> 17 ->
  let s := hrun (es ++ [Arrives sig pid uid]) in
  pCalls s = pCalls (hrun es) ++ [mkCall h false sig pid uid] /\ pFate s = Running /\ owner (es ++ [Arrives sig pid uid]) sig = Some h.
Proof.
  intros es sig pid uid h Q R O F N. rewrite hrun_app, owner_app. unfold hstep. rewrite R. cbn [owner].
  destruct (deliver_owned _ _ _ sig pid uid _ (history_inv es Q R) R O) as (_ & _ & C). destruct (C F N) as (C1 & C2 & _).
  split; [exact C1|]. split; [exact C2|exact O].
Qed.
Example C129_arrival_ex : pCalls (hrun [Install [(2, []); (15, [])] (Some 7); Install [(2, [])] (Some 8); Arrives 2 100 0; Arrives 15 101 5; Arrives 13 1 1]) =
  [mkCall 8 false 2 100 0; mkCall 7 false 15 101 5].
Proof. reflexivity. Qed.

(** A whole history without SIGCHLD at whose end the process runs: the calls are exactly one for each arrival of a signal that had a handler by then, in order. *)
Theorem C129_every_arrival_once : forall es, quiet es -> pFate (hrun es) = Running ->
  (forall pid uid, ~ In (Arrives 17 pid uid) es) -> pCalls (hrun es) = heard [] es.
Proof.
  induction es as [|e es IH] using rev_ind; intros Q R N; [reflexivity|].
  rewrite hrun_app in *. pose proof (running_back _ _ R) as R0.
  assert (Q0 : quiet es) by (intros x Hx; apply Q, in_or_app; left; exact Hx).
  assert (Qe : quietOne e) by (apply Q, in_or_app; right; left; reflexivity).
  assert (N0 : forall pid uid, ~ In (Arrives 17 pid uid) es) by (intros pid uid Hx; apply (N pid uid), in_or_app; left; exact Hx).
  rewrite heard_app, <- (IH Q0 R0 N0). cbn [app]. pose proof (history_inv es Q0 R0) as J.
  unfold hstep in *. rewrite R0 in *. destruct e as [sigs [h|]|sig pid uid].
  - destruct (installList_inv h sigs _ _ _ (proj1 Qe) J R0) as (C & _ & _). rewrite C. cbn. rewrite app_nil_r. reflexivity.
  - destruct Qe as [_ Qe]. contradiction.
  - cbn [heard]. rewrite app_nil_r. destruct (owner es sig) as [h|] eqn:O.
    + destruct (deliver_owned _ _ _ sig pid uid _ J R0 O) as (A & _ & C).
      destruct (fatal_dec sig) as [F|F]; [destruct (A F) as [_ E]; rewrite E in R; discriminate|].
      apply (C F). intros ->. apply (N pid uid), in_or_app. right. left. reflexivity.
    + destruct (deliver_free _ _ _ sig pid uid J R0 O) as (A & _). rewrite A, app_nil_r. reflexivity.
Qed.
Example C129_every_arrival_once_ex : let es := [Install [(2, [])] (Some 7); Arrives 2 100 0; Arrives 28 0 0; Install [(10, []); (2, [])] (Some 8); Arrives 2 100 0; Arrives 10 9 9] in
  pFate (hrun es) = Running /\ heard [] es = [mkCall 7 false 2 100 0; mkCall 8 false 2 100 0; mkCall 8 false 10 9 9].
Proof. cbv zeta. splits; reflexivity. Qed.

(** SIGCHLD is reported twice: after the break, the general case runs once more (106-111). *)
Theorem C129_child_twice_refuted : ~ (forall es, quiet es -> pFate (hrun es) = Running -> pCalls (hrun es) = heard [] es).
Proof.
  intros H. specialize (H [Install [(17, [])] (Some 7); Arrives 17 100 0]). discriminate H; [|reflexivity].
  intros e [<-|[<-|[]]]; [|exact I]. split; [|discriminate]. intros p [<-|[]]. reflexivity.
Qed.
Theorem C129_child_twice : forall es pid uid h, quiet es -> pFate (hrun es) = Running -> owner es 17 = Some h ->
  let s := hrun (es ++ [Arrives 17 pid uid]) in
  pCalls s = pCalls (hrun es) ++ [mkCall h false 17 pid uid; mkCall h false 17 pid uid] /\ pFate s = Running.
Proof.
  intros es pid uid h Q R O. rewrite hrun_app. unfold hstep. rewrite R.
  destruct (deliver_owned _ _ _ 17 pid uid _ (history_inv es Q R) R O) as (_ & B & _). destruct (B eq_refl) as (B1 & B2 & _). split; assumption.
Qed.

(** A fatal signal is never survived, whoever handles it: the handler is called, and the process is then killed by that same signal.
    But the handler is called twice, the second time after the first call has returned. *)
Theorem C129_fatal : forall es sig pid uid, quiet es -> pFate (hrun es) = Running -> fatal sig ->
  let s := hrun (es ++ [Arrives sig pid uid]) in
  pFate s = Killed sig /\
  pCalls s = pCalls (hrun es) ++ match owner es sig with Some h => [mkCall h true sig pid uid; mkCall h false sig pid uid] | None => [] end.
Proof.
  intros es sig pid uid Q R F. rewrite hrun_app. unfold hstep. rewrite R. destruct (owner es sig) as [h|] eqn:O.
  - destruct (deliver_owned _ _ _ sig pid uid _ (history_inv es Q R) R O) as (A & _). destruct (A F) as [A1 A2]. split; assumption.
  - destruct (deliver_free _ _ _ sig pid uid (history_inv es Q R) R O) as (A & _ & C). cbn zeta. rewrite C, A, app_nil_r, (fatal_kills _ F), orb_false_r.
    split; [|reflexivity]. destruct F as [->|[->|[->|[->| ->]]]]; cbn; rewrite andb_false_r; reflexivity.
Qed.
Example C129_fatal_ex : let s := hrun [Install [(11, []); (6, [])] (Some 7); Arrives 11 100 0] in
  pFate s = Killed 11 /\ pCalls s = [mkCall 7 true 11 100 0; mkCall 7 false 11 100 0].
Proof. cbv zeta. splits; reflexivity. Qed.

(** Signals nobody installed: from the first install on SIGPIPE and SIGHUP are ignored; all others keep their default, and no handler hears of any of them. *)
Theorem C129_not_installed : forall es sig pid uid, quiet es -> pFate (hrun es) = Running -> owner es sig = None ->
  let s := hrun (es ++ [Arrives sig pid uid]) in
  pCalls s = pCalls (hrun es) /\
  pFate s = if (started es && ((sig =? 13) || (sig =? 1))) || negb (defaultKills sig) then Running else Killed sig.
Proof.
  intros es sig pid uid Q R O. rewrite hrun_app. unfold hstep. rewrite R.
  destruct (deliver_free _ _ _ sig pid uid (history_inv es Q R) R O) as (A & _ & C). split; assumption.
Qed.
Example C129_not_installed_ex : pFate (hrun [Arrives 13 1 1]) = Killed 13 /\ pFate (hrun [Install [(2, [])] (Some 7); Arrives 13 1 1; Arrives 1 1 1]) = Running /\
  pFate (hrun [Install [(2, [])] (Some 7); Arrives 15 1 1]) = Killed 15.
Proof. cbv zeta. splits; reflexivity. Qed.

(** The hook is registered before the handler is stored (78 and 85): a signal that arrives in between ends the process, for any signal that had no handler. *)
Theorem C129_window : forall es sig h pid uid, quiet es -> pFate (hrun es) = Running -> mayInstall sig -> reserved sig = false ->
  owner es sig = None -> pFate (fst (install (hrun es) sig (Some h) [(sig, pid, uid)])) = Terminated.
Proof.
  intros es sig h pid uid Q R M Rs O. pose proof (history_inv es Q R) as J.
  unfold install. set (s1 := if pInit _ then _ else _).
  assert (R1 : pFate s1 = Running) by (unfold s1; destruct (pInit _); exact R).
  assert (H1 : pHandlers s1 (sig - 1) = None).
  { transitivity (pHandlers (hrun es) (sig - 1)); [unfold s1; destruct (pInit _); reflexivity|]. exact (iEmpty _ _ _ J _ O). }
  clearbody s1. replace ((1 <=? sig) && (sig <=? 64) && negb (sig =? SIGKILL) && negb (sig =? SIGSTOP)) with true
    by (unfold mayInstall, SIGKILL, SIGSTOP in *; lia).
  unfold installInternal. rewrite (reserved_ok _ M), Rs. cbn [negb deliverAll fold_left].
  assert (T : pFate (deliver (setDisp s1 sig HookAct) sig pid uid) = Terminated).
  { unfold deliver. cbn [setDisp pFate pDisp]. rewrite R1. unfold set at 1. rewrite Z.eqb_refl.
    assert (T : forall f, pFate (callHandler (setDisp s1 sig HookAct) f sig pid uid) = Terminated /\ callHandler (setDisp s1 sig HookAct) f sig pid uid = setFate (setDisp s1 sig HookAct) Terminated).
    { intros f. unfold callHandler. cbn. rewrite R1, H1. split; reflexivity. }
    change (set (pDisp s1) sig HookAct) with (pDisp (setDisp s1 sig HookAct)).
    unfold doHandle. rewrite fatal_test. destruct (fatal_dec sig); [rewrite !(proj2 (T _)); reflexivity|].
    destruct (sig =? SIGCHLD); rewrite !(proj2 (T _)); reflexivity. }
  rewrite T. exact T.
Qed.
(** So a signal to be handled gracefully kills the process instead. *)
Theorem C129_window_refuted : ~ (forall s sig h during, pFate s = Running -> mayInstall sig -> pFate (fst (install s sig (Some h) during)) = Running).
Proof. intros H. specialize (H init 15 7 [(15, 100, 0)] eq_refl ltac:(unfold mayInstall; lia)). discriminate H. Qed.

Print Assumptions C129_install.
Print Assumptions C129_arrival.
Print Assumptions C129_every_arrival_once.
Print Assumptions C129_child_twice_refuted.
Print Assumptions C129_child_twice.
Print Assumptions C129_fatal.
Print Assumptions C129_not_installed.
Print Assumptions C129_window.
Print Assumptions C129_window_refuted.
