(** C95-C99: what the graph service answers, on the wire and compared. *)
From Coq Require Import String List Permutation.
From Verif Require Import Prelude ValueBase FloatProofs DateModel TimeModel HashModel ValueModel ValueProofs GraphModel AssocModel WireModel WireSpec WireProofs WireSafe ValueProps WireProps.
From Verif Require Import ReplyModel ReplySpec ReplyProofs ReplySkip ReplySafe.
Import ListNotations.
Local Open Scope list_scope.
Local Open Scope Z_scope.

(** * C95 *)
(** A response arrives: every member sent is there, every other is as it was; edge types in the result keep their sign only *)
Theorem C95_result_arrives X old e rest : execOk X e -> readExec X old (putExec e ++ rest) = Got (overExec old (carriedExec e)) rest.
Proof. intros H. apply getExec_ok; [exact H|]. rewrite app_length. lia. Qed.
Theorem C95_result_arrives_new X e : execOk X e -> readExec X newExec (putExec e) = Got (carriedExec e) [].
Proof. intros H. pose proof (C95_result_arrives X newExec e [] H) as E. rewrite app_nil_r in E. rewrite E. destruct e as [c l [d|] [sp|] [m|] [p|] [co|]]; reflexivity. Qed.
(** Nothing is lost when the edge types in the result are directions *)
Theorem C95_result_arrives_whole X e : execOk X e -> ifAny (fun d => directed (VDataSet d)) (exData e) -> readExec X newExec (putExec e) = Got e [].
Proof.
  intros H D. rewrite C95_result_arrives_new by exact H. f_equal. destruct e as [c l d sp m p co]. unfold carriedExec. cbn [exData exCode exLatency exSpace exMsg exPlan exComment] in *. f_equal.
  destruct d as [d|]; [|reflexivity]. cbn [option_map ifAny] in *. f_equal. destruct H as (_ & _ & H & _). cbn [ifAny exData] in H.
  pose proof (C76_value_arrives X (VDataSet d) H) as E1. rewrite (C76_directions_arrive_whole X (VDataSet d) H D) in E1. injection E1 as E1. cbn [carried] in E1. symmetry. exact E1.
Qed.
Theorem C95_auth_arrives old a rest : authOk a -> readAuth old (putAuth a ++ rest) = Got (overAuth old a) rest.
Proof. intros H. apply getAuth_ok; [exact H|]. rewrite app_length. lia. Qed.
Theorem C95_auth_arrives_new a : authOk a -> readAuth newAuth (putAuth a) = Got a [].
Proof. intros H. pose proof (C95_auth_arrives newAuth a [] H) as E. rewrite app_nil_r in E. rewrite E. destruct a as [c [m|] [i|] [o|] [z|]]; reflexivity. Qed.
Theorem C95_address_arrives old a rest : addrOk a -> readAddr old (putAddr a ++ rest) = Got a rest.
Proof. intros H. apply getAddr_ok; [exact H|]. rewrite app_length. lia. Qed.
Theorem C95_pair_arrives old p rest : kvOk p -> readKV old (putKV p ++ rest) = Got p rest.
Proof. intros H. apply getKV_ok; [exact H|]. rewrite app_length. lia. Qed.
(** What is written is bytes *)
Lemma bytes_members l : forall last, chain last l -> 0 <= last -> (forall id t b, In (id, t, b) l -> bytes b) -> bytes (putMembers last l).
Proof.
  induction l as [|[[id t] b] l IH]; intros last C L H; [exact bytes_stop|]. destruct C as (C1 & C2 & C3). cbn [putMembers]. apply bytes_app; [apply bytes_field; lia|]. apply bytes_app; [apply (H id t); left; reflexivity|].
  apply IH; [exact C3|lia|intros; eapply H; right; eassumption].
Qed.
Lemma bytes_listOf {A} t (w : A -> str) l : 0 <= t < 16 -> (forall x, In x l -> bytes (w x)) -> bytes (putListOf t w l).
Proof. intros T H. apply bytes_app; [apply bytes_listHdr, T|apply bytes_flat, H]. Qed.
Lemma bytes_mapOf {K A} kt vt (wk : K -> str) (w : A -> str) m : 0 <= kt < 16 -> 0 <= vt < 16 -> (forall k v, In (k, v) m -> bytes (wk k) /\ bytes (w v)) -> bytes (putMapOf kt vt wk w m).
Proof. intros T1 T2 H. apply bytes_app; [apply bytes_mapHdr; assumption|]. apply bytes_flat. intros [k v] Hv. destruct (H k v Hv). apply bytes_app; assumption. Qed.
Lemma bytes_optional {A} id t (w : A -> str) o : ifAny (fun x => bytes (w x)) o -> forall id' t' b, In (id', t', b) (optional id t w o) -> bytes b.
Proof. destruct o as [x|]; cbn; [|tauto]. intros H id' t' b [E|[]]. injection E as <- <- <-. exact H. Qed.
Lemma ifAny_imp {A} (P Q : A -> Prop) o : (forall x, P x -> Q x) -> ifAny P o -> ifAny Q o.
Proof. destruct o; cbn; auto. Qed.
Ltac each := let H := fresh in intros ? ? ? H; repeat rewrite in_app_iff in H; cbn [In] in H;
  repeat (match type of H with _ \/ _ => destruct H as [H|H] end); [..|idtac]; try (injection H as <- <- <-); try contradiction.
Lemma bytes_pair p : kvOk p -> bytes (putKV p).
Proof. intros [H1 H2]. apply bytes_members; [chains|lia|]. unfold kvMembers. each; apply bytes_bin; assumption. Qed.
Lemma bytes_profS p : profOk p -> bytes (putProf p).
Proof.
  intros (H1 & H2 & H3 & H4). apply bytes_members; [destruct p as [? ? ? []]; chains|lia|]. unfold profMembers. each; try (apply bytes_i64; assumption).
  revert H. apply bytes_optional. revert H4. apply ifAny_imp. intros m (_ & _ & M). apply bytes_mapOf; [tys|tys|]. intros k v Hk. destruct (M k v Hk). split; apply bytes_bin; assumption.
Qed.
Lemma bytes_node n : pnodeOk n -> bytes (putNode n).
Proof.
  intros (H1 & H2 & H3 & H4 & H5 & H6 & H7). apply bytes_members; [destruct n as [? ? ? [] [] [] []]; chains|lia|]. unfold nodeMembers. each; try (apply bytes_i64; assumption); try (apply bytes_bin; assumption);
    revert H; apply bytes_optional.
  - revert H4. apply ifAny_imp. intros l [_ L]. apply bytes_listOf; [tys|]. intros x Hx. apply bytes_pair, L, Hx.
  - revert H5. apply ifAny_imp. intros l [_ L]. apply bytes_listOf; [tys|]. intros x Hx. apply bytes_profS, L, Hx.
  - revert H6. apply ifAny_imp. intros br Bo. apply bytes_members; [destruct br as [[] ?]; chains; cbn; lia|lia|]. unfold branchMembers. each; [constructor|apply bytes_i64, Bo].
  - revert H7. apply ifAny_imp. intros l [_ L]. apply bytes_listOf; [tys|]. intros x Hx. apply bytes_i64, L, Hx.
Qed.
Lemma bytes_plan p : planOk p -> bytes (putPlan p).
Proof.
  intros ((_ & H1) & (_ & _ & H2) & H3 & H4). apply bytes_members; [chains|lia|]. unfold planMembers. each; [|apply bytes_mapOf; [tys|tys|]|apply bytes_bin, H3|apply bytes_i32, H4].
  - apply bytes_listOf; [tys|]. intros x Hx. apply bytes_node, H1, Hx.
  - intros k v Hk. destruct (H2 k v Hk). split; apply bytes_i64; assumption.
Qed.
Lemma bytes_dataSet X d : sendable X (VDataSet d) -> bytes (putDataSet putValue d).
Proof.
  intros H. pose proof (C76_writes_bytes X _ H) as B. cbn [putValue] in B. apply Forall_app in B. destruct B as [_ B]. apply Forall_app in B. exact (proj1 B).
Qed.
Theorem C95_result_writes_bytes X e : execOk X e -> Forall (fun b => 0 <= b < 256) (putExec e).
Proof.
  intros (H1 & H2 & H3 & H4 & H5 & H6 & H7). change (bytes (putExec e)). apply bytes_members; [apply execChain|lia|]. unfold execMembers. each; try (apply bytes_i32; assumption); revert H; apply bytes_optional.
  - revert H3. apply ifAny_imp. exact (bytes_dataSet X).
  - revert H4. apply ifAny_imp. exact bytes_bin.
  - revert H5. apply ifAny_imp. exact bytes_bin.
  - revert H6. apply ifAny_imp. exact bytes_plan.
  - revert H7. apply ifAny_imp. exact bytes_bin.
Qed.
Theorem C95_auth_writes_bytes a : authOk a -> Forall (fun b => 0 <= b < 256) (putAuth a).
Proof.
  intros (H1 & H2 & H3 & H4 & H5). change (bytes (putAuth a)). apply bytes_members; [apply authChain|lia|]. unfold authMembers. each; try (apply bytes_i32; assumption); revert H; apply bytes_optional.
  - revert H2. apply ifAny_imp. exact bytes_bin.
  - revert H3. apply ifAny_imp. exact bytes_i64.
  - revert H4. apply ifAny_imp. exact bytes_i32.
  - revert H5. apply ifAny_imp. exact bytes_bin.
Qed.

(** A response with a result, a plan of two nodes, and everything optional present *)
Definition exNode (i : Z) (v : string) : node :=
  mkNode (B "GetNeighbors"%string) i (B v) (Some [mkKV (B "space"%string) (B "7"%string)]) (Some [mkProf 3 40 50 (Some [(B "a"%string, B "1"%string); (B "b"%string, B "2"%string)])])
    (Some (mkBranch true 9)) (Some [2; -3]).
Definition exPlanV : plan := mkPlan [exNode 1 "v1"; exNode 2 "v2"] [(1, 0); (2, 1)] (B "dot"%string) 77.
Definition exResult : exec :=
  mkExec (-1005) 1234 (Some (mkDataSet [B "id"%string; B "e"%string] [[VInt 5; VEdge (exEdge 1)]; [VNull NNull; VList [VBool true]]])) (Some (B "nba"%string)) (Some (B "oops"%string))
    (Some exPlanV) (Some (B "slow"%string)).
Ltac range := vm_compute; split; discriminate.
Ltac text := split; [vm_compute; reflexivity|vm_compute; repeat (apply Forall_cons; [split; [discriminate|reflexivity]|]); apply Forall_nil].
Lemma exNodeOk i v : int64 i -> strOk (B v) -> pnodeOk (exNode i v).
Proof.
  intros Hi Hv. unfold pnodeOk, exNode. cbn [ndName ndId ndVar ndDesc ndProfs ndBranch ndDeps ifAny]. splits; [text|exact Hi|exact Hv| | |range|].
  - split; [reflexivity|]. intros x [<-|[]]. split; text.
  - split; [reflexivity|]. intros x [<-|[]]. unfold profOk. cbn [pfRows pfExec pfTotal pfOther ifAny]. splits; [range|range|range|]. unfold mapOk. splits; [reflexivity| |].
    + repeat constructor; cbn; intuition discriminate.
    + intros k w [E|[E|[]]]; injection E as <- <-; split; text.
  - split; [reflexivity|]. intros x [<-|[<-|[]]]; range.
Qed.
Example C95_example : execOk X0 exResult /\ ifAny (fun d => directed (VDataSet d)) (exData exResult) /\ List.length (putExec exResult) = 228%nat /\ readExec X0 newExec (putExec exResult) = Got exResult [].
Proof.
  assert (E1 : sendable X0 (VEdge (exEdge 1))).
  { constructor; [cbn [WireSpec.nodeOk]; unfold edgeOk; cbn [exEdge etype erank ename eprops]; splits; [range|range|text|]|cbn [subvals exEdge esrc edst eprops map snd]; intros c [<-|[<-|[<-|[]]]]; (constructor; [range|intros c []])].
    unfold propsOk. splits; [reflexivity|constructor; [intros []|constructor]|]. intros k v [E|[]]. injection E as <- <-. text. }
  assert (D1 : directed (VEdge (exEdge 1))).
  { constructor; [cbn; right; right; reflexivity|]. cbn [subvals exEdge esrc edst eprops map snd]. intros c [<-|[<-|[<-|[]]]]; constructor; cbn; auto; intros c []. }
  splits.
  - unfold execOk, exResult. cbn [exCode exLatency exData exSpace exMsg exPlan exComment ifAny]. splits; [range|range| |text|text| |text].
    + constructor.
      * cbn [WireSpec.nodeOk dcols drows]. splits; [reflexivity| |reflexivity|].
        -- intros c [<-|[<-|[]]]; text.
        -- intros r [<-|[<-|[]]]; reflexivity.
      * cbn [subvals drows concat app]. intros c [<-|[<-|[<-|[<-|[]]]]]; [constructor; [range|intros c []]|exact E1|constructor; [exact I|intros c []]|constructor; [reflexivity|]].
        intros c [<-|[]]. constructor; [exact I|intros c []].
    + unfold planOk, exPlanV. cbn [plNodes plIndex plFormat plTime]. split; [split; [reflexivity|]|split; [unfold mapOk; splits; [reflexivity| |]|split; [text|range]]].
      * intros x [<-|[<-|[]]]; apply exNodeOk; first [range|text].
      * repeat constructor; cbn; intuition discriminate.
      * intros k v [E|[E|[]]]; injection E as <- <-; split; range.
  - cbn [exData exResult ifAny]. constructor; [exact I|]. cbn [subvals drows concat app]. intros c [<-|[<-|[<-|[<-|[]]]]]; [constructor; [exact I|intros c []]|exact D1|constructor; [exact I|intros c []]|constructor; [exact I|]].
    intros c [<-|[]]. constructor; [exact I|intros c []].
  - vm_compute. reflexivity.
  - vm_compute. reflexivity.
Qed.

(** * C96 *)
(** Reading any bytes ends *)
Theorem C96_reading_ends X old s : readExec X old s <> NoFuel.
Proof. unfold readExec. pose proof (ok_exec [] X (S (List.length s)) (S (List.length s)) old s ltac:(lia) ltac:(lia)) as H. intros E. rewrite E in H. exact H. Qed.
Theorem C96_auth_reading_ends old s : readAuth old s <> NoFuel.
Proof. unfold readAuth. pose proof (ok_auth [] (S (List.length s)) (S (List.length s)) old s ltac:(lia) ltac:(lia)) as H. intros E. rewrite E in H. exact H. Qed.
(** at least one byte is taken from the front, and what follows a response does not change it *)
Theorem C96_what_follows_is_ignored X old s t e r : readExec X old s = Got e r -> (exists p, s = p ++ r /\ p <> []) /\ readExec X old (s ++ t) = Got e (r ++ t).
Proof.
  unfold readExec. intros E. pose proof (ok_exec t X (S (List.length s)) (S (List.length (s ++ t))) old s ltac:(lia) ltac:(rewrite app_length; lia)) as H. rewrite E in H.
  destruct H as [(p & -> & L) H]. split; [|exact H]. exists p. split; [reflexivity|]. intros ->. cbn in L. lia.
Qed.
Theorem C96_auth_what_follows_is_ignored old s t a r : readAuth old s = Got a r -> (exists p, s = p ++ r /\ p <> []) /\ readAuth old (s ++ t) = Got a (r ++ t).
Proof.
  unfold readAuth. intros E. pose proof (ok_auth t (S (List.length s)) (S (List.length (s ++ t))) old s ltac:(lia) ltac:(rewrite app_length; lia)) as H. rewrite E in H.
  destruct H as [(p & -> & L) H]. split; [|exact H]. exists p. split; [reflexivity|]. intros ->. cbn in L. lia.
Qed.
(** A response cut short is refused *)
Theorem C96_cut_is_refused X old e p q : execOk X e -> putExec e = p ++ q -> q <> [] -> readExec X old p = Throw.
Proof.
  intros H E Q. pose proof (C95_result_arrives X old e [] H) as R. rewrite app_nil_r, E in R. unfold readExec in *.
  pose proof (ok_exec q X (S (List.length p)) (S (List.length (p ++ q))) old p ltac:(lia) ltac:(rewrite app_length; lia)) as K. rewrite R in K.
  destruct (getExec X (S (List.length p)) old p) as [a r| | | | |]; try discriminate K; [|reflexivity|contradiction].
  destruct K as [_ K]. injection K as _ K. symmetry in K. apply app_eq_nil in K. destruct K as [_ K]. contradiction.
Qed.
Theorem C96_auth_cut_is_refused old a p q : authOk a -> putAuth a = p ++ q -> q <> [] -> readAuth old p = Throw.
Proof.
  intros H E Q. pose proof (C95_auth_arrives old a [] H) as R. rewrite app_nil_r, E in R. unfold readAuth in *.
  pose proof (ok_auth q (S (List.length p)) (S (List.length (p ++ q))) old p ltac:(lia) ltac:(rewrite app_length; lia)) as K. rewrite R in K.
  destruct (getAuth (S (List.length p)) old p) as [x r| | | | |]; try discriminate K; [|reflexivity|contradiction].
  destruct K as [_ K]. injection K as _ K. symmetry in K. apply app_eq_nil in K. destruct K as [_ K]. contradiction.
Qed.
(** A response without its error code or its latency is refused, and so is an answer to a login without its code *)
Theorem C96_required X old e id rest : execOk X e -> id = 1 \/ id = 2 -> readExec X old (putMembers 0 (without id (execMembers e)) ++ rest) = Throw.
Proof.
  intros H I. set (s := putMembers 0 (without id (execMembers e)) ++ rest). set (f := (S (List.length s) + List.length (putExec e))%nat).
  destruct (exec_does X f (skip f true) e H ltac:(unfold f; lia)) as (os & D & _).
  assert (T : getExec X f old (s ++ []) = Throw).
  { rewrite app_nil_r. unfold getExec, s. apply (getStruct_without _ _ f old _ os _ id D (execChain e)); [unfold f, s; rewrite app_length; lia|destruct I; subst; cbn; auto]. }
  unfold readExec. pose proof (ok_exec [] X (S (List.length s)) f old s ltac:(lia) ltac:(unfold f; lia)) as K. rewrite T in K.
  destruct (getExec X (S (List.length s)) old s); try discriminate K; [|reflexivity|contradiction]. destruct K as [_ K]. discriminate.
Qed.
Theorem C96_auth_required old a rest : authOk a -> readAuth old (putMembers 0 (without 1 (authMembers a)) ++ rest) = Throw.
Proof.
  intros H. unfold readAuth. set (f := S _). destruct (auth_does (skip f true) a H) as (os & D & _). unfold getAuth.
  apply (getStruct_without _ _ f old _ os _ 1 D (authChain a)); [unfold f; rewrite app_length; lia|left; reflexivity].
Qed.
Example C96_example :
  readExec X0 newExec (putMembers 0 (without 2 (execMembers exResult))) = Throw /\ (100 < List.length (putMembers 0 (without 2 (execMembers exResult))))%nat /\
  readExec X0 newExec (firstn 200 (putExec exResult)) = Throw /\
  (exists e, readExec X0 newExec (putMembers 0 (without 6 (execMembers exResult))) = Got e [] /\ exPlan e = None).
Proof. splits; [vm_compute; reflexivity|vm_compute; lia|vm_compute; reflexivity|]. eexists. split; vm_compute; reflexivity. Qed.

(** * C97 *)
Lemma putMembers_app_len l2 : forall l1 last, (List.length (putMembers last l1) <= List.length (putMembers last (l1 ++ l2)))%nat.
Proof. induction l1 as [|[[id t] b] l1 IH]; intros last; [cbn; apply putMembers_len1|]. cbn [app putMembers]. rewrite !app_length. specialize (IH id). lia. Qed.
Lemma unknown {A} X f (tb : rows A) last l : extrasOk X last l -> (forall id t, last < id -> row tb id t = None) -> (forall id t b, In (id, t, b) (putExtras l) -> (List.length b < f)%nat) ->
  Forall (fun m => row tb (fst (fst m)) (snd (fst m)) = None /\ forall s, skip f true (snd (fst m)) (snd m ++ s) = Got tt s) (putExtras l).
Proof.
  intros L R SZ. pose proof (proj2 (skips_extra X) l last L) as F. pose proof (extras_chain X l last L) as CC. clear L. revert last R CC SZ F. induction (putExtras l) as [|[[id t] b] m IH]; intros last R CC SZ F; [constructor|].
  destruct CC as (C1 & C2 & C3). inversion F as [|x y F1 F2]; subst. constructor.
  - cbn [fst snd] in *. split; [apply R; lia|intros s; apply F1, (SZ id t b); left; reflexivity].
  - apply (IH id); [intros; apply R; lia|exact C3|intros; eapply SZ; right; eassumption|exact F2].
Qed.
Ltac noRow := let K := fresh in intros id t K; cbv [execTable authTable row]; repeat match goal with |- context [id =? ?n] => assert (id =? n = false) as -> by lia end; reflexivity.
(** Members this version does not know are passed over, whatever they hold *)
Theorem C97_unknown_members_are_skipped X old e l rest : execOk X e -> extrasOk X 7 l ->
  readExec X old (putMembers 0 (execMembers e ++ putExtras l) ++ rest) = Got (overExec old (carriedExec e)) rest.
Proof.
  intros H L. assert (C : chain 0 (execMembers e ++ putExtras l)).
  { apply chain_app; [apply execChain| |lia|exact (extras_chain X l 7 L)]. destruct e as [c la [d|] [sp|] [m|] [p|] [co|]]; unfold execMembers; cbn [app optional exData exSpace exMsg exPlan exComment In]; intros x Hx;
      repeat (destruct Hx as [Hx|Hx]); try contradiction; subst x; cbn [fst]; lia. }
  unfold readExec. set (f := S _). assert (LF : (List.length (putMembers 0 (execMembers e ++ putExtras l)) <= f)%nat) by (unfold f; rewrite app_length; lia).
  destruct (exec_does X f (skip f true) e H) as (os & D & E & R). { pose proof (putMembers_app_len (putExtras l) (execMembers e) 0). unfold putExec. lia. }
  unfold getExec. rewrite (getStruct_more _ _ f old _ (putExtras l) os rest D C LF); [rewrite E; reflexivity| |exact R].
  apply (unknown X f _ 7 l L); [noRow|]. intros id t b Hb. pose proof (putMembers_In _ 0 id t b ltac:(lia) C ltac:(apply in_or_app; right; exact Hb)). lia.
Qed.
Theorem C97_auth_unknown_members_are_skipped X old a l rest : authOk a -> extrasOk X 7 l ->
  readAuth old (putMembers 0 (authMembers a ++ putExtras l) ++ rest) = Got (overAuth old a) rest.
Proof.
  intros H L. assert (C : chain 0 (authMembers a ++ putExtras l)).
  { apply chain_app; [apply authChain| |lia|exact (extras_chain X l 7 L)]. destruct a as [c [m|] [i|] [o|] [z|]]; unfold authMembers; cbn [app optional auMsg auSession auOffset auZone In]; intros x Hx;
      repeat (destruct Hx as [Hx|Hx]); try contradiction; subst x; cbn [fst]; lia. }
  unfold readAuth. set (f := S _). assert (LF : (List.length (putMembers 0 (authMembers a ++ putExtras l)) <= f)%nat) by (unfold f; rewrite app_length; lia).
  destruct (auth_does (skip f true) a H) as (os & D & E & R).
  unfold getAuth. rewrite (getStruct_more _ _ f old _ (putExtras l) os rest D C LF); [rewrite E; reflexivity| |exact R].
  apply (unknown X f _ 7 l L); [noRow|]. intros id t b Hb. pose proof (putMembers_In _ 0 id t b ltac:(lia) C ltac:(apply in_or_app; right; exact Hb)). lia.
Qed.
(** A known member of another type is passed over too: it is as if it had not been sent *)
Theorem C97_member_of_another_type_is_skipped X old x : extraOk X x -> fst (putExtra x) <> tBIN ->
  readAuth old (putMembers 0 [(1, tI32, putI32 0); (2, fst (putExtra x), snd (putExtra x))]) = readAuth old (putMembers 0 [(1, tI32, putI32 0)]).
Proof.
  intros H T. transitivity (Got (mkAuth 0 (auMsg old) (auSession old) (auOffset old) (auZone old)) []); [|reflexivity].
  unfold readAuth, getAuth. set (f := S _). pose proof (putExtra_type x) as P. set (l := [(1, tI32, putI32 0); _]) in *. rewrite <- (app_nil_r (putMembers 0 l)).
  rewrite (getStruct_ok _ _ f old l [Some (fun a => mkAuth 0 (auMsg a) (auSession a) (auOffset a) (auZone a)); None]); [reflexivity| |subst l; cbn [chain]; splits; first [types|exact I|idtac]|unfold f; lia|reflexivity].
  assert (C : chain 0 l) by (subst l; cbn [chain]; splits; first [types|exact I|idtac]).
  pose proof (putMembers_In l 0 2 (fst (putExtra x)) (snd (putExtra x)) ltac:(lia) C ltac:(right; left; reflexivity)) as Q.
  subst l. constructor; [|constructor; [|constructor]].
  - exists (into getI32 (fun a x => mkAuth x (auMsg a) (auSession a) (auOffset a) (auZone a))). split; [reflexivity|]. intros a s. reflexivity.
  - split; [|intros s; apply (proj1 (skips_extra X) x H); unfold f; lia].
    cbv [authTable row]. change (2 =? 1) with false. change (2 =? 3) with false. change (2 =? 4) with false. change (2 =? 5) with false. cbn [andb]. assert (fst (putExtra x) =? tBIN = false) as -> by lia. rewrite andb_false_r. reflexivity.
Qed.
Definition exExtras : extras :=
  XMore 8 (XStruct (XMore 1 (XBool true) (XMore 3 (XList [VInt 1; VStr (B "x"%string)]) (XMore 4 (XStruct (XMore 2 (XDouble S754_nan) XNone)) XNone)))) (XMore 11 (XMap [(B "k"%string, VMap [])]) (XMore 15 (XBool false) XNone)).
Example C97_example : extrasOk X0 7 exExtras /\ List.length (putMembers 0 (execMembers exResult ++ putExtras exExtras)) = 262%nat /\
  readExec X0 newExec (putMembers 0 (execMembers exResult ++ putExtras exExtras)) = Got exResult [].
Proof.
  splits; [|vm_compute; reflexivity|vm_compute; reflexivity]. cbn [exExtras extrasOk extraOk]. splits; try lia; try exact I.
  - split; [reflexivity|]. intros x [<-|[<-|[]]]; (constructor; [|intros c []]); [range|text].
  - reflexivity.
  - intros k v [E|[]]. injection E as <- <-. split; [text|]. constructor; [|intros c []]. cbn. unfold propsOk. splits; [reflexivity|constructor|intros k v []].
Qed.

(** * C98 *)
Lemma ptrEq_same {A} f (P : A -> A -> Prop) a b : (forall x y, a = Some x -> b = Some y -> f x y = true <-> P x y) -> ptrEq f a b = true <-> sameOpt P a b.
Proof. destruct a as [x|], b as [y|]; cbn; intros H; [apply H; reflexivity| | |]; intuition discriminate. Qed.
Lemma ptrEq_eq {A} f (a b : option A) : (forall x y : A, f x y = true <-> x = y) -> ptrEq f a b = true <-> a = b.
Proof. intros H. destruct a as [x|], b as [y|]; cbn; [rewrite H|..]; split; intros E; try discriminate; try reflexivity; [subst; reflexivity|injection E as ->; reflexivity]. Qed.
Lemma listEq_eq {A} f : (forall x y : A, f x y = true <-> x = y) -> forall a b, listEq f a b = true <-> a = b.
Proof.
  intros H. induction a as [|x a IH]; intros [|y b]; cbn; try (split; [discriminate|intros E; discriminate]); [tauto|]. rewrite andb_true_iff, H. fold (listEq f a b). rewrite IH. split; [intros [-> ->]; reflexivity|intros E; injection E as -> ->; auto].
Qed.
Lemma listEq_Forall2 {A} f (P : A -> A -> Prop) : forall a b, (forall x y, In x a -> In y b -> f x y = true <-> P x y) -> listEq f a b = true <-> Forall2 P a b.
Proof.
  induction a as [|x a IH]; intros [|y b] H; cbn; try (split; [discriminate|intros E; inversion E]); [split; constructor|].
  rewrite andb_true_iff. fold (listEq f a b). rewrite H, IH by (first [left; reflexivity|intros; apply H; right; assumption]). split; [intros []; constructor; assumption|intros E; inversion E; auto].
Qed.
Lemma perm_iff {K V} (m n : list (K * V)) : NoDup (map fst m) -> NoDup (map fst n) -> List.length m = List.length n /\ (forall k v, In (k, v) m -> In (k, v) n) <-> Permutation m n.
Proof.
  intros M N. split.
  - intros [L H]. apply NoDup_Permutation_bis; [exact (NoDup_map_inv _ _ M)|lia|]. intros [k v]. apply H.
  - intros P. split; [apply Permutation_length, P|]. intros k v. apply Permutation_in, P.
Qed.
Lemma mapEq_perm m n : NoDup (map fst m) -> NoDup (map fst n) -> mapEq strEqb m n = true <-> Permutation m n.
Proof.
  intros M N. rewrite <- perm_iff by assumption. split.
  - unfold mapEq. rewrite andb_true_iff, Nat.eqb_eq, forallb_forall. intros [L H]. split; [exact L|]. intros k v Hk. specialize (H (k, v) Hk). cbn [fst snd] in H.
    destruct (lookup k n) as [w|] eqn:E; [|discriminate]. apply strEqb_eq in H. subst w. exact (lookup_In _ _ _ E).
  - intros [L H]. unfold mapEq. rewrite L, Nat.eqb_refl. cbn [andb]. apply forallb_forall. intros [k v] Hk. cbn [fst snd]. specialize (H k v Hk). rewrite (lookup_NoDup n k v N H). apply strEqb_eq. reflexivity.
Qed.
Lemma indexEq_perm m n : NoDup (map fst m) -> NoDup (map fst n) -> indexEq m n = true <-> Permutation m n.
Proof.
  intros M N. rewrite <- perm_iff by assumption. unfold indexEq. rewrite andb_true_iff, Nat.eqb_eq, forallb_forall. split; intros [L H]; split; try exact L.
  - intros k v Hk. specialize (H (k, v) Hk). cbn [fst snd] in H. destruct (aget Z.eqb k n) as [w|] eqn:E; [|discriminate]. apply Z.eqb_eq in H. subst w. exact (aget_In _ Z.eqb_eq _ _ _ E).
  - intros [k v] Hk. specialize (H k v Hk). cbn [fst snd]. rewrite (In_aget _ Z.eqb_eq _ _ _ N H). apply Z.eqb_refl.
Qed.
Lemma kvEq_eq a b : kvEq a b = true <-> a = b.
Proof. destruct a, b. unfold kvEq. cbn. rewrite andb_true_iff, !strEqb_eq. split; [intros [-> ->]; reflexivity|intros E; injection E as -> ->; auto]. Qed.
Lemma branchEq_eq a b : branchEq a b = true <-> a = b.
Proof. destruct a, b. unfold branchEq. cbn. rewrite andb_true_iff, Bool.eqb_true_iff, Z.eqb_eq. split; [intros [-> ->]; reflexivity|intros E; injection E as -> ->; auto]. Qed.
Lemma profEq_same a b : profMaps a -> profMaps b -> profEq a b = true <-> sameProf a b.
Proof.
  intros A C. unfold profEq, sameProf. rewrite !andb_true_iff, !Z.eqb_eq. rewrite (ptrEq_same _ (@Permutation (str * str))); [tauto|]. intros x y X Y. unfold profMaps in *. rewrite X in A. rewrite Y in C. apply mapEq_perm; assumption.
Qed.
Lemma nodeEq_same a b : nodeMaps a -> nodeMaps b -> nodeEq a b = true <-> sameNode a b.
Proof.
  intros A C. unfold nodeEq, sameNode. rewrite !andb_true_iff, strEqb_eq, Z.eqb_eq, (ptrEq_eq _ (ndDesc a)), (ptrEq_eq _ (ndBranch a)), (ptrEq_eq _ (ndDeps a)) by (first [exact branchEq_eq|apply listEq_eq; first [exact kvEq_eq|exact Z.eqb_eq]]).
  rewrite (ptrEq_same _ (Forall2 sameProf)); [tauto|]. intros x y X Y. unfold nodeMaps in *. rewrite X in A. rewrite Y in C. apply listEq_Forall2. intros p q P Q. apply profEq_same; [apply A, P|apply C, Q].
Qed.
(** Plans are equal when they show the same nodes in the same order; the variables and the optimisation time do not count *)
Theorem C98_plan_equality a b : planMaps a -> planMaps b -> planEq a b = true <-> samePlan a b.
Proof.
  intros [A1 A2] [B1 B2]. unfold planEq, samePlan. rewrite !andb_true_iff, strEqb_eq, indexEq_perm by assumption. rewrite (listEq_Forall2 _ sameNode); [tauto|]. intros x y X Y. apply nodeEq_same; [apply A2, X|apply B2, Y].
Qed.
Theorem C98_result_equality X a b : execMaps a -> execMaps b -> execEq X a b = true <->
  exCode a = exCode b /\ exLatency a = exLatency b /\ sameOpt (fun d d' => veq X (VDataSet d) (VDataSet d') = true) (exData a) (exData b) /\
  exSpace a = exSpace b /\ exMsg a = exMsg b /\ sameOpt samePlan (exPlan a) (exPlan b) /\ exComment a = exComment b.
Proof.
  intros A C. unfold execEq. rewrite !andb_true_iff, !Z.eqb_eq, (ptrEq_eq _ (exSpace a)), (ptrEq_eq _ (exMsg a)), (ptrEq_eq _ (exComment a)) by exact strEqb_eq.
  rewrite (ptrEq_same _ (fun d d' => veq X (VDataSet d) (VDataSet d') = true)) by (intros; reflexivity).
  rewrite (ptrEq_same _ samePlan); [tauto|]. intros x y Hx Hy. unfold execMaps in *. rewrite Hx in A. rewrite Hy in C. apply C98_plan_equality; assumption.
Qed.
Theorem C98_auth_equality a b : authEq a b = true <-> auCode a = auCode b /\ auMsg a = auMsg b /\ auSession a = auSession b /\ auOffset a = auOffset b.
Proof.
  unfold authEq. rewrite !andb_true_iff, Z.eqb_eq, (ptrEq_eq _ (auSession a)), (ptrEq_eq _ (auMsg a)), (ptrEq_eq _ (auOffset a)), (ptrEq_eq _ (auZone a) (auZone a)) by (first [exact strEqb_eq|exact Z.eqb_eq]). tauto.
Qed.
(** so answers to a login that name different time zones are equal *)
Theorem C98_time_zone_ignored_refuted a z z' : authEq (mkAuth (auCode a) (auMsg a) (auSession a) (auOffset a) z) (mkAuth (auCode a) (auMsg a) (auSession a) (auOffset a) z') = true.
Proof. apply C98_auth_equality. auto. Qed.
(** and plans whose nodes write different variables, or that took different times to optimise *)
Theorem C98_plan_members_ignored_refuted : exists a b, planMaps a /\ planMaps b /\ planEq a b = true /\ map ndVar (plNodes a) <> map ndVar (plNodes b) /\ plTime a <> plTime b.
Proof.
  exists exPlanV, (mkPlan [exNode 1 "w1"; exNode 2 "w2"] [(2, 1); (1, 0)] (B "dot"%string) 78).
  assert (N : forall i v, nodeMaps (exNode i v)) by (intros i v p [<-|[]]; unfold profMaps; cbn; repeat constructor; cbn; intuition discriminate).
  splits; [split; [cbn; repeat constructor; cbn; intuition discriminate|intros n [<-|[<-|[]]]; apply N]|split; [cbn; repeat constructor; cbn; intuition discriminate|intros n [<-|[<-|[]]]; apply N]
    |vm_compute; reflexivity|vm_compute; discriminate|discriminate].
Qed.
Lemma sameProf_sym a b : sameProf a b -> sameProf b a.
Proof. intros (H1 & H2 & H3 & H4). unfold sameProf. splits; auto. destruct (pfOther a), (pfOther b); cbn in *; auto. apply Permutation_sym, H4. Qed.
Lemma sameProf_trans a b c : sameProf a b -> sameProf b c -> sameProf a c.
Proof.
  intros (H1 & H2 & H3 & H4) (K1 & K2 & K3 & K4). unfold sameProf. splits; try congruence. destruct (pfOther a), (pfOther b), (pfOther c); cbn in *; auto; try contradiction. exact (Permutation_trans H4 K4).
Qed.
Lemma Forall2_same {A} (P : A -> A -> Prop) l : (forall x, P x x) -> Forall2 P l l.
Proof. intros H. induction l; constructor; auto. Qed.
Lemma Forall2_symm {A} (P : A -> A -> Prop) a b : (forall x y, P x y -> P y x) -> Forall2 P a b -> Forall2 P b a.
Proof. intros H. induction 1; constructor; auto. Qed.
Lemma Forall2_tr {A} (P : A -> A -> Prop) a b : (forall x y z, P x y -> P y z -> P x z) -> Forall2 P a b -> forall c, Forall2 P b c -> Forall2 P a c.
Proof. intros H. induction 1; intros c F; inversion F; subst; constructor; eauto. Qed.
Lemma sameNode_sym a b : sameNode a b -> sameNode b a.
Proof. intros (H1 & H2 & H3 & H4 & H5 & H6). unfold sameNode. splits; auto. destruct (ndProfs a), (ndProfs b); cbn in *; auto. revert H4. apply Forall2_symm, sameProf_sym. Qed.
Lemma sameNode_trans a b c : sameNode a b -> sameNode b c -> sameNode a c.
Proof.
  intros (H1 & H2 & H3 & H4 & H5 & H6) (K1 & K2 & K3 & K4 & K5 & K6). unfold sameNode. splits; try congruence. destruct (ndProfs a), (ndProfs b), (ndProfs c); cbn in *; auto; try contradiction. exact (Forall2_tr _ _ _ sameProf_trans H4 _ K4).
Qed.
(** Equality of plans is an equivalence *)
Theorem C98_plan_equivalence a b c : planMaps a -> planMaps b -> planMaps c ->
  planEq a a = true /\ (planEq a b = true -> planEq b a = true) /\ (planEq a b = true -> planEq b c = true -> planEq a c = true).
Proof.
  intros A1 B1 C1. rewrite !C98_plan_equality by assumption. unfold samePlan. splits.
  - apply Forall2_same. intros n. unfold sameNode. splits; auto. destruct (ndProfs n) as [l|]; [|exact I]. apply Forall2_same. intros p. unfold sameProf. splits; auto. destruct (pfOther p); [apply Permutation_refl|exact I].
  - apply Permutation_refl.
  - reflexivity.
  - intros (H1 & H2 & H3). splits; auto; [revert H1; apply Forall2_symm, sameNode_sym|apply Permutation_sym, H2].
  - intros (H1 & H2 & H3) (K1 & K2 & K3). splits; [exact (Forall2_tr _ _ _ sameNode_trans H1 _ K1)|exact (Permutation_trans H2 K2)|congruence].
Qed.
Example C98_example : planMaps exPlanV /\ execEq X0 exResult exResult = true /\
  execEq X0 exResult (mkExec (exCode exResult) (exLatency exResult) (exData exResult) (exSpace exResult) (exMsg exResult) (Some newPlan) (exComment exResult)) = false.
Proof.
  splits; [split; [cbn; repeat constructor; cbn; intuition discriminate|]|vm_compute; reflexivity|vm_compute; reflexivity].
  intros n [<-|[<-|[]]] p [<-|[]]; unfold profMaps; cbn; repeat constructor; cbn; intuition discriminate.
Qed.

(** * C99 *)
(** An ExecutionResponse that is cleared holds what is read into it next, and nothing else *)
Theorem C99_cleared_result_is_replaced X old e rest : execOk X e -> readExec X (clearExec old) (putExec e ++ rest) = Got (carriedExec e) rest.
Proof. intros H. rewrite C95_result_arrives by exact H. destruct e as [c l [d|] [sp|] [m|] [p|] [co|]]; reflexivity. Qed.
(** without clear(), members of the earlier response stay *)
Theorem C99_uncleared_result_mixes_refuted X : exists old e, execOk X e /\ readExec X old (putExec e) <> Got e [] /\ readExec X newExec (putExec e) = Got e [].
Proof.
  exists (mkExec (-1) 5 None None (Some (B "error"%string)) None None), (mkExec 0 7 None None None None None). splits; [|vm_compute; discriminate|vm_compute; reflexivity]. unfold execOk. cbn [exCode exLatency exData exSpace exMsg exPlan exComment ifAny]. splits; first [range|exact I].
Qed.
(** A plan or a node of a plan that is cleared reads whatever bytes follow like a new one *)
Theorem C99_cleared_parts_read_as_new : forall f s, (forall old, getStruct (planTable f) [1; 2; 3; 4] f (clearPlan old) s = getPlan f s) /\
  (forall old, getStruct (nodeTable f) [1; 2; 3] f (clearNode old) s = getNode f s).
Proof. intros f s. split; intros old; reflexivity. Qed.
(** A cleared AuthResponse: whatever bytes are read into it, all that can be left of the earlier login is the time zone *)
Definition zoneOver (old a : auth) : auth := mkAuth (auCode a) (auMsg a) (auSession a) (orElse (auOffset a) (auOffset old)) (orElse (auZone a) (auZone old)).
Theorem C99_cleared_auth_keeps_the_zone_only old s :
  match readAuth newAuth s with
  | Got a r => readAuth (clearAuth old) s = Got (zoneOver old a) r
  | o => readAuth (clearAuth old) s = o
  end.
Proof.
  unfold readAuth, getAuth. pose proof (struct_related authTable [1] (fun a a' => a' = zoneOver old a) (S (List.length s)) newAuth (clearAuth old) s) as H.
  assert (F : Forall (fun r => forall a a' s, a' = zoneOver old a -> relatedA (fun a a' => a' = zoneOver old a) (snd r a s) (snd r a' s)) authTable).
  { unfold authTable. repeat apply Forall_cons; try apply Forall_nil; cbn [snd]; apply into_related; intros a a' x ->; reflexivity. }
  specialize (H F eq_refl). destruct (getStruct authTable [1] _ newAuth s), (getStruct authTable [1] _ (clearAuth old) s); cbn in H; try contradiction; try reflexivity. destruct H as [-> ->]. reflexivity.
Qed.
(** so a login without a time zone leaves nothing *)
Theorem C99_cleared_auth_is_replaced old s : auOffset old = None -> auZone old = None -> readAuth (clearAuth old) s = readAuth newAuth s.
Proof. intros O Z. unfold clearAuth. rewrite O, Z. reflexivity. Qed.
(** and another shows its time zone in the next answer, even in one that refuses the login *)
Theorem C99_zone_leaks_refuted old o z code : int32 code -> auOffset old = Some o -> auZone old = Some z ->
  readAuth newAuth (putAuth (mkAuth code None None None None)) = Got (mkAuth code None None None None) [] /\
  readAuth (clearAuth old) (putAuth (mkAuth code None None None None)) = Got (mkAuth code None None (Some o) (Some z)) [].
Proof.
  intros H O Z. assert (K : authOk (mkAuth code None None None None)) by (unfold authOk; cbn; auto). pose proof (C95_auth_arrives_new _ K) as E. split; [exact E|].
  pose proof (C99_cleared_auth_keeps_the_zone_only old (putAuth (mkAuth code None None None None))) as P. rewrite E in P. rewrite P. unfold zoneOver. cbn. rewrite O, Z. reflexivity.
Qed.
Example C99_example :
  let old := mkAuth 0 None (Some 42) (Some 28800) (Some (B "CST"%string)) in
  readAuth (clearAuth old) (putAuth (mkAuth (-1001) (Some (B "bad password"%string)) None None None)) = Got (mkAuth (-1001) (Some (B "bad password"%string)) None (Some 28800) (Some (B "CST"%string))) [].
Proof. vm_compute. reflexivity. Qed.

Print Assumptions C95_result_arrives_whole.
Print Assumptions C96_cut_is_refused.
Print Assumptions C97_unknown_members_are_skipped.
Print Assumptions C98_result_equality.
Print Assumptions C99_cleared_auth_keeps_the_zone_only.
Print Assumptions C99_cleared_parts_read_as_new.
