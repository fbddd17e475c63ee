(** Readers of the responses undo their writers; unknown members are skipped. *)
From Coq Require Import String List.
From Verif Require Import Prelude ValueBase FloatProofs DateModel TimeModel HashModel ValueModel ValueProofs GraphModel AssocModel WireModel WireSpec WireProofs ReplyModel ReplySpec.
Import ListNotations.
Local Open Scope list_scope.
Local Open Scope Z_scope.

(** * Structs *)
Fixpoint chain (last : Z) (l : list member) : Prop :=
  match l with [] => True | (id, t, b) :: l' => last < id <= 15 /\ 0 < t < 14 /\ chain id l' end.
Lemma putMembers_len l : forall last, 0 <= last -> chain last l -> (List.length l < List.length (putMembers last l))%nat.
Proof.
  induction l as [|[[id t] b] l IH]; intros last H C; [cbn; lia|]. destruct C as (C1 & C2 & C3). cbn [putMembers List.length]. rewrite !app_length, putField_len by lia.
  specialize (IH id ltac:(lia) C3). lia.
Qed.
Lemma putMembers_In l : forall last id t b, 0 <= last -> chain last l -> In (id, t, b) l -> (List.length b + 1 < List.length (putMembers last l))%nat.
Proof.
  induction l as [|[[id t] b] l IH]; intros last id' t' b' H C []; destruct C as (C1 & C2 & C3); cbn [putMembers]; rewrite !app_length, putField_len by lia.
  - injection H0 as -> -> ->. pose proof (putMembers_len l id' ltac:(lia) C3). lia.
  - specialize (IH id id' t' b' ltac:(lia) C3 H0). lia.
Qed.
Section Struct.
Context {A : Type}.
Variable tb : rows A.
Variable sk : Z -> str -> rd unit.
(** a member is read, with the given effect, or skipped *)
Definition does (m : member) (o : option (A -> A)) : Prop :=
  let '(id, t, b) := m in
  match o with
  | Some u => exists rf, row tb id t = Some rf /\ forall a s, rf a (b ++ s) = Got (u a) s
  | None => row tb id t = None /\ forall s, sk t (b ++ s) = Got tt s
  end.
Definition effect (a : A) (o : option (A -> A)) : A := match o with Some u => u a | None => a end.
Fixpoint seenOf (l : list member) (os : list (option (A -> A))) (seen : list Z) : list Z :=
  match l, os with
  | (id, _, _) :: l', Some _ :: os' => seenOf l' os' (id :: seen)
  | _ :: l', None :: os' => seenOf l' os' seen
  | _, _ => seen
  end.
Lemma members_ok l os : Forall2 does l os -> forall g last seen a s, chain last l -> 0 <= last -> (List.length l < g)%nat ->
  members tb sk g last seen a (putMembers last l ++ s) = Got (fold_left effect os a, seenOf l os seen) s.
Proof.
  induction 1 as [|[[id t] b] o l os D F IH]; intros g last seen a s C L G; (destruct g as [|g]; [cbn in G; lia|]); [reflexivity|].
  destruct C as (C1 & C2 & C3). cbn [members putMembers]. rewrite <- !app_assoc, getField_ok by lia. cbn [rbind fst snd]. assert (t =? 0 = false) as -> by lia. cbn [List.length] in G.
  destruct o as [u|]; cbn [does] in D.
  - destruct D as (rf & -> & D). rewrite D. cbn [rbind fold_left seenOf effect]. apply IH; [exact C3|lia|lia].
  - destruct D as (-> & D). rewrite D. cbn [rbind fold_left seenOf effect]. apply IH; [exact C3|lia|lia].
Qed.
Lemma into_does {C} id t b (get : str -> rd C) upd x : row tb id t = Some (into get upd) -> (forall s, get (b ++ s) = Got x s) -> does (id, t, b) (Some (fun a => upd a x)).
Proof. intros R H. exists (into get upd). split; [exact R|]. intros a s. unfold into. rewrite H. reflexivity. Qed.
End Struct.
Lemma getStruct_ok {A} (tb : rows A) req f a l os s : Forall2 (does tb (skip f true)) l os -> chain 0 l -> (List.length (putMembers 0 l) <= f)%nat ->
  forallb (fun id => existsb (Z.eqb id) (seenOf l os [])) req = true -> getStruct tb req f a (putMembers 0 l ++ s) = Got (fold_left effect os a) s.
Proof.
  intros D C L R. unfold getStruct. rewrite (members_ok _ _ l os D); [|exact C|lia|pose proof (putMembers_len l 0 ltac:(lia) C); lia]. cbn [rbind fst snd]. rewrite R. reflexivity.
Qed.
Lemma getStruct_missing {A} (tb : rows A) req f a l os s : Forall2 (does tb (skip f true)) l os -> chain 0 l -> (List.length (putMembers 0 l) <= f)%nat ->
  forallb (fun id => existsb (Z.eqb id) (seenOf l os [])) req = false -> getStruct tb req f a (putMembers 0 l ++ s) = Throw.
Proof.
  intros D C L R. unfold getStruct. rewrite (members_ok _ _ l os D); [|exact C|lia|pose proof (putMembers_len l 0 ltac:(lia) C); lia]. cbn [rbind fst snd]. rewrite R. reflexivity.
Qed.

Ltac types := unfold tBYTE, tI16, tI32, tI64, tDOUBLE, tBIN, tLIST, tSET, tMAP, tSTRUCT; lia.
Ltac chains := cbv [chain app optional authMembers profMembers branchMembers kvMembers nodeMembers planMembers execMembers addrMembers
  auMsg auSession auOffset auZone pfOther ndDesc ndProfs ndBranch ndDeps exData exSpace exMsg exPlan exComment brDo]; splits; first [types|exact I|idtac].

(** * Containers *)
Lemma getListOf_ok {A} f et (elem : str -> rd A) (w : A -> str) l s : 0 < et < 16 -> shortL l -> (List.length l <= f)%nat ->
  (forall x r, In x l -> elem (w x ++ r) = Got x r) -> getList f et elem (putListOf et w l ++ s) = Got l s.
Proof.
  intros H1 H2 H3 H4. unfold putListOf. rewrite <- app_assoc. rewrite (getList_ok f et elem w (fun x => x)); [rewrite map_id; reflexivity|assumption|assumption|assumption|assumption].
Qed.
Lemma aset_fresh {K V} eqb (ok : forall a b : K, eqb a b = true <-> a = b) k (v : V) m : ~ In k (map fst m) -> aset eqb k v m = m ++ [(k, v)].
Proof.
  induction m as [|[k0 v0] m IH]; intros H; [reflexivity|]. cbn. destruct (eqb k k0) eqn:E; [apply ok in E; subst; exfalso; apply H; left; reflexivity|].
  rewrite IH; [reflexivity|]. intros X; apply H; right; exact X.
Qed.
Lemma getMapOf_ok {K V} f eqb kt vt (gk : str -> rd K) (g : str -> rd V) wk w P Q (m : list (K * V)) s :
  (forall a b, eqb a b = true <-> a = b) -> 0 < kt < 16 -> 0 < vt < 16 -> mapOk P Q m -> (List.length m <= f)%nat ->
  (forall k r, P k -> gk (wk k ++ r) = Got k r) -> (forall v r, Q v -> g (w v ++ r) = Got v r) ->
  getMapOf f eqb kt vt gk g (putMapOf kt vt wk w m ++ s) = Got m s.
Proof.
  intros E K1 V1 (M1 & M2 & M3) L GK GV. unfold getMapOf, putMapOf. rewrite <- app_assoc, getMapHdr_ok by assumption. cbn [rbind].
  destruct m as [|p0 m0] eqn:Em; [cbn [List.length Nat.eqb]; destruct ((0 =? kt) && (0 =? vt)), f; reflexivity|]. rewrite <- Em in *.
  assert ((List.length m =? 0)%nat = false) as -> by (subst; reflexivity). rewrite !Z.eqb_refl. cbn [andb]. clear Em p0 m0 M1.
  assert (G : forall l h acc, (List.length l <= h)%nat -> NoDup (map fst (acc ++ l)) -> (forall k v, In (k, v) l -> P k /\ Q v) ->
    times (fun m r1 => rbind (gk r1) (fun k r2 => rbind (g r2) (fun v r3 => Got (aset eqb k v m) r3)))
      h (Z.of_nat (List.length l)) acc (flat_map (fun p => wk (fst p) ++ w (snd p)) l ++ s) = Got (acc ++ l) s).
  { induction l as [|[k v] l IH]; intros h acc Lg N Hl; [destruct h; cbn; rewrite app_nil_r; reflexivity|].
    destruct h as [|h]; [cbn in Lg; lia|]. cbn [flat_map times fst snd]. assert (Z.of_nat (List.length ((k, v) :: l)) <=? 0 = false) as -> by (cbn [List.length]; lia).
    destruct (Hl k v (or_introl eq_refl)) as [Sk Gv]. rewrite <- !app_assoc, GK by exact Sk. cbn [rbind]. rewrite GV by exact Gv. cbn [rbind].
    replace (Z.of_nat (List.length ((k, v) :: l)) - 1) with (Z.of_nat (List.length l)) by (cbn [List.length]; lia).
    assert (~ In k (map fst acc)) by (rewrite map_app in N; cbn [map fst] in N; apply NoDup_remove_2 in N; intros X; apply N, in_or_app; left; exact X).
    rewrite (aset_fresh eqb E) by assumption.
    etransitivity; [apply IH|]; [cbn in Lg; lia|rewrite <- app_assoc; exact N|intros k' v' X; apply Hl; right; exact X|rewrite <- app_assoc; reflexivity]. }
  apply (G m f []); assumption.
Qed.
Lemma putListOf_len {A} t (w : A -> str) l : (forall x, In x l -> (1 <= List.length (w x))%nat) -> (List.length l < List.length (putListOf t w l))%nat.
Proof.
  intros H. unfold putListOf. rewrite app_length. pose proof (flat_map_len w l H). unfold putListHdr. destruct (_ <=? 14); cbn [List.length]; lia.
Qed.
Lemma putListOf_In {A} t (w : A -> str) l x : In x l -> (List.length (w x) < List.length (putListOf t w l))%nat.
Proof. intros H. unfold putListOf. rewrite app_length. pose proof (flat_map_In_len w l x H). unfold putListHdr. destruct (_ <=? 14); cbn [List.length]; lia. Qed.
Lemma putMapOf_len {K A} kt vt (wk : K -> str) (w : A -> str) m : (forall k, (1 <= List.length (wk k))%nat) -> (List.length m < List.length (putMapOf kt vt wk w m))%nat.
Proof.
  intros H. unfold putMapOf. rewrite app_length. pose proof (flat_map_len (fun p : K * A => wk (fst p) ++ w (snd p)) m) as F.
  assert (List.length m <= List.length (flat_map (fun p : K * A => wk (fst p) ++ w (snd p)) m))%nat by (apply F; intros [k v] _; rewrite app_length; cbn [fst]; specialize (H k); lia).
  assert (1 <= List.length (putMapHdr kt vt (List.length m)))%nat; [|lia]. unfold putMapHdr. destruct (_ =? 0); [cbn; lia|]. rewrite app_length. cbn [List.length]. lia.
Qed.
Lemma putMapOf_In {K A} kt vt (wk : K -> str) (w : A -> str) m k v : In (k, v) m -> (List.length (wk k) + List.length (w v) < List.length (putMapOf kt vt wk w m))%nat.
Proof.
  intros H. unfold putMapOf. rewrite app_length. pose proof (flat_map_In_len (fun p : K * A => wk (fst p) ++ w (snd p)) m _ H) as L. cbn [fst snd] in L. rewrite app_length in L.
  assert (1 <= List.length (putMapHdr kt vt (List.length m)))%nat; [|lia]. unfold putMapHdr. destruct (_ =? 0); [cbn; lia|]. rewrite app_length. cbn [List.length]. lia.
Qed.
Lemma putVar_len k n : (1 <= List.length (putVar (S k) n))%nat.
Proof. cbn [putVar]. destruct (n <? 128); cbn [List.length]; lia. Qed.
Lemma putI64_len n : (1 <= List.length (putI64 n))%nat.
Proof. apply putVar_len. Qed.
Lemma putMembers_len1 l last : (1 <= List.length (putMembers last l))%nat.
Proof. destruct l as [|[[id t] b] l]; [cbn; lia|]. cbn [putMembers]. rewrite app_length. unfold putField. destruct ((0 <? id - last) && (id - last <=? 15)); cbn [List.length]; lia. Qed.

(** * The responses *)
Ltac reads tac := repeat apply Forall2_cons; try apply Forall2_nil; (eapply into_does; [reflexivity|]); intros; first [reflexivity|apply getBin_ok; assumption|apply getI32_ok; assumption|apply getI64_ok; assumption|tac].
Lemma getPair_ok f p s : kvOk p -> (List.length (putKV p) <= f)%nat -> getPair f (putKV p ++ s) = Got p s.
Proof. intros [P1 P2] L. unfold getPair, putKV. erewrite getStruct_ok; [|unfold kvMembers; reads idtac|chains|exact L|reflexivity]. destruct p. reflexivity. Qed.
Lemma getKV_ok f a p s : kvOk p -> (List.length (putKV p) <= f)%nat -> getKV f a (putKV p ++ s) = Got p s.
Proof. intros [P1 P2] L. unfold getKV, putKV. erewrite getStruct_ok; [|unfold kvMembers; reads idtac|chains|exact L|reflexivity]. destruct p. reflexivity. Qed.
Lemma getAddr_ok f a p s : addrOk p -> (List.length (putAddr p) <= f)%nat -> getAddr f a (putAddr p ++ s) = Got p s.
Proof. intros [P1 P2] L. unfold getAddr, putAddr. erewrite getStruct_ok; [|unfold addrMembers; reads idtac|chains|exact L|reflexivity]. destruct p. reflexivity. Qed.
Lemma getBranch_ok f b s : branchOk b -> (List.length (putBranch b) <= f)%nat -> getBranch f (putBranch b ++ s) = Got b s.
Proof.
  intros P L. unfold getBranch, putBranch. destruct b as [[] n]; (erewrite getStruct_ok; [|unfold branchMembers; cbn [brDo brNode]; repeat apply Forall2_cons; try apply Forall2_nil;
    (eapply into_does; [reflexivity|]); intros; first [reflexivity|apply getI64_ok, P]|chains; cbn; lia|exact L|reflexivity]); reflexivity.
Qed.
Lemma getProf_ok f p s : profOk p -> (List.length (putProf p) <= f)%nat -> getProf f (putProf p ++ s) = Got p s.
Proof.
  intros (P1 & P2 & P3 & P4) L. unfold getProf, putProf. destruct p as [a b c o]. cbn [pfRows pfExec pfTotal pfOther] in *.
  destruct o as [m|]; (erewrite getStruct_ok; [|unfold profMembers; cbn [app optional pfRows pfExec pfTotal pfOther]; repeat apply Forall2_cons; try apply Forall2_nil;
    (eapply into_does; [reflexivity|]); intros; first [apply getI64_ok; assumption|idtac]|chains|exact L|reflexivity]); try reflexivity.
  cbn [ifAny] in P4. apply (getMapOf_ok f strEqb tBIN tBIN _ _ _ _ strOk strOk); [apply strEqb_eq|types|types|exact P4| |exact getBin_ok|exact getBin_ok].
  unfold putProf in L. assert (C : chain 0 (profMembers (mkProf a b c (Some m)))) by chains. pose proof (putMembers_In _ 0 4 tMAP _ ltac:(lia) C (or_intror (or_intror (or_intror (or_introl eq_refl))))) as Q.
  pose proof (putMapOf_len tBIN tBIN putBin putBin m putBin_len). lia.
Qed.
Ltac inList := cbv [app optional authMembers profMembers branchMembers kvMembers nodeMembers planMembers execMembers addrMembers In
  auMsg auSession auOffset auZone pfOther ndDesc ndProfs ndBranch ndDeps exData exSpace exMsg exPlan exComment]; repeat (first [left; reflexivity|right]).
Lemma getNode_ok f n s : pnodeOk n -> (List.length (putNode n) <= f)%nat -> getNode f (putNode n ++ s) = Got n s.
Proof.
  intros (P1 & P2 & P3 & P4 & P5 & P6 & P7) L. unfold getNode, putNode in *. destruct n as [nm i v d p b e]. cbn [ndName ndId ndVar ndDesc ndProfs ndBranch ndDeps] in *.
  set (l := nodeMembers _) in *. assert (C : chain 0 l) by (subst l; destruct d, p, b, e; chains).
  assert (SZ : forall id t x, In (id, t, x) l -> (List.length x < f)%nat) by (intros id t x H; pose proof (putMembers_In l 0 id t x ltac:(lia) C H); lia). subst l.
  assert (D1 : forall x r, d = Some x -> getList f tSTRUCT (getPair f) (putListOf tSTRUCT putKV x ++ r) = Got x r).
  { intros x r ->. destruct P4 as [Q1 Q2]. assert (Z0 : (List.length (putListOf tSTRUCT putKV x) < f)%nat) by (apply (SZ 4 tLIST); destruct p, b, e; inList).
    pose proof (putListOf_len tSTRUCT putKV x (fun _ _ => putMembers_len1 _ _)). apply getListOf_ok; [types|exact Q1|lia|].
    intros y q Hy. pose proof (putListOf_In tSTRUCT putKV x y Hy). apply getPair_ok; [apply Q2, Hy|lia]. }
  assert (D2 : forall x r, p = Some x -> getList f tSTRUCT (getProf f) (putListOf tSTRUCT putProf x ++ r) = Got x r).
  { intros x r ->. destruct P5 as [Q1 Q2]. assert (Z0 : (List.length (putListOf tSTRUCT putProf x) < f)%nat) by (apply (SZ 5 tLIST); destruct d, b, e; inList).
    pose proof (putListOf_len tSTRUCT putProf x (fun _ _ => putMembers_len1 _ _)). apply getListOf_ok; [types|exact Q1|lia|].
    intros y q Hy. pose proof (putListOf_In tSTRUCT putProf x y Hy). apply getProf_ok; [apply Q2, Hy|lia]. }
  assert (D3 : forall x r, b = Some x -> getBranch f (putBranch x ++ r) = Got x r).
  { intros x r ->. apply getBranch_ok; [exact P6|]. apply Nat.lt_le_incl. apply (SZ 6 tSTRUCT); destruct d, p, e; inList. }
  assert (D4 : forall x r, e = Some x -> getList f tI64 getI64 (putListOf tI64 putI64 x ++ r) = Got x r).
  { intros x r ->. destruct P7 as [Q1 Q2]. assert (Z0 : (List.length (putListOf tI64 putI64 x) < f)%nat) by (apply (SZ 7 tLIST); destruct d, p, b; inList).
    pose proof (putListOf_len tI64 putI64 x (fun _ _ => putI64_len _)). apply getListOf_ok; [types|exact Q1|lia|]. intros y q Hy. apply getI64_ok, Q2, Hy. }
  destruct d as [d|], p as [p|], b as [b|], e as [e|]; (erewrite getStruct_ok;
    [|unfold nodeMembers; cbn [app optional ndName ndId ndVar ndDesc ndProfs ndBranch ndDeps]; reads ltac:(first [apply D1; reflexivity|apply D2; reflexivity|apply D3; reflexivity|apply D4; reflexivity])
     |exact C|exact L|reflexivity]); reflexivity.
Qed.
Lemma getPlan_ok f p s : planOk p -> (List.length (putPlan p) <= f)%nat -> getPlan f (putPlan p ++ s) = Got p s.
Proof.
  intros ((P1 & P1') & P2 & P3 & P4) L. unfold getPlan, putPlan in *. assert (C : chain 0 (planMembers p)) by chains.
  assert (SZ : forall id t x, In (id, t, x) (planMembers p) -> (List.length x < f)%nat) by (intros id t x H; pose proof (putMembers_In _ 0 id t x ltac:(lia) C H); lia).
  assert (Z1 : (List.length (putListOf tSTRUCT putNode (plNodes p)) < f)%nat) by (apply (SZ 1 tLIST); inList).
  assert (Z2 : (List.length (putMapOf tI64 tI64 putI64 putI64 (plIndex p)) < f)%nat) by (apply (SZ 2 tMAP); inList).
  pose proof (putListOf_len tSTRUCT putNode (plNodes p) (fun _ _ => putMembers_len1 _ _)). pose proof (putMapOf_len tI64 tI64 putI64 putI64 (plIndex p) putI64_len).
  assert (D1 : forall r, getList f tSTRUCT (getNode f) (putListOf tSTRUCT putNode (plNodes p) ++ r) = Got (plNodes p) r).
  { intros r. apply getListOf_ok; [types|exact P1|lia|]. intros y q Hy. pose proof (putListOf_In tSTRUCT putNode _ y Hy). apply getNode_ok; [apply P1', Hy|lia]. }
  assert (D2 : forall r, getMapOf f Z.eqb tI64 tI64 getI64 getI64 (putMapOf tI64 tI64 putI64 putI64 (plIndex p) ++ r) = Got (plIndex p) r).
  { intros r. apply (getMapOf_ok f Z.eqb tI64 tI64 _ _ _ _ int64 int64); [apply Z.eqb_eq|types|types|exact P2|lia|exact getI64_ok|exact getI64_ok]. }
  erewrite getStruct_ok; [|unfold planMembers; reads ltac:(first [apply D1|apply D2])|exact C|exact L|reflexivity]. destruct p. reflexivity.
Qed.
Lemma authChain a : chain 0 (authMembers a).
Proof. destruct a as [c [m|] [i|] [o|] [z|]]; chains. Qed.
Lemma auth_does sk a : authOk a -> exists os, Forall2 (does authTable sk) (authMembers a) os /\ (forall old, fold_left effect os old = overAuth old a) /\
  forallb (fun id => existsb (Z.eqb id) (seenOf (authMembers a) os [])) [1] = true.
Proof.
  intros (P1 & P2 & P3 & P4 & P5). destruct a as [c m i o z]. cbn [auCode auMsg auSession auOffset auZone] in *.
  destruct m as [m|], i as [i|], o as [o|], z as [z|]; cbn [ifAny] in *; (eexists; split; [unfold authMembers; cbn [app optional auCode auMsg auSession auOffset auZone]; reads idtac|split; [intros; reflexivity|reflexivity]]).
Qed.
Lemma getAuth_ok f old a s : authOk a -> (List.length (putAuth a) <= f)%nat -> getAuth f old (putAuth a ++ s) = Got (overAuth old a) s.
Proof.
  intros H L. destruct (auth_does (skip f true) a H) as (os & D & E & R). unfold getAuth, putAuth. rewrite (getStruct_ok _ _ f old _ os s D (authChain a) L R), E. reflexivity.
Qed.
Lemma getSetOf_ok X f d s : sendable X (VDataSet d) -> (List.length (putDataSet putValue d) < f)%nat -> getDataSet (getValue X f) f (putDataSet putValue d ++ s) = Got (carriedSet d) s.
Proof.
  intros S0 L. inversion S0 as [v N C E]; subst v. apply (getDataSet_ok _ _ X); [exact N|lia|]. intros x Hx init r. apply getValue_ok; [apply C, Hx|].
  pose proof (value_sub (VDataSet d) x Hx) as V. cbn [putValue] in V. rewrite !app_length, putField_len, putStop_len in V by lia. lia.
Qed.
Lemma execChain e : chain 0 (execMembers e).
Proof. destruct e as [c l [d|] [sp|] [m|] [p|] [co|]]; chains. Qed.
Lemma exec_does X f sk e : execOk X e -> (List.length (putExec e) <= f)%nat -> exists os, Forall2 (does (execTable X f) sk) (execMembers e) os /\
  (forall old, fold_left effect os old = overExec old (carriedExec e)) /\ forallb (fun id => existsb (Z.eqb id) (seenOf (execMembers e) os [])) [1; 2] = true.
Proof.
  intros (P1 & P2 & P3 & P4 & P5 & P6 & P7) L. unfold putExec in *. pose proof (execChain e) as C.
  assert (SZ : forall id t x, In (id, t, x) (execMembers e) -> (List.length x < f)%nat) by (intros id t x H; pose proof (putMembers_In _ 0 id t x ltac:(lia) C H); lia).
  destruct e as [c l d sp m p co]. cbn [exCode exLatency exData exSpace exMsg exPlan exComment] in *.
  assert (D1 : forall x r, d = Some x -> getDataSet (getValue X f) f (putDataSet putValue x ++ r) = Got (carriedSet x) r).
  { intros x r ->. apply getSetOf_ok; [exact P3|]. apply (SZ 3 tSTRUCT). destruct sp, m, p, co; inList. }
  assert (D2 : forall x r, p = Some x -> getPlan f (putPlan x ++ r) = Got x r).
  { intros x r ->. apply getPlan_ok; [exact P6|]. apply Nat.lt_le_incl. apply (SZ 6 tSTRUCT). destruct d, sp, m, co; inList. }
  destruct d as [d|], sp as [sp|], m as [m|], p as [p|], co as [co|]; cbn [ifAny] in *;
    (eexists; split; [unfold execMembers; cbn [app optional exCode exLatency exData exSpace exMsg exPlan exComment]; reads ltac:(first [apply D1; reflexivity|apply D2; reflexivity])|split; [intros; reflexivity|reflexivity]]).
Qed.
Lemma getExec_ok X f old e s : execOk X e -> (List.length (putExec e) <= f)%nat -> getExec X f old (putExec e ++ s) = Got (overExec old (carriedExec e)) s.
Proof.
  intros H L. destruct (exec_does X f (skip f true) e H L) as (os & D & E & R). unfold getExec, putExec. rewrite (getStruct_ok _ _ f old _ os s D (execChain e) L R), E. reflexivity.
Qed.
(** * More members, and fewer *)
Lemma chain_app l1 l2 : forall last, chain last l1 -> (forall m, In m l1 -> fst (fst m) <= 7) -> last <= 7 -> chain 7 l2 -> chain last (l1 ++ l2).
Proof.
  induction l1 as [|[[id t] b] l1 IH]; intros last C H L D.
  - cbn [app]. destruct l2 as [|[[id t] b] l2]; [exact I|]. destruct D as (D1 & D2 & D3). cbn [chain]. splits; [lia|lia|lia|lia|exact D3].
  - destruct C as (C1 & C2 & C3). cbn [app chain]. splits; [lia|lia|lia|lia|]. apply IH; [exact C3|intros; apply H; right; assumption|exact (H _ (or_introl eq_refl))|exact D].
Qed.
Lemma effect_none {A} n (a : A) : fold_left effect (repeat None n) a = a.
Proof. induction n; [reflexivity|exact IHn]. Qed.
Lemma seenOf_none {A} l2 : forall l1 (os : list (option (A -> A))) seen, List.length l1 = List.length os -> seenOf (l1 ++ l2) (os ++ repeat None (List.length l2)) seen = seenOf l1 os seen.
Proof.
  assert (N : forall seen, seenOf l2 (repeat (@None (A -> A)) (List.length l2)) seen = seen) by (induction l2 as [|[[id t] b] l2 IH]; intros seen; [reflexivity|apply IH]).
  induction l1 as [|[[id t] b] l1 IH]; intros [|o os] seen H; try discriminate; [rewrite app_nil_l; apply N|]. injection H as H. destruct o; cbn [app seenOf]; apply IH, H.
Qed.
Lemma does_none {A} (tb : rows A) sk l : Forall (fun m => row tb (fst (fst m)) (snd (fst m)) = None /\ forall s, sk (snd (fst m)) (snd m ++ s) = Got tt s) l -> Forall2 (does tb sk) l (repeat None (List.length l)).
Proof. induction 1 as [|[[id t] b] l [H1 H2] F IH]; [constructor|]. cbn [List.length repeat]. constructor; [split; assumption|exact IH]. Qed.
Lemma getStruct_more {A} (tb : rows A) req f a l l2 os s : Forall2 (does tb (skip f true)) l os -> chain 0 (l ++ l2) -> (List.length (putMembers 0 (l ++ l2)) <= f)%nat ->
  Forall (fun m => row tb (fst (fst m)) (snd (fst m)) = None /\ forall s, skip f true (snd (fst m)) (snd m ++ s) = Got tt s) l2 ->
  forallb (fun id => existsb (Z.eqb id) (seenOf l os [])) req = true -> getStruct tb req f a (putMembers 0 (l ++ l2) ++ s) = Got (fold_left effect os a) s.
Proof.
  intros D C L F R. rewrite (getStruct_ok tb req f a (l ++ l2) (os ++ repeat None (List.length l2))); [|apply Forall2_app; [exact D|apply does_none, F]|exact C|exact L|].
  - rewrite fold_left_app, effect_none. reflexivity.
  - rewrite seenOf_none; [exact R|]. clear -D. induction D; [reflexivity|cbn; congruence].
Qed.
Lemma chain_weak l : forall last last', last' <= last -> chain last l -> chain last' l.
Proof. destruct l as [|[[id t] b] l]; intros last last' H C; [exact I|]. destruct C as (C1 & C2 & C3). cbn [chain]. splits; [lia|lia|lia|lia|exact C3]. Qed.
Lemma chain_filter p l : forall last, chain last l -> chain last (filter p l).
Proof.
  induction l as [|[[id t] b] l IH]; intros last C; [exact I|]. destruct C as (C1 & C2 & C3). cbn [filter]. destruct (p _); [cbn [chain]; splits; [lia|lia|lia|lia|apply IH, C3]|].
  apply (chain_weak _ id); [lia|apply IH, C3].
Qed.
Lemma does_filter {A} (tb : rows A) sk p l os : Forall2 (does tb sk) l os -> exists os', Forall2 (does tb sk) (filter p l) os'.
Proof. induction 1 as [|m o l os H F [os' IH]]; [exists []; constructor|]. cbn [filter]. destruct (p m); [exists (o :: os'); constructor; assumption|exists os'; exact IH]. Qed.
Lemma seenOf_In {A} l : forall (os : list (option (A -> A))) seen x, In x (seenOf l os seen) -> In x seen \/ In x (map (fun m => fst (fst m)) l).
Proof.
  induction l as [|[[id t] b] l IH]; intros os seen x H; [left; exact H|]. destruct os as [|[u|] os]; cbn [seenOf] in H; [left; exact H| |]; apply IH in H; cbn [map fst]; cbn in *; tauto.
Qed.
Definition without (id : Z) (l : list member) : list member := filter (fun m => negb (fst (fst m) =? id)) l.
Lemma getStruct_without {A} (tb : rows A) req f a l os s id : Forall2 (does tb (skip f true)) l os -> chain 0 l -> (List.length (putMembers 0 (without id l)) <= f)%nat ->
  In id req -> getStruct tb req f a (putMembers 0 (without id l) ++ s) = Throw.
Proof.
  intros D C L R. destruct (does_filter tb _ (fun m => negb (fst (fst m) =? id)) l os D) as [os' D']. apply (getStruct_missing tb req f a (without id l) os'); [exact D'|apply chain_filter, C|exact L|].
  apply not_true_is_false. intros T. rewrite forallb_forall in T. specialize (T id R). apply existsb_exists in T. destruct T as (x & Hx & E). apply Z.eqb_eq in E. subst x. apply seenOf_In in Hx.
  destruct Hx as [[]|Hx]. apply in_map_iff in Hx. destruct Hx as (m & <- & Hm). apply filter_In in Hm. destruct Hm as [_ Hm]. rewrite Z.eqb_refl in Hm. discriminate.
Qed.
