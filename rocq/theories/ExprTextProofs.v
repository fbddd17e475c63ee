(** Proofs about the text of expressions: a reader that gets plain trees back *)
From Verif Require Import Prelude ValueBase DateModel TimeModel ValueModel ExprModel ExprSpec ExprProofs EvalModel DecProofs CloneModel CloneSpec CloneProofs
  ExprTextModel ExprTextSpec.
From Coq Require Import String List Bool Lia.
Import ListNotations.
Local Open Scope string_scope.
Local Open Scope list_scope.
Local Open Scope Z_scope.

(** * Pieces of text *)
Fixpoint after (p s : str) : option str :=
  match p, s with [], _ => Some s | x :: p', y :: s' => if x =? y then after p' s' else None | _, [] => None end.
Lemma after_app p s : after p (p ++ s) = Some s.
Proof. induction p as [|x p IH]; [reflexivity|]. cbn. rewrite Z.eqb_refl. exact IH. Qed.
Lemma after_no x c p s : x <> c -> after (x :: p) (c :: s) = None.
Proof. intros H. cbn. destruct (Z.eqb_spec x c); [congruence|reflexivity]. Qed.
Fixpoint pick {A} (l : list (str * A)) (s : str) : option (A * str) :=
  match l with [] => None | (p, a) :: l' => match after p s with Some r => Some (a, r) | None => pick l' s end end.
Fixpoint word (s : str) : str * str :=
  match s with c :: s' => if nameByte c then let (w, r) := word s' in (c :: w, r) else ([], s) | [] => ([], []) end.
Definition noName (s : str) : Prop := match s with c :: _ => nameByte c = false | [] => True end.
Lemma word_app w : forall r, forallb nameByte w = true -> noName r -> word (w ++ r) = (w, r).
Proof.
  induction w as [|c w IH]; intros r Hw Hr.
  - destruct r as [|c r]; [reflexivity|]. cbn in *. now rewrite Hr.
  - cbn in *. apply andb_true_iff in Hw as [Hc Hw]. rewrite Hc, IH by auto. reflexivity.
Qed.
Fixpoint quoted (s : str) : option (str * str) :=
  match s with
  | [] => None
  | c :: s' => if c =? 34 then Some ([], s') else match quoted s' with Some (w, r) => Some (c :: w, r) | None => None end
  end.
Lemma quoted_app w : forall r, forallb (fun c => negb (c =? 34)) w = true -> quoted (w ++ 34 :: r) = Some (w, r).
Proof.
  induction w as [|c w IH]; intros r Hw; [reflexivity|]. cbn in *. apply andb_true_iff in Hw as [Hc Hw].
  destruct (c =? 34); [discriminate|]. now rewrite IH.
Qed.
Definition rdInt (s : str) : Z * str :=
  match after [45] s with
  | Some r => let (n, z) := digits r 0 in (- z, skipn n r)
  | None => let (n, z) := digits s 0 in (z, skipn n s)
  end.
Lemma skipn_app_len {A} (a b : list A) : skipn (List.length a) (a ++ b) = b.
Proof. induction a; [reflexivity|]. cbn. exact IHa. Qed.
Lemma rdInt_dec z t : stops t = true -> rdInt (decZ z ++ t) = (z, t).
Proof.
  intros Ht. unfold rdInt. destruct (Z_lt_ge_dec z 0) as [N|N].
  - rewrite decZ_neg by exact N. cbn [app after]. rewrite Z.eqb_refl. destruct (decZ_nonneg (- z)) as (_ & _ & R); [lia|]. rewrite R by exact Ht.
    rewrite skipn_app_len. f_equal. lia.
  - destruct (decZ_nonneg z) as (NE & D & R); [lia|]. destruct (decZ z) as [|c d] eqn:E; [congruence|]. cbn in D. apply andb_true_iff in D as [Dc _]. unfold isDigit in Dc.
    replace (after [45] ((c :: d) ++ t)) with (@None str) by (symmetry; apply after_no; lia). rewrite R by exact Ht. rewrite skipn_app_len. reflexivity.
Qed.

(** * The reader *)
Definition binaries : list (str * kind) :=
  [(B "+", KArith OAdd); (B "-", KArith OMinus); (B "*", KArith OMultiply); (B "/", KArith ODivision); (B "%", KArith OMod);
   (B "<=", KRel OLE); (B "<", KRel OLT); (B ">=", KRel OGE); (B ">", KRel OGT); (B "==", KRel OEQ); (B "!=", KRel ONE); (B "=~", KRel OREG);
   (B " IN ", KRel OIn); (B " NOT IN ", KRel ONotIn); (B " CONTAINS ", KRel OContains); (B " NOT CONTAINS ", KRel ONotContains);
   (B " STARTS WITH ", KRel OStartsWith); (B " NOT STARTS WITH ", KRel ONotStartsWith);
   (B " ENDS WITH ", KRel OEndsWith); (B " NOT ENDS WITH ", KRel ONotEndsWith)].
Definition logics : list (str * logic) := [(B " AND ", OAnd); (B " OR ", OOr); (B " XOR ", OXor)].
Definition prefixes : list (str * unary) := [(B "++(", OIncr); (B "--(", ODecr); (B "+(", OPlus); (B "-(", ONegate); (B "!(", ONot)].
Definition suffixes : list (str * unary) :=
  [(B " IS NULL", OIsNull); (B " IS NOT NULL", OIsNotNull); (B " IS EMPTY", OIsEmpty); (B " IS NOT EMPTY", OIsNotEmpty)].
Definition words : list (str * kind) :=
  [(B "true", KConst (VBool true)); (B "false", KConst (VBool false)); (B "NULL", KConst (VNull NNull)); (B "VERTEX", KVertex); (B "EDGE", KEdge)].
Fixpoint keyword (l : list (str * kind)) (w : str) : option kind :=
  match l with [] => None | (p, k) :: l' => if strEqb p w then Some k else keyword l' w end.
Inductive mode := MExpr | MPost (e : expr) | MItems (sep : str).
Definition res := option (list expr * str).
Definition get (o : res) (f : expr -> str -> res) : res := match o with Some ([x], r) => f x r | _ => None end.
Definition get' (p : str) (o : res) (f : expr -> str -> res) : res := get o (fun x r => match after p r with Some r' => f x r' | None => None end).
Definition gets (p : str) (o : res) (f : list expr -> str -> res) : res :=
  match o with Some (l, r) => match after p r with Some r' => f l r' | None => None end | None => None end.
Definition dotName (s : str) : option (str * str) :=
  match after (B ".") s with Some (c :: r) => if nameByte c then Some (word (c :: r)) else None | _ => None end.

Fixpoint rd (n : nat) (m : mode) (s : str) : res :=
  match n with
  | O => None
  | S n =>
    let expr := rd n MExpr in
    let post k cs := rd n (MPost (Node k cs)) in
    match m with
    | MItems sep =>
        get (expr s) (fun x r =>
        match after sep r with
        | Some r1 => match rd n (MItems sep) r1 with Some (l, r2) => Some (x :: l, r2) | None => None end
        | None => Some ([x], r)
        end)
    | MPost e =>
        match pick suffixes s with
        | Some (o, r) => post (KUnary o) [e] r
        | None =>
        match after (B "[") s with
        | None => Some ([e], s)
        | Some r =>
            match after (B "..") r with
            | Some r1 =>
                match after (B "]") r1 with
                | Some r2 => post (KRange false false) [e] r2
                | None => get' (B "]") (expr r1) (fun y r2 => post (KRange false true) [e; y] r2)
                end
            | None =>
                get (expr r) (fun x r1 =>
                match after (B "]") r1 with
                | Some r2 => post KSubscript [e; x] r2
                | None => match after (B "..") r1 with
                          | None => None
                          | Some r2 => match after (B "]") r2 with
                                       | Some r3 => post (KRange true false) [e; x] r3
                                       | None => get' (B "]") (expr r2) (fun y r3 => post (KRange true true) [e; x; y] r3)
                                       end
                          end
                end)
            end
        end
        end
    | MExpr =>
        match pick prefixes s with
        | Some (o, r) => get' (B ")") (expr r) (fun x r1 => post (KUnary o) [x] r1)
        | None =>
        match after (B "(") s with
        | Some r =>
            get (expr r) (fun l r1 =>
            match pick binaries r1 with
            | Some (k, r2) => get' (B ")") (expr r2) (fun x r3 => post k [l; x] r3)
            | None =>
            match pick logics r1 with
            | Some (o, r2) => gets (B ")") (rd n (MItems (logicSym o)) r2) (fun xs r3 => post (KLogical o) (l :: xs) r3)
            | None =>
            match after (B " ? ") r1 with
            | Some r2 => get' (B " : ") (expr r2) (fun t r3 => get' (B ")") (expr r3) (fun d r4 => post (KCase false false true) [d; l; t] r4))
            | None => None
            end end end)
        | None =>
        match after (B "[") s with
        | Some r => gets (B "]") (rd n (MItems (B ",")) r) (fun xs r1 => post KList xs r1)
        | None =>
        match after (B "{") s with
        | Some r => gets (B "}") (rd n (MItems (B ",")) r) (fun xs r1 => post KSet xs r1)
        | None =>
        match after [34] s with
        | Some r => match quoted r with Some (w, r1) => post (KConst (VStr w)) [] r1 | None => None end
        | None =>
        match after (B "$") s with
        | Some r =>
            match after (B "-") r with
            | Some r1 => match dotName r1 with Some (p, r2) => post (KProp PInput (B "$-") [] p) [] r2 | None => None end
            | None =>
            match pick [(B "^.", PSrc); (B "$.", PDst)] r with
            | Some (p, r1) => let (s, r2) := word r1 in
                match dotName r2 with Some (q, r3) => post (KProp p (match p with PSrc => B "$^" | _ => B "$$" end) s q) [] r3 | None => None end
            | None =>
                let (w, r1) := word r in
                match after (B "{") r1 with
                | Some r2 => get' (B "}") (expr r2) (fun x r3 => post (KVersioned w true) [x] r3)
                | None => match dotName r1 with
                          | Some (p, r2) => post (KProp PVar (B "$") w p) [] r2
                          | None => post (KVar w false) [] r1
                          end
                end
            end end
        | None =>
            if startsNum s || match after (B "-") s with Some _ => true | None => false end
            then let (z, r) := rdInt s in post (KConst (VInt z)) [] r
            else
              let (w, r) := word s in
              match after (B "(") r with
              | Some r1 => match after (B ")") r1 with
                           | Some r2 => post (KCall w) [] r2
                           | None => gets (B ")") (rd n (MItems (B ",")) r1) (fun xs r2 => post (KCall w) xs r2)
                           end
              | None => if strEqb w (B "COLUMN")
                        then match after (B "[") r with
                             | Some r1 => let (z, r2) := rdInt r1 in match after (B "]") r2 with Some r3 => post (KColumn z) [] r3 | None => None end
                             | None => None
                             end
                        else match keyword words w with Some k => post k [] r | None => None end
              end
        end end end end end end
    end
  end.

(** * The text of a plain tree, without outcomes *)
Fixpoint pt (e : expr) : str :=
  match e with
  | Node k cs =>
      match k, map pt cs with
      | KConst v, _ => match v with
                       | VInt z => decZ z | VBool true => B "true" | VBool false => B "false" | VNull _ => B "NULL"
                       | VStr s => 34 :: s ++ [34] | _ => []
                       end
      | KArith o, [a; b] => B "(" ++ a ++ arithSym o ++ b ++ B ")"
      | KRel o, [a; b] => B "(" ++ a ++ relSym o ++ b ++ B ")"
      | KUnary o, [a] => unaryText o a
      | KSubscript, [a; b] => a ++ B "[" ++ b ++ B "]"
      | KRange true true, [a; x; y] => a ++ B "[" ++ x ++ B ".." ++ y ++ B "]"
      | KRange true false, [a; x] => a ++ B "[" ++ x ++ B "..]"
      | KRange false true, [a; y] => a ++ B "[.." ++ y ++ B "]"
      | KRange false false, [a] => a ++ B "[..]"
      | KColumn i, _ => B "COLUMN[" ++ decZ i ++ B "]"
      | KLogical o, ts => B "(" ++ joinStr (logicSym o) ts ++ B ")"
      | KCall f, ts => f ++ B "(" ++ joinStr (B ",") ts ++ B ")"
      | KProp PVar r s p, _ => r ++ s ++ B "." ++ p
      | KProp PInput r s p, _ => r ++ B "." ++ p
      | KProp _ r s p, _ => r ++ B "." ++ s ++ B "." ++ p
      | KVertex, _ => B "VERTEX" | KEdge, _ => B "EDGE"
      | KVar s _, _ => B "$" ++ s
      | KVersioned s _, [a] => B "$" ++ s ++ B "{" ++ a ++ B "}"
      | KList, ts => B "[" ++ joinStr (B ",") ts ++ B "]"
      | KSet, ts => B "{" ++ joinStr (B ",") ts ++ B "}"
      | KCase _ _ _, [d; w; t] => B "(" ++ w ++ B " ? " ++ t ++ B " : " ++ d ++ B ")"
      | _, _ => []
      end
  end.

Lemma removelast_comma ts : ts <> [] -> forall first, removelast (first ++ flat_map (fun t => t ++ B ",") ts) = first ++ joinStr (B ",") ts.
Proof.
  induction ts as [|t ts IH]; intros NE first; [congruence|]. destruct ts as [|t' ts].
  - cbn. rewrite app_nil_r, app_assoc. apply removelast_last.
  - change (flat_map (fun t => t ++ B ",") (t :: t' :: ts)) with ((t ++ B ",") ++ flat_map (fun t => t ++ B ",") (t' :: ts)).
    rewrite app_assoc, (IH ltac:(discriminate)). cbn [joinStr]. rewrite <- !app_assoc. reflexivity.
Qed.
Lemma itemsText_join first last ts : ts <> [] -> itemsText first last ts = first ++ joinStr (B ",") ts ++ [last].
Proof. intros H. unfold itemsText. rewrite removelast_comma by exact H. now rewrite <- app_assoc. Qed.
Lemma obindList_rets {A C} (f : A -> outcome C) (g : A -> C) l : (forall x, In x l -> f x = Ret (g x)) -> obindList (map f l) = Ret (map g l).
Proof.
  induction l as [|x l IH]; intros H; [reflexivity|]. cbn [map obindList]. rewrite (H x) by (left; reflexivity). cbn.
  fold (@obindList C). rewrite IH by (intros y Hy; apply H; right; exact Hy). reflexivity.
Qed.
Lemma plain_inv k cs : plain (Node k cs) = true -> plainNode k (List.length cs) = true /\ (forall c, In c cs -> plain c = true).
Proof. cbn [plain]. rewrite andb_true_iff. intros [H1 H2]. rewrite forallb_forall in H2. auto. Qed.
Lemma name_cons s : isName s = true -> exists c r, s = c :: r /\ forallb nameByte s = true.
Proof. destruct s as [|c r]; [discriminate|]. cbn [isName]. eauto. Qed.
Ltac lens cs := repeat (destruct cs as [|? cs]; try discriminate).
Lemma text_plain X e : plain e = true -> exprText X e = Ret (pt e).
Proof.
  induction e as [k cs IH] using expr_ind'. intros P. apply plain_inv in P as [Pk Pc]. rewrite Forall_forall in IH.
  assert (T : forall c, In c cs -> exprText X c = Ret (pt c)) by (intros c Hc; apply IH; auto). clear IH Pc.
  cbn [exprText pt]. pose proof (obindList_rets (exprText X) pt cs T) as TL.
  destruct k; cbn [plainNode] in Pk; try discriminate.
  - destruct v as [|n|b| | |s| | | | | | | | | |]; try discriminate; try (destruct n; try discriminate); try destruct b; lens cs; reflexivity.
  - lens cs. cbn [map textNode]. rewrite !T by (cbn; auto). reflexivity.
  - lens cs. cbn [map textNode]. rewrite !T by (cbn; auto). reflexivity.
  - lens cs. cbn [map textNode]. rewrite !T by (cbn; auto). reflexivity.
  - lens cs. cbn [map textNode]. rewrite !T by (cbn; auto). reflexivity.
  - destruct hasLo, hasHi; cbn in Pk; lens cs; cbn [map textNode]; rewrite !T by (cbn; auto); reflexivity.
  - lens cs. reflexivity.
  - destruct cs as [|c cs]; [discriminate|]. cbn [textNode]. rewrite TL. reflexivity.
  - cbn [textNode]. rewrite TL. reflexivity.
  - destruct p; try discriminate; rewrite !andb_true_iff in Pk.
    + destruct Pk as [[[_ E] E'] N]. apply strEqb_iff in E, E'. subst. reflexivity.
    + destruct Pk as [[[_ E] N'] N]. apply strEqb_iff in E. subst. apply name_cons in N' as (c & r & -> & _). cbn. now rewrite <- app_assoc.
    + destruct Pk as [[[_ E] N'] N]. apply strEqb_iff in E. subst. apply name_cons in N' as (c & r & -> & _). cbn. now rewrite <- app_assoc.
    + destruct Pk as [[[_ E] N'] N]. apply strEqb_iff in E. subst. apply name_cons in N' as (c & r & -> & _). cbn. now rewrite <- app_assoc.
  - lens cs. reflexivity.
  - lens cs. reflexivity.
  - rewrite !andb_true_iff in Pk. destruct Pk as [[_ N] _]. apply name_cons in N as (c & r & -> & _). reflexivity.
  - rewrite !andb_true_iff in Pk. destruct Pk as [[N V] L]. subst. apply name_cons in N as (c & r & -> & _). lens cs. cbn [map textNode]. rewrite !T by (cbn; auto). reflexivity.
  - destruct cs as [|c cs]; [discriminate|]. cbn [textNode]. rewrite TL. cbn [obind]. f_equal. rewrite itemsText_join by (cbn; discriminate). reflexivity.
  - destruct cs as [|c cs]; [discriminate|]. cbn [textNode]. rewrite TL. cbn [obind]. f_equal. rewrite itemsText_join by (cbn; discriminate). reflexivity.
  - rewrite !andb_true_iff in Pk. destruct Pk as [[[G C] D] L]. destruct generic, hasCond, hasDefault; try discriminate. lens cs.
    cbn [map textNode]. rewrite !T by (cbn; auto). reflexivity.
Qed.

(** * How texts begin and where they end *)
Definition headOk (c : Z) : bool := nameByte c || existsb (Z.eqb c) [34; 36; 40; 43; 45; 33; 91; 123].
Lemma dec_head z : exists c t, decZ z = c :: t /\ (isNum c || (c =? 45)) = true.
Proof.
  destruct (Z_lt_ge_dec z 0) as [N|N].
  - rewrite decZ_neg by exact N. eexists _, _. split; reflexivity.
  - destruct (decZ_nonneg z) as (NE & D & _); [lia|]. destruct (decZ z) as [|c t]; [congruence|]. cbn in D. apply andb_true_iff in D as [D _].
    exists c, t. split; [reflexivity|]. change (isDigit c) with (isNum c) in D. now rewrite D.
Qed.
Lemma pt_head e : plain e = true -> exists c t, pt e = c :: t /\ headOk c = true.
Proof.
  induction e as [k cs IH] using expr_ind'. intros P. apply plain_inv in P as [Pk Pc]. rewrite Forall_forall in IH.
  assert (T : forall c, In c cs -> exists x t, pt c = x :: t /\ headOk x = true) by (intros c Hc; apply IH; auto). clear IH Pc.
  cbn [pt]. destruct k; cbn [plainNode] in Pk; try discriminate.
  - destruct v as [|n|b|z| |s| | | | | | | | | |]; try discriminate; try (destruct n; try discriminate); try destruct b; lens cs; try (eexists _, _; split; reflexivity).
    destruct (dec_head z) as (c & t & -> & H). exists c, t. split; [reflexivity|]. unfold headOk, nameByte. destruct (isNum c); [reflexivity|]. cbn in *. lia.
  - lens cs. eexists _, _; split; reflexivity.
  - lens cs. cbn [map]. destruct o; try (eexists _, _; split; reflexivity); destruct (T e ltac:(cbn; auto)) as (x & t & E & H); rewrite E;
      (eexists _, _; split; [reflexivity|exact H]).
  - lens cs. eexists _, _; split; reflexivity.
  - lens cs. cbn [map]. destruct (T e ltac:(cbn; auto)) as (x & t & E & H); rewrite E. eexists _, _; split; [reflexivity|exact H].
  - destruct hasLo, hasHi; cbn in Pk; lens cs; cbn [map]; destruct (T e ltac:(cbn; auto)) as (x & t & E & H); rewrite E; (eexists _, _; split; [reflexivity|exact H]).
  - eexists _, _; split; reflexivity.
  - eexists _, _; split; reflexivity.
  - apply andb_true_iff in Pk as [N _]. apply name_cons in N as (c & r & -> & N). eexists _, _; split; [reflexivity|]. cbn in N. apply andb_true_iff in N as [N _]. unfold headOk. now rewrite N.
  - destruct p; try discriminate; rewrite !andb_true_iff in Pk.
    + destruct Pk as [[[_ E] E'] N]. apply strEqb_iff in E, E'. subst. eexists _, _; split; reflexivity.
    + destruct Pk as [[[_ E] N'] N]. apply strEqb_iff in E. subst. eexists _, _; split; reflexivity.
    + destruct Pk as [[[_ E] N'] N]. apply strEqb_iff in E. subst. eexists _, _; split; reflexivity.
    + destruct Pk as [[[_ E] N'] N]. apply strEqb_iff in E. subst. eexists _, _; split; reflexivity.
  - eexists _, _; split; reflexivity.
  - eexists _, _; split; reflexivity.
  - eexists _, _; split; reflexivity.
  - rewrite !andb_true_iff in Pk. destruct Pk as [[N V] L]. lens cs. eexists _, _; split; reflexivity.
  - eexists _, _; split; reflexivity.
  - eexists _, _; split; reflexivity.
  - rewrite !andb_true_iff in Pk. destruct Pk as [[[G C] D] L]. lens cs. eexists _, _; split; reflexivity.
Qed.

Lemma after_head e x p r : plain e = true -> headOk x = false -> after (x :: p) (pt e ++ r) = None.
Proof. intros P H. destruct (pt_head e P) as (c & t & -> & Hc). apply after_no. congruence. Qed.
(** what may follow a token, and what may follow a whole expression *)
Definition tok (s : str) : Prop :=
  match s with
  | [] => True
  | c :: r => nameByte c = false /\ c <> 40 /\ c <> 123 /\ (c = 46 -> noName r)
  end.
Definition ends (s : str) : Prop := tok s /\ match s with [] => True | c :: _ => c <> 91 end /\ pick suffixes s = None.
Lemma tok_noName s : tok s -> noName s. Proof. destruct s; cbn; tauto. Qed.
Lemma tok_stops s : tok s -> stops s = true.
Proof. destruct s as [|c s]; [reflexivity|]. cbn. intros (H & _). unfold nameByte in H. change (isDigit c) with (isNum c). destruct (isNum c); [discriminate|reflexivity]. Qed.
Lemma tok_dot s : tok s -> dotName s = None.
Proof.
  destruct s as [|c s]; [reflexivity|]. intros (_ & _ & _ & H). unfold dotName.
  change (B ".") with [46]. cbn [after]. destruct (Z.eqb_spec 46 c) as [<-|]; [|reflexivity]. specialize (H eq_refl). destruct s as [|d s]; [reflexivity|]. cbn in H. now rewrite H.
Qed.
Lemma dotName_app p r : isName p = true -> noName r -> dotName (B "." ++ p ++ r) = Some (p, r).
Proof.
  intros N H. unfold dotName. rewrite after_app. apply name_cons in N as (c & q & -> & N). cbn [app]. change (c :: q ++ r) with ((c :: q) ++ r).
  rewrite word_app by auto. cbn in N. apply andb_true_iff in N as [-> _]. reflexivity.
Qed.
Lemma tok_lit p r : match p with [] => False | c :: q => tok (c :: q) /\ (c = 46 -> q <> []) end -> tok (p ++ r).
Proof. destruct p as [|c [|d q]]; cbn; try tauto. Qed.

(** * The reader gets a plain tree back *)
Definition ev (P : nat -> Prop) : Prop := exists n, forall m, (n <= m)%nat -> P m.
Lemma ev_mono (P Q : nat -> Prop) : (forall m, P m -> Q m) -> ev P -> ev Q.
Proof. intros H [n N]. exists n. auto. Qed.
Lemma post_ends e rest : ends rest -> ev (fun m => rd m (MPost e) rest = Some ([e], rest)).
Proof.
  intros (_ & NB & NS). exists 1%nat. intros m L. destruct m as [|m]; [lia|]. cbn [rd]. rewrite NS.
  destruct rest as [|c r]; [reflexivity|]. change (B "[") with [91]. rewrite after_no by congruence. reflexivity.
Qed.
Definition reads (e : expr) : Prop :=
  forall rest out, tok rest -> ev (fun m => rd m (MPost e) rest = out) -> ev (fun m => rd m MExpr (pt e ++ rest) = out).
Lemma reads_ends e rest : reads e -> ends rest -> ev (fun m => rd m MExpr (pt e ++ rest) = Some ([e], rest)).
Proof. intros R E. apply R; [apply E|]. now apply post_ends. Qed.
Lemma items_read sep cs : cs <> [] -> (forall c, In c cs -> reads c) -> (forall r, ends (sep ++ r)) ->
  forall rest, ends rest -> after sep rest = None -> ev (fun m => rd m (MItems sep) (joinStr sep (map pt cs) ++ rest) = Some (cs, rest)).
Proof.
  intros NE R HS rest E NA. induction cs as [|c cs IH]; [congruence|]. destruct cs as [|c' cs].
  - cbn [map joinStr]. destruct (reads_ends c rest (R c ltac:(cbn; auto)) E) as [n N]. exists (S n). intros m L. destruct m as [|m]; [lia|].
    cbn [rd]. rewrite N by lia. cbn [get]. rewrite NA. reflexivity.
  - specialize (IH ltac:(discriminate) ltac:(intros x Hx; apply R; right; exact Hx)). destruct IH as [n N].
    change (joinStr sep (map pt (c :: c' :: cs))) with (pt c ++ sep ++ joinStr sep (map pt (c' :: cs))).
    rewrite <- !app_assoc. destruct (reads_ends c _ (R c ltac:(cbn; auto)) (HS (joinStr sep (map pt (c' :: cs)) ++ rest))) as [n' N'].
    exists (S (n + n')). intros m L. destruct m as [|m]; [lia|]. cbn [rd]. rewrite N' by lia. cbn [get]. rewrite after_app, N by lia. reflexivity.
Qed.
Ltac ends_lit := split; [|split]; cbn; auto; intuition (try discriminate; try congruence; auto).
Ltac evn n H := let N := fresh "N" in destruct H as [n N].
Lemma ends_close r : ends (B ")" ++ r). Proof. ends_lit. Qed.
Lemma ends_square r : ends (B "]" ++ r). Proof. ends_lit. Qed.
Lemma ends_brace r : ends (B "}" ++ r). Proof. ends_lit. Qed.
Lemma ends_dots r : ends (B ".." ++ r). Proof. ends_lit. Qed.
Lemma ends_comma r : ends (B "," ++ r). Proof. ends_lit. Qed.
Lemma ends_arith o r : ends (arithSym o ++ r). Proof. destruct o; ends_lit. Qed.
Lemma ends_rel o r : ends (relSym o ++ r). Proof. destruct o; ends_lit. Qed.
Lemma ends_logic o r : ends (logicSym o ++ r). Proof. destruct o; ends_lit. Qed.
Lemma tok_square r : tok (B "[" ++ r). Proof. cbn. splits; auto; discriminate. Qed.
Lemma binary_read k sym l r : reads l -> reads r -> (forall s, ends (sym ++ s)) ->
  (forall s, pick binaries (sym ++ pt r ++ s) = Some (k, pt r ++ s)) ->
  forall rest out, ev (fun m => rd m (MPost (Node k [l; r])) rest = out) -> ev (fun m => rd m MExpr ((B "(" ++ pt l ++ sym ++ pt r ++ B ")") ++ rest) = out).
Proof.
  intros Rl Rr HS P rest out [n N]. rewrite <- !app_assoc.
  destruct (reads_ends l _ Rl (HS (pt r ++ B ")" ++ rest))) as [n1 N1].
  destruct (reads_ends r (B ")" ++ rest) Rr (ends_close _)) as [n2 N2].
  exists (S (n + n1 + n2)). intros m L. destruct m as [|m]; [lia|]. cbn [rd]. change (pick prefixes (B "(" ++ ?x)) with (@None (unary * str)).
  rewrite after_app, N1 by lia. cbn [get]. rewrite P, N2 by lia. unfold get'. cbn [get]. rewrite after_app. apply N. lia.
Qed.
Lemma pick_arith o r s : plain r = true -> pick binaries (arithSym o ++ pt r ++ s) = Some (KArith o, pt r ++ s).
Proof. intros _. destruct o; reflexivity. Qed.
Lemma pick_rel o r s : plain r = true -> pick binaries (relSym o ++ pt r ++ s) = Some (KRel o, pt r ++ s).
Proof.
  intros P. destruct (pt_head r P) as (c & t & -> & H). cbn [app].
  assert (c <> 61) by (intros ->; discriminate). assert (E : (61 =? c) = false) by lia.
  destruct o; cbn in E |- *; rewrite ?E; reflexivity.
Qed.
Lemma prefix_read o p l : reads l -> (forall s, pick prefixes (p ++ s) = Some (o, s)) ->
  forall rest out, ev (fun m => rd m (MPost (Node (KUnary o) [l])) rest = out) -> ev (fun m => rd m MExpr ((p ++ pt l ++ B ")") ++ rest) = out).
Proof.
  intros Rl P rest out [n N]. rewrite <- !app_assoc. destruct (reads_ends l (B ")" ++ rest) Rl (ends_close _)) as [n1 N1].
  exists (S (n + n1)). intros m L. destruct m as [|m]; [lia|]. cbn [rd]. rewrite P, N1 by lia. unfold get'. cbn [get]. rewrite after_app. apply N. lia.
Qed.
Lemma suffix_read o p l : reads l -> (forall s, tok (p ++ s)) -> (forall s, pick suffixes (p ++ s) = Some (o, s)) ->
  forall rest out, ev (fun m => rd m (MPost (Node (KUnary o) [l])) rest = out) -> ev (fun m => rd m MExpr ((pt l ++ p) ++ rest) = out).
Proof.
  intros Rl T P rest out [n N]. rewrite <- app_assoc. apply Rl; [apply T|]. exists (S n). intros m L. destruct m as [|m]; [lia|].
  cbn [rd]. rewrite P. apply N. lia.
Qed.
Lemma no_suffix_square r : pick suffixes (B "[" ++ r) = None. Proof. reflexivity. Qed.
Lemma after_dots e r : plain e = true -> after (B "..") (pt e ++ r) = None.
Proof. intros P. apply after_head; [exact P|reflexivity]. Qed.
Lemma after_square e r : plain e = true -> after (B "]") (pt e ++ r) = None.
Proof. intros P. apply after_head; [exact P|reflexivity]. Qed.
Lemma after_close e r : plain e = true -> after (B ")") (pt e ++ r) = None.
Proof. intros P. apply after_head; [exact P|reflexivity]. Qed.
Lemma list_read k (cs : list expr) op (cl : str) : cs <> [] -> (forall c, In c cs -> reads c) -> (forall r, ends (cl ++ r)) -> (forall r, after (B ",") (cl ++ r) = None) ->
  (forall n s, rd (S n) MExpr (op ++ s) = gets cl (rd n (MItems (B ",")) s) (fun xs r1 => rd n (MPost (Node k xs)) r1)) ->
  forall rest out, ev (fun m => rd m (MPost (Node k cs)) rest = out) -> ev (fun m => rd m MExpr ((op ++ joinStr (B ",") (map pt cs) ++ cl) ++ rest) = out).
Proof.
  intros NE R E A D rest out [n N]. rewrite <- !app_assoc. destruct (items_read (B ",") cs NE R ends_comma (cl ++ rest) (E _) (A _)) as [n1 N1].
  exists (S (n + n1)). intros m L. destruct m as [|m]; [lia|]. rewrite D, N1 by lia. cbn [gets]. rewrite after_app. apply N. lia.
Qed.
Definition rdName (n : nat) (s : str) : res :=
  let (w, r) := word s in
  let post k cs := rd n (MPost (Node k cs)) in
  match after (B "(") r with
  | Some r1 => match after (B ")") r1 with
               | Some r2 => post (KCall w) [] r2
               | None => gets (B ")") (rd n (MItems (B ",")) r1) (fun xs r2 => post (KCall w) xs r2)
               end
  | None => if strEqb w (B "COLUMN")
            then match after (B "[") r with
                 | Some r1 => let (z, r2) := rdInt r1 in match after (B "]") r2 with Some r3 => post (KColumn z) [] r3 | None => None end
                 | None => None
                 end
            else match keyword words w with Some k => post k [] r | None => None end
  end.
Lemma not_begin c t : nameByte c = true ->
  pick prefixes (c :: t) = None /\ after (B "(") (c :: t) = None /\ after (B "[") (c :: t) = None /\ after (B "{") (c :: t) = None /\
  after [34] (c :: t) = None /\ after (B "$") (c :: t) = None /\ after (B "-") (c :: t) = None.
Proof.
  intros H. assert (A : forall x p, nameByte x = false -> after (x :: p) (c :: t) = None) by (intros x p Hx; apply after_no; congruence).
  splits; try (apply A; reflexivity). unfold pick, prefixes.
  replace (after (B "++(") (c :: t)) with (@None str) by (symmetry; apply A; reflexivity).
  replace (after (B "--(") (c :: t)) with (@None str) by (symmetry; apply A; reflexivity).
  replace (after (B "+(") (c :: t)) with (@None str) by (symmetry; apply A; reflexivity).
  replace (after (B "-(") (c :: t)) with (@None str) by (symmetry; apply A; reflexivity).
  replace (after (B "!(") (c :: t)) with (@None str) by (symmetry; apply A; reflexivity).
  reflexivity.
Qed.
Lemma rd_name n c t : nameByte c = true -> isNum c = false -> rd (S n) MExpr (c :: t) = rdName n (c :: t).
Proof.
  intros H N. destruct (not_begin c t H) as (E1 & E2 & E3 & E4 & E5 & E6 & E7). cbn [rd]. rewrite E1, E2, E3, E4, E5, E6, E7.
  cbn [startsNum]. rewrite N. reflexivity.
Qed.
Lemma rd_int n z rest : stops rest = true -> rd (S n) MExpr (decZ z ++ rest) = rd n (MPost (Node (KConst (VInt z)) [])) rest.
Proof.
  intros T. assert (I : rdInt (decZ z ++ rest) = (z, rest)) by (apply rdInt_dec; exact T). destruct (Z_lt_ge_dec z 0) as [N|N].
  - rewrite decZ_neg in I |- * by exact N. destruct (decZ_nonneg (- z)) as (NE & D & _); [lia|]. destruct (decZ (- z)) as [|c d]; [congruence|].
    cbn in D. apply andb_true_iff in D as [D _]. assert (c <> 40 /\ c <> 45) as [C1 C2] by (unfold isDigit in D; lia).
    cbn [app] in I |- *. cbn [rd].
    assert (E : pick prefixes (45 :: c :: d ++ rest) = None).
    { apply Z.eqb_neq in C1, C2. rewrite Z.eqb_sym in C1, C2. cbn in C1, C2 |- *. rewrite C1, C2. reflexivity. }
    rewrite E. change (after (B "(") (45 :: ?x)) with (@None str). change (after (B "[") (45 :: ?x)) with (@None str).
    change (after (B "{") (45 :: ?x)) with (@None str). change (after [34] (45 :: ?x)) with (@None str). change (after (B "$") (45 :: ?x)) with (@None str).
    change (startsNum (45 :: ?x)) with false. change (after (B "-") (45 :: ?x)) with (Some x). cbn [orb]. rewrite I. reflexivity.
  - destruct (decZ_nonneg z) as (NE & D & _); [lia|]. destruct (decZ z) as [|c d]; [congruence|]. cbn in D. apply andb_true_iff in D as [D _].
    change (isDigit c) with (isNum c) in D. assert (NB : nameByte c = true) by (unfold nameByte; now rewrite D).
    cbn [app] in I |- *. destruct (not_begin c (d ++ rest) NB) as (E1 & E2 & E3 & E4 & E5 & E6 & E7). cbn [rd]. rewrite E1, E2, E3, E4, E5, E6, E7.
    cbn [startsNum]. rewrite D. cbn [orb]. rewrite I. reflexivity.
Qed.
Lemma tok_paren r : tok r -> after (B "(") r = None.
Proof. destruct r as [|c r]; [reflexivity|]. intros (_ & H & _). apply (after_no 40). congruence. Qed.
Lemma tok_brace r : tok r -> after (B "{") r = None.
Proof. destruct r as [|c r]; [reflexivity|]. intros (_ & _ & H & _). apply (after_no 123). congruence. Qed.
Lemma word_read k w : keyword words w = Some k -> strEqb w (B "COLUMN") = false -> forallb nameByte w = true -> startsNum w = false -> w <> [] ->
  forall rest out, tok rest -> ev (fun m => rd m (MPost (Node k [])) rest = out) -> ev (fun m => rd m MExpr (w ++ rest) = out).
Proof.
  intros K C W NS NE rest out T [n N]. exists (S n). intros m L. destruct m as [|m]; [lia|]. destruct w as [|c w]; [congruence|].
  pose proof W as W'. cbn in W'. apply andb_true_iff in W' as [Hc _]. cbn [app]. rewrite rd_name by assumption. unfold rdName.
  change (c :: w ++ rest) with ((c :: w) ++ rest). rewrite word_app by (auto using tok_noName). rewrite tok_paren by exact T. rewrite C, K. apply N. lia.
Qed.
Lemma ends_quest r : ends (B " ? " ++ r). Proof. ends_lit. Qed.
Lemma ends_colon r : ends (B " : " ++ r). Proof. ends_lit. Qed.
Lemma rd_dollar n w r : isName w = true -> noName r ->
  rd (S n) MExpr (B "$" ++ w ++ r) =
  match after (B "{") r with
  | Some r2 => get' (B "}") (rd n MExpr r2) (fun x r3 => rd n (MPost (Node (KVersioned w true) [x])) r3)
  | None => match dotName r with
            | Some (p, r2) => rd n (MPost (Node (KProp PVar (B "$") w p) [])) r2
            | None => rd n (MPost (Node (KVar w false) [])) r
            end
  end.
Proof.
  intros Nw Nr. apply name_cons in Nw as (c & s' & -> & W). pose proof W as W'. cbn in W'. apply andb_true_iff in W' as [Hc _].
  assert (A : forall x p, nameByte x = false -> after (x :: p) ((c :: s') ++ r) = None) by (intros x p Hx; apply after_no; congruence).
  cbn [rd]. change (pick prefixes (B "$" ++ ?x)) with (@None (unary * str)).
  change (after (B "(") (B "$" ++ ?x)) with (@None str). change (after (B "[") (B "$" ++ ?x)) with (@None str). change (after (B "{") (B "$" ++ ?x)) with (@None str).
  change (after [34] (B "$" ++ ?x)) with (@None str). cbn iota. rewrite after_app.
  replace (after (B "-") ((c :: s') ++ r)) with (@None str) by (symmetry; apply A; reflexivity).
  replace (pick [(B "^.", PSrc); (B "$.", PDst)] ((c :: s') ++ r)) with (@None (ExprModel.prop * str)).
  2:{ cbn [pick]. replace (after (B "^.") ((c :: s') ++ r)) with (@None str) by (symmetry; apply A; reflexivity).
      replace (after (B "$.") ((c :: s') ++ r)) with (@None str) by (symmetry; apply A; reflexivity). reflexivity. }
  rewrite word_app by auto. reflexivity.
Qed.
Lemma plain_reads e : plain e = true -> reads e.
Proof.
  induction e as [k cs IH] using expr_ind'. intros P. apply plain_inv in P as [Pk Pc]. rewrite Forall_forall in IH.
  assert (R : forall c, In c cs -> reads c) by (intros c Hc; apply IH; auto). clear IH.
  intros rest out T PO. cbn [pt]. destruct k; cbn [plainNode] in Pk; try discriminate.
  - destruct v as [|n|b|z| |s| | | | | | | | | |]; try discriminate; try (destruct n; try discriminate).
    + lens cs. apply (word_read (KConst (VNull NNull))); try reflexivity; try discriminate; assumption.
    + lens cs. destruct b; [apply (word_read (KConst (VBool true)))|apply (word_read (KConst (VBool false)))]; try reflexivity; try discriminate; assumption.
    + lens cs. destruct PO as [n N]. exists (S n). intros m L. destruct m as [|m]; [lia|]. rewrite rd_int by (apply tok_stops, T). apply N. lia.
    + apply andb_true_iff in Pk as [Pk Q]. lens cs. destruct PO as [n N]. exists (S n). intros m L. destruct m as [|m]; [lia|].
      replace ((34 :: s ++ [34]) ++ rest) with (34 :: s ++ 34 :: rest) by (cbn; now rewrite <- app_assoc). cbn [rd].
      change (pick prefixes (34 :: ?x)) with (@None (unary * str)). change (after (B "(") (34 :: ?x)) with (@None str). change (after (B "[") (34 :: ?x)) with (@None str).
      change (after (B "{") (34 :: ?x)) with (@None str). change (after [34] (34 :: ?x)) with (Some x). cbn iota.
      rewrite quoted_app by exact Q. apply N. lia.
  - lens cs. cbn [map]. apply (binary_read (KArith o)); auto using ends_arith.
    + apply R; cbn; auto. + apply R; cbn; auto. + intros s. apply pick_arith, Pc. cbn; auto.
  - lens cs. cbn [map]. assert (Re : reads e) by (apply R; cbn; auto).
    destruct o; cbn [unaryText].
    + eapply prefix_read; [exact Re| |exact PO]; reflexivity.
    + eapply prefix_read; [exact Re| |exact PO]; reflexivity.
    + eapply prefix_read; [exact Re| |exact PO]; reflexivity.
    + eapply prefix_read; [exact Re| |exact PO]; reflexivity.
    + eapply prefix_read; [exact Re| |exact PO]; reflexivity.
    + apply (suffix_read OIsNull); [exact Re|intros s; cbn; splits; auto; discriminate|intros; reflexivity|exact PO].
    + apply (suffix_read OIsNotNull); [exact Re|intros s; cbn; splits; auto; discriminate|intros; reflexivity|exact PO].
    + apply (suffix_read OIsEmpty); [exact Re|intros s; cbn; splits; auto; discriminate|intros; reflexivity|exact PO].
    + apply (suffix_read OIsNotEmpty); [exact Re|intros s; cbn; splits; auto; discriminate|intros; reflexivity|exact PO].
  - lens cs. cbn [map]. apply (binary_read (KRel o)); auto using ends_rel.
    + apply R; cbn; auto. + apply R; cbn; auto. + intros s. apply pick_rel, Pc. cbn; auto.
  - lens cs. cbn [map]. rewrite <- !app_assoc. apply R; [cbn; auto|apply tok_square|]. destruct PO as [n N].
    destruct (reads_ends e0 (B "]" ++ rest) (R e0 ltac:(cbn; auto)) (ends_square _)) as [n1 N1].
    exists (S (n + n1)). intros m L. destruct m as [|m]; [lia|]. cbn [rd]. rewrite no_suffix_square, after_app, after_dots by (apply Pc; cbn; auto).
    rewrite N1 by lia. cbn [get]. rewrite after_app. apply N. lia.
  - destruct PO as [n N]. destruct hasLo, hasHi; cbn in Pk; lens cs; cbn [map]; rewrite <- !app_assoc; (apply R; [cbn; auto|apply tok_square|]).
    + destruct (reads_ends e0 (B ".." ++ pt e1 ++ B "]" ++ rest) (R e0 ltac:(cbn; auto)) (ends_dots _)) as [n1 N1].
      destruct (reads_ends e1 (B "]" ++ rest) (R e1 ltac:(cbn; auto)) (ends_square _)) as [n2 N2].
      exists (S (n + n1 + n2)). intros m L. destruct m as [|m]; [lia|]. cbn [rd]. rewrite no_suffix_square, after_app, after_dots by (apply Pc; cbn; auto).
      rewrite N1 by lia. cbn [get]. change (after (B "]") (B ".." ++ ?x)) with (@None str). cbn iota. rewrite after_app, after_square by (apply Pc; cbn; auto).
      rewrite N2 by lia. unfold get'. cbn [get]. rewrite after_app. apply N. lia.
    + change (B "..]" ++ rest) with (B ".." ++ B "]" ++ rest).
      destruct (reads_ends e0 (B ".." ++ B "]" ++ rest) (R e0 ltac:(cbn; auto)) (ends_dots _)) as [n1 N1].
      exists (S (n + n1)). intros m L. destruct m as [|m]; [lia|]. cbn [rd]. rewrite no_suffix_square, after_app, after_dots by (apply Pc; cbn; auto).
      rewrite N1 by lia. cbn [get]. change (after (B "]") (B ".." ++ ?x)) with (@None str). cbn iota. rewrite after_app, after_app. apply N. lia.
    + change (B "[.." ++ pt e0 ++ B "]" ++ rest) with (B "[" ++ B ".." ++ pt e0 ++ B "]" ++ rest).
      destruct (reads_ends e0 (B "]" ++ rest) (R e0 ltac:(cbn; auto)) (ends_square _)) as [n1 N1].
      exists (S (n + n1)). intros m L. destruct m as [|m]; [lia|]. cbn [rd]. rewrite no_suffix_square, after_app, after_app, after_square by (apply Pc; cbn; auto).
      rewrite N1 by lia. unfold get'. cbn [get]. rewrite after_app. apply N. lia.
    + change (B "[..]" ++ rest) with (B "[" ++ B ".." ++ B "]" ++ rest).
      exists (S n). intros m L. destruct m as [|m]; [lia|]. cbn [rd]. rewrite no_suffix_square, after_app, after_app, after_app. apply N. lia.
  - lens cs. destruct PO as [n N]. exists (S n). intros m L. destruct m as [|m]; [lia|].
    replace ((B "COLUMN[" ++ decZ i ++ B "]") ++ rest) with (B "COLUMN" ++ B "[" ++ decZ i ++ B "]" ++ rest) by (cbn; now rewrite <- !app_assoc).
    change (B "COLUMN" ++ ?x) with (67 :: B "OLUMN" ++ x). rewrite rd_name by reflexivity. unfold rdName.
    change (67 :: B "OLUMN" ++ ?x) with (B "COLUMN" ++ x). rewrite word_app by reflexivity. change (after (B "(") (B "[" ++ ?x)) with (@None str).
    cbn iota. change (strEqb (B "COLUMN") (B "COLUMN")) with true. cbn iota. rewrite after_app, rdInt_dec by reflexivity. rewrite after_app. apply N. lia.
  - destruct cs as [|l [|r cs]]; try discriminate. destruct PO as [n N].
    replace ((B "(" ++ joinStr (logicSym o) (map pt (l :: r :: cs)) ++ B ")") ++ rest)
      with (B "(" ++ pt l ++ logicSym o ++ joinStr (logicSym o) (map pt (r :: cs)) ++ B ")" ++ rest) by (cbn [map joinStr]; now rewrite <- !app_assoc).
    destruct (reads_ends l (logicSym o ++ joinStr (logicSym o) (map pt (r :: cs)) ++ B ")" ++ rest) (R l ltac:(cbn; auto)) (ends_logic _ _)) as [n1 N1].
    destruct (items_read (logicSym o) (r :: cs) ltac:(discriminate) ltac:(intros c Hc; apply R; right; exact Hc) (ends_logic o) (B ")" ++ rest) (ends_close _) ltac:(destruct o; reflexivity)) as [n2 N2].
    exists (S (n + n1 + n2)). intros m L. destruct m as [|m]; [lia|]. cbn [rd]. change (pick prefixes (B "(" ++ ?x)) with (@None (unary * str)).
    rewrite after_app, N1 by lia. cbn [get].
    replace (pick binaries (logicSym o ++ joinStr (logicSym o) (map pt (r :: cs)) ++ B ")" ++ rest)) with (@None (kind * str)) by (destruct o; reflexivity).
    replace (pick logics (logicSym o ++ joinStr (logicSym o) (map pt (r :: cs)) ++ B ")" ++ rest)) with (Some (o, joinStr (logicSym o) (map pt (r :: cs)) ++ B ")" ++ rest)) by (destruct o; reflexivity).
    rewrite N2 by lia. cbn [gets]. rewrite after_app. apply N. lia.
  - apply andb_true_iff in Pk as [Nf SN]. apply negb_true_iff in SN. apply name_cons in Nf as (c & f' & -> & W). cbn in SN. destruct PO as [n N].
    pose proof W as W'. cbn in W'. apply andb_true_iff in W' as [Hc _]. rewrite <- !app_assoc.
    assert (D : forall m s, rd (S m) MExpr ((c :: f') ++ B "(" ++ s) = match after (B ")") s with
               | Some r2 => rd m (MPost (Node (KCall (c :: f')) [])) r2
               | None => gets (B ")") (rd m (MItems (B ",")) s) (fun xs r2 => rd m (MPost (Node (KCall (c :: f')) xs)) r2)
               end).
    { intros m s. cbn [app]. rewrite rd_name by assumption. unfold rdName. change (c :: f' ++ ?x) with ((c :: f') ++ x). rewrite word_app by (auto; reflexivity). rewrite after_app. reflexivity. }
    destruct cs as [|a cs].
    + exists (S n). intros m L. destruct m as [|m]; [lia|]. cbn [map joinStr]. rewrite D. change ([] ++ ?x) with x. rewrite after_app. apply N. lia.
    + destruct (items_read (B ",") (a :: cs) ltac:(discriminate) R ends_comma (B ")" ++ rest) (ends_close _) eq_refl) as [n1 N1].
      exists (S (n + n1)). intros m L. destruct m as [|m]; [lia|]. rewrite D. rewrite N1 by lia. cbn [gets]. rewrite after_app.
      replace (after (B ")") (joinStr (B ",") (map pt (a :: cs)) ++ B ")" ++ rest)) with (@None str); [apply N; lia|].
      destruct cs as [|a' cs]; cbn [map joinStr]; rewrite <- ?app_assoc; symmetry; apply after_close, Pc; cbn; auto.
  - destruct PO as [n N]. destruct p; try discriminate; rewrite !andb_true_iff in Pk; destruct Pk as [[[L0 E] E'] Np]; apply strEqb_iff in E; subst; lens cs;
      exists (S n); intros m L; (destruct m as [|m]; [lia|]); cbn [map]; rewrite <- ?app_assoc.
    + apply strEqb_iff in E'. subst. change (B "$-" ++ ?x) with (B "$" ++ B "-" ++ x). cbn [rd]. change (pick prefixes (B "$" ++ ?x)) with (@None (unary * str)).
      change (after (B "(") (B "$" ++ ?x)) with (@None str). change (after (B "[") (B "$" ++ ?x)) with (@None str). change (after (B "{") (B "$" ++ ?x)) with (@None str).
      change (after [34] (B "$" ++ ?x)) with (@None str). cbn iota. rewrite after_app, after_app, dotName_app by (auto using tok_noName). apply N. lia.
    + rewrite rd_dollar by (auto; reflexivity). change (after (B "{") (B "." ++ ?x)) with (@None str). cbn iota.
      rewrite dotName_app by (auto using tok_noName). apply N. lia.
    + apply name_cons in E' as (c & s' & -> & W). change (B "$$" ++ B "." ++ ?x) with (B "$" ++ B "$." ++ x). cbn [rd]. change (pick prefixes (B "$" ++ ?x)) with (@None (unary * str)).
      change (after (B "(") (B "$" ++ ?x)) with (@None str). change (after (B "[") (B "$" ++ ?x)) with (@None str). change (after (B "{") (B "$" ++ ?x)) with (@None str).
      change (after [34] (B "$" ++ ?x)) with (@None str). cbn iota. rewrite after_app. change (after (B "-") (B "$." ++ ?x)) with (@None str). cbn iota.
      change (pick [(B "^.", PSrc); (B "$.", PDst)] (B "$." ++ ?x)) with (Some (PDst, x)). cbn iota. rewrite word_app by (auto; reflexivity).
      rewrite dotName_app by (auto using tok_noName). apply N. lia.
    + apply name_cons in E' as (c & s' & -> & W). change (B "$^" ++ B "." ++ ?x) with (B "$" ++ B "^." ++ x). cbn [rd]. change (pick prefixes (B "$" ++ ?x)) with (@None (unary * str)).
      change (after (B "(") (B "$" ++ ?x)) with (@None str). change (after (B "[") (B "$" ++ ?x)) with (@None str). change (after (B "{") (B "$" ++ ?x)) with (@None str).
      change (after [34] (B "$" ++ ?x)) with (@None str). cbn iota. rewrite after_app. change (after (B "-") (B "^." ++ ?x)) with (@None str). cbn iota.
      change (pick [(B "^.", PSrc); (B "$.", PDst)] (B "^." ++ ?x)) with (Some (PSrc, x)). cbn iota. rewrite word_app by (auto; reflexivity).
      rewrite dotName_app by (auto using tok_noName). apply N. lia.
  - lens cs. apply (word_read KVertex); try reflexivity; try discriminate; assumption.
  - lens cs. apply (word_read KEdge); try reflexivity; try discriminate; assumption.
  - rewrite !andb_true_iff in Pk. destruct Pk as [[L0 E'] I]. apply negb_true_iff in I. subst. lens cs. destruct PO as [n N].
    exists (S n). intros m L. destruct m as [|m]; [lia|]. rewrite <- app_assoc. rewrite rd_dollar by (auto using tok_noName).
    rewrite tok_brace, tok_dot by exact T. apply N. lia.
  - rewrite !andb_true_iff in Pk. destruct Pk as [[Nm V] L0]. subst. lens cs. destruct PO as [n N]. cbn [map]. rewrite <- !app_assoc.
    destruct (reads_ends e (B "}" ++ rest) (R e ltac:(cbn; auto)) (ends_brace _)) as [n1 N1].
    exists (S (n + n1)). intros m L. destruct m as [|m]; [lia|]. rewrite rd_dollar by (auto; reflexivity). rewrite after_app, N1 by lia.
    unfold get'. cbn [get]. rewrite after_app. apply N. lia.
  - destruct cs as [|c cs]; [discriminate|]. apply (list_read KList); auto using ends_square. discriminate.
  - destruct cs as [|c cs]; [discriminate|]. apply (list_read KSet); auto using ends_brace. discriminate.
  - rewrite !andb_true_iff in Pk. destruct Pk as [[[G C] D] L0]. destruct generic, hasCond, hasDefault; try discriminate. lens cs. cbn [map]. rewrite <- !app_assoc.
    destruct PO as [n N].
    destruct (reads_ends e0 (B " ? " ++ pt e1 ++ B " : " ++ pt e ++ B ")" ++ rest) (R e0 ltac:(cbn; auto)) (ends_quest _)) as [n1 N1].
    destruct (reads_ends e1 (B " : " ++ pt e ++ B ")" ++ rest) (R e1 ltac:(cbn; auto)) (ends_colon _)) as [n2 N2].
    destruct (reads_ends e (B ")" ++ rest) (R e ltac:(cbn; auto)) (ends_close _)) as [n3 N3].
    exists (S (n + n1 + n2 + n3)). intros m L. destruct m as [|m]; [lia|]. cbn [rd]. change (pick prefixes (B "(" ++ ?x)) with (@None (unary * str)).
    rewrite after_app, N1 by lia. cbn [get]. change (pick binaries (B " ? " ++ ?x)) with (@None (kind * str)). change (pick logics (B " ? " ++ ?x)) with (@None (logic * str)).
    cbn iota. rewrite after_app, N2 by lia. unfold get'. cbn [get]. rewrite after_app, N3 by lia. cbn [get]. rewrite after_app. apply N. lia.
Qed.
(** so two plain trees with one text are one tree *)
Lemma pt_inj a b : plain a = true -> plain b = true -> pt a = pt b -> a = b.
Proof.
  intros Pa Pb E. assert (N : ends []) by ends_lit.
  destruct (reads_ends a [] (plain_reads a Pa) N) as [n1 N1]. destruct (reads_ends b [] (plain_reads b Pb) N) as [n2 N2].
  rewrite E in N1. specialize (N1 (n1 + n2)%nat ltac:(lia)). specialize (N2 (n1 + n2)%nat ltac:(lia)). congruence.
Qed.

(** * Which trees print *)
Definition rets {A} (o : outcome A) : Prop := exists s, o = Ret s.
Lemma rets_bind {A C} (o : outcome A) (f : A -> outcome C) (P : Prop) : (forall a, rets (f a) <-> P) -> rets (obind o f) <-> rets o /\ P.
Proof.
  intros H. unfold rets. destruct o as [a| | |]; cbn [obind].
  - split; [intros E; split; [eauto|now apply (H a)]|intros [_ E]; now apply (H a)].
  - split; [intros [s E]; discriminate|intros [[s E] _]; discriminate].
  - split; [intros [s E]; discriminate|intros [[s E] _]; discriminate].
  - split; [intros [s E]; discriminate|intros [[s E] _]; discriminate].
Qed.
Lemma rets_ret {A} (a : A) : rets (Ret a) <-> True. Proof. split; [auto|]. intros _. now exists a. Qed.
Lemma rets_ub {A} : rets (@UB A) <-> False. Proof. split; [intros [s E]; discriminate|tauto]. Qed.
Lemma rets_fatal {A} : rets (@Fatal A) <-> False. Proof. split; [intros [s E]; discriminate|tauto]. Qed.
Lemma rets_list {A} (l : list (outcome A)) : rets (obindList l) <-> Forall rets l.
Proof.
  induction l as [|o l IH]; [split; [constructor|intros _; now exists []]|]. cbn [obindList]. fold (@obindList A). rewrite Forall_cons_iff, <- IH.
  etransitivity; [apply rets_bind; intros a; apply rets_bind; intros b; apply rets_ret|]. tauto.
Qed.
(** what follows may depend on the number of texts only *)
Lemma rets_bind_list {A C} (l : list (outcome A)) (f : list A -> outcome C) (P : Prop) :
  (forall ts, List.length ts = List.length l -> rets (f ts) <-> P) -> rets (obind (obindList l) f) <-> Forall rets l /\ P.
Proof.
  intros H. rewrite <- rets_list.
  assert (G : forall ts, obindList l = Ret ts -> List.length ts = List.length l).
  { clear. induction l as [|o l IH]; intros ts E; [inversion E; reflexivity|]. cbn [obindList] in E. fold (@obindList A) in E. destruct o; try discriminate. cbn [obind] in E.
    destruct (obindList l) as [r| | |]; try discriminate. inversion E. cbn. now rewrite (IH r). }
  unfold rets in *. destruct (obindList l) as [ts| | |] eqn:E; cbn [obind].
  - specialize (H ts (G ts eq_refl)). split; [intros K; split; [eauto|now apply H]|intros [_ K]; now apply H].
  - split; [intros [s K]; discriminate|intros [[s K] _]; discriminate].
  - split; [intros [s K]; discriminate|intros [[s K] _]; discriminate].
  - split; [intros [s K]; discriminate|intros [[s K] _]; discriminate].
Qed.
Lemma hasText_node k cs : hasText (Node k cs) <-> canPrint k cs /\ Forall hasText (shown k cs).
Proof. split; [intros H; inversion H; subst; auto|intros [? ?]; now constructor]. Qed.
Lemma casesText_ret ts : rets (casesText ts) <-> pairwise ts.
Proof.
  assert (G : forall n ts, (List.length ts <= n)%nat -> rets (casesText ts) <-> pairwise ts).
  { clear ts. induction n as [|n IH]; intros ts L; (destruct ts as [|w [|t ts]]; cbn in L; try lia).
    1,2: cbn; apply rets_ret. 1: apply rets_ub.
    cbn [casesText pairwise]. rewrite <- (IH ts) by lia. etransitivity; [apply rets_bind; intros a; apply rets_ret|]. tauto. }
  apply (G (List.length ts)). lia.
Qed.
Lemma pairwise_len {A C} (l : list A) : forall (m : list C), List.length l = List.length m -> pairwise l <-> pairwise m.
Proof.
  assert (G : forall n (l : list A) (m : list C), (List.length l <= n)%nat -> List.length l = List.length m -> pairwise l <-> pairwise m).
  { clear l. induction n as [|n IH]; intros l m L E; (destruct l as [|x [|y l]], m as [|u [|v m]]; cbn in L, E; try lia; cbn; try tauto). apply IH; lia. }
  intros m. apply (G (List.length l)). lia.
Qed.
Lemma Forall_rets X cs : (forall c, In c cs -> rets (exprText X c) <-> hasText c) -> Forall rets (map (exprText X) cs) <-> Forall hasText cs.
Proof.
  intros T. rewrite !Forall_forall. split; intros H c Hc.
  - apply T; [exact Hc|]. apply H, in_map, Hc.
  - apply in_map_iff in Hc as (e & <- & He). apply T; auto.
Qed.
Ltac binds := repeat first [apply rets_ret|apply rets_ub|apply rets_fatal|apply rets_bind; intros ?].
Ltac arity cs := destruct cs as [|? [|? [|? [|? cs]]]].
Ltac kids T := rewrite ?Forall_cons_iff, ?T by (cbn; auto 6).
Ltac wrong := etransitivity; [apply rets_ub|]; cbn; split; [tauto|intros [? ?]; lia].
Lemma text_defined X e : rets (exprText X e) <-> hasText e.
Proof.
  induction e as [k cs IH] using expr_ind'. rewrite Forall_forall in IH. rewrite hasText_node. cbn [exprText].
  assert (FR := Forall_rets X cs IH). pose proof (Forall_nil hasText) as FN. pose proof (map_length (exprText X) cs) as ML.
  destruct k; cbn [textNode canPrint shown].
  - rewrite rets_ret. tauto.
  - arity cs; try wrong. cbn [map]. etransitivity; [binds|]. kids IH. cbn. tauto.
  - arity cs; try wrong. cbn [map]. etransitivity; [binds|]. kids IH. cbn. tauto.
  - arity cs; try wrong. cbn [map]. etransitivity; [binds|]. kids IH. cbn. tauto.
  - arity cs; try wrong. cbn [map]. etransitivity; [binds|]. kids IH. cbn. tauto.
  - arity cs; destruct hasLo, hasHi; try wrong; cbn [map]; (etransitivity; [binds|]); kids IH; cbn; intuition lia.
  - arity cs; try (etransitivity; [apply rets_ub|]; split; [tauto|intros [(? & ? & E & _) _]; discriminate]). cbn [map].
    destruct e0 as [[] cs']; try (etransitivity; [binds|]; kids IH; split; [tauto|intros [(l & r & E & C) _]; inversion E; subst; destruct C]).
    etransitivity; [binds|]. cbn [firstn]. kids IH. split; [intros [H _]; splits; auto; do 2 eexists; split; [reflexivity|exact I]|tauto].
  - arity cs; try (etransitivity; [apply rets_ub|]; split; [tauto|intros [(? & ? & E & _) _]; discriminate]). cbn [map].
    destruct e0 as [[] cs']; try (etransitivity; [binds|]; kids IH; split; [tauto|intros [(l & r & E & C) _]; inversion E; subst; destruct C]).
    etransitivity; [binds|]. cbn [firstn]. kids IH. split; [intros [H _]; splits; auto; do 2 eexists; split; [reflexivity|exact I]|tauto].
  - rewrite rets_ret. tauto.
  - etransitivity; [apply (rets_bind_list _ _ (cs <> []))|tauto]. intros ts L. destruct ts, cs; try discriminate; [rewrite rets_ub|rewrite rets_ret]; intuition congruence.
  - arity cs; try wrong. cbn [map]. etransitivity; [binds|]. kids IH. cbn. tauto.
  - etransitivity; [apply (rets_bind_list _ _ True)|tauto]. intros ts L. apply rets_ret.
  - rewrite rets_ret. tauto.
  - rewrite rets_ret. tauto.
  - rewrite rets_ret. tauto.
  - rewrite rets_ret. tauto.
  - rewrite rets_ret. tauto.
  - destruct name as [|x name]; [rewrite rets_ret; intuition congruence|]. destruct hasVersion; [|rewrite rets_ret; intuition congruence].
    arity cs; cbn [map]; try (rewrite rets_ub; split; [tauto|intros [H _]; specialize (H ltac:(discriminate) eq_refl); discriminate]).
    etransitivity; [binds|]. kids IH. cbn. tauto.
  - etransitivity; [apply (rets_bind_list _ _ True)|tauto]. intros ts L. apply rets_ret.
  - etransitivity; [apply (rets_bind_list _ _ True)|tauto]. intros ts L. apply rets_ret.
  - etransitivity; [apply (rets_bind_list _ _ True)|tauto]. intros ts L. apply rets_ret.
  - rewrite rets_ret. tauto.
  - destruct generic.
    + etransitivity; [apply (rets_bind_list _ _ (exists p q, cs = p ++ q /\ List.length p = (bit hasCond + bit hasDefault)%nat /\ pairwise q))|tauto].
      intros ts L. rewrite ML in L.
      destruct hasCond, hasDefault; cbn [bit Nat.add].
      * destruct ts as [|x [|y ts]], cs as [|c [|d cs]]; try discriminate; try (rewrite rets_ub; split; [tauto|intros (p & q & E & Lp & _); destruct p as [|? [|? p]]; discriminate]).
        etransitivity; [apply rets_bind; intros w; apply rets_ret|]. rewrite casesText_ret, (pairwise_len ts cs) by (cbn in L; lia). split.
        -- intros [H _]. exists [c; d], cs. auto.
        -- intros (p & q & E & Lp & H). destruct p as [|? [|? [|? p]]]; try discriminate. inversion E; subst. auto.
      * destruct ts as [|x ts], cs as [|c cs]; try discriminate; try (rewrite rets_ub; split; [tauto|intros (p & q & E & Lp & _); destruct p as [|? [|? p]]; discriminate]).
        etransitivity; [apply rets_bind; intros w; apply rets_ret|]. rewrite casesText_ret, (pairwise_len ts cs) by (cbn in L; lia). split.
        -- intros [H _]. exists [c], cs. auto.
        -- intros (p & q & E & Lp & H). destruct p as [|? [|? [|? p]]]; try discriminate. inversion E; subst. auto.
      * destruct ts as [|x ts], cs as [|c cs]; try discriminate; try (rewrite rets_ub; split; [tauto|intros (p & q & E & Lp & _); destruct p as [|? [|? p]]; discriminate]).
        etransitivity; [apply rets_bind; intros w; apply rets_ret|]. rewrite casesText_ret, (pairwise_len ts cs) by (cbn in L; lia). split.
        -- intros [H _]. exists [c], cs. auto.
        -- intros (p & q & E & Lp & H). destruct p as [|? [|? [|? p]]]; try discriminate. inversion E; subst. auto.
      * etransitivity; [apply rets_bind; intros w; apply rets_ret|]. rewrite casesText_ret, (pairwise_len ts cs) by (cbn in L; lia). split.
        -- intros [H _]. exists [], cs. auto.
        -- intros (p & q & E & Lp & H). destruct p as [|? [|? [|? p]]]; try discriminate. cbn in E. subst. auto.
    + destruct hasDefault; [|rewrite rets_ub; split; [tauto|intros [[E _] _]; discriminate]].
      destruct hasCond; cbn [bit Nat.add].
      * destruct cs as [|x cs]; [rewrite rets_ub; cbn; intuition lia|]. cbn [map tl skipn].
        destruct cs as [|? [|? [|? cs]]]; cbn [map]; try (rewrite rets_ub; cbn; intuition lia). etransitivity; [binds|]. cbn [firstn]. kids IH. cbn. intuition lia.
      * cbn [skipn].
        destruct cs as [|? [|? [|? cs]]]; cbn [map]; try (rewrite rets_ub; cbn; intuition lia). etransitivity; [binds|]. cbn [firstn]. kids IH. cbn. intuition lia.
  - destruct cs as [|c cs]; [rewrite rets_ub; cbn; intuition (try congruence; lia)|]. cbn [map]. destruct (strEqb name (B "exists")) eqn:S0.
    + apply strEqb_iff in S0. etransitivity; [binds|]. cbn [firstn]. kids IH. intuition congruence.
    + assert (name <> B "exists") by (intros E; apply strEqb_iff in E; congruence).
      destruct hasFilter; [|etransitivity; [binds|]; intuition congruence].
      destruct cs as [|f [|g cs]]; cbn [map]; try (etransitivity; [binds|]; cbn; intuition (try lia; congruence)).
      etransitivity; [binds|]. kids IH. cbn. intuition.
  - destruct cs as [|c cs]; [wrong|]. cbn [map]. rewrite Forall_cons_iff, <- (IH c) by (cbn; auto). cbn [map] in FR. rewrite !Forall_cons_iff, <- (IH c) in FR by (cbn; auto).
    etransitivity; [apply rets_bind; intros a; apply (rets_bind_list _ _ (List.length (c :: cs) = (1 + bit hasFilter + bit hasMapping)%nat))|intuition].
    intros ts L. rewrite map_length in L. cbn [List.length]. rewrite <- L.
    destruct hasFilter, hasMapping; destruct ts as [|? [|? [|? ts]]]; cbn [bit List.length Nat.add]; first [rewrite rets_ub|rewrite rets_ret]; intuition lia.
  - arity cs; try wrong. cbn [map]. etransitivity; [binds|]. kids IH. cbn. tauto.
  - etransitivity; [apply (rets_bind_list _ _ True)|tauto]. intros ts L. apply rets_ret.
  - arity cs; try wrong. cbn [map]. destruct (constStr e) as [s|] eqn:CS.
    + assert (hasText e). { destruct e as [[] cs']; try discriminate. constructor; cbn; auto. }
      etransitivity; [binds|]. rewrite Forall_cons_iff. cbn. intuition.
    + etransitivity; [binds|]. kids IH. cbn. tauto.
  - rewrite rets_ub. tauto.
Qed.

(** * Trees that are equal *)
Lemma text_erase X e : noDistinct e -> exprText X (erase e) = exprText X e.
Proof.
  induction e as [k cs IH] using expr_ind'. unfold noDistinct. intros N. cbn [allNodes] in N. destruct N as [Nk Nc]. apply fold_and_Forall in Nc. cbn [erase exprText].
  assert (M : map (exprText X) (map erase cs) = map (exprText X) cs).
  { rewrite map_map. apply map_ext_in. intros c Hc. rewrite Forall_forall in IH, Nc. apply IH; [exact Hc|]. apply Nc, Hc. }
  rewrite M. clear M IH Nc. set (ts := map (exprText X) cs). clearbody ts.
  destruct k; cbn [bare]; try reflexivity; try (subst; destruct ts as [|? [|? [|? ts]]]; try reflexivity).
  - destruct cs as [|a [|[[] cs'] [|c cs]]]; reflexivity.
  - destruct cs as [|a [|[[] cs'] [|c cs]]]; reflexivity.
  - destruct cs as [|[[] cs'] [|b cs]]; reflexivity.
Qed.
Lemma complete_hasText e : built e -> allNodes completeNode e -> hasText e.
Proof.
  induction e as [k cs IH] using expr_ind'. intros [Bk Bc] [Ck Cc]. rewrite fold_and_Forall in Bc, Cc. rewrite Forall_forall in IH, Bc, Cc.
  assert (F : Forall hasText cs) by (apply Forall_forall; intros c Hc; apply IH; [exact Hc|apply Bc, Hc|apply Cc, Hc]). clear IH Bc Cc.
  assert (FF : forall n l, Forall hasText l -> Forall hasText (firstn n l)).
  { intros n l H. rewrite Forall_forall in *. intros c Hc. apply H. rewrite <- (firstn_skipn n l). apply in_or_app. now left. }
  assert (FS : forall n l, Forall hasText l -> Forall hasText (skipn n l)).
  { intros n l H. rewrite Forall_forall in *. intros c Hc. apply H. rewrite <- (firstn_skipn n l). apply in_or_app. now right. }
  constructor.
  - destruct k; cbn in *; auto; try tauto.
    destruct Ck as [E|E]; [left; split; [exact E|]|].
    + intros ->. destruct hasFilter; discriminate.
    + subst. destruct (strEqb name (B "exists")) eqn:S0; [apply strEqb_iff in S0; subst; left; split; [reflexivity|intros ->; discriminate]|].
      right. splits; [|reflexivity|exact Bk]. intros E. rewrite E, (proj2 (strEqb_iff _ _) eq_refl) in S0. discriminate.
  - destruct k; cbn [shown]; auto.
    + destruct name, hasVersion; auto.
    + destruct generic; auto.
    + destruct (strEqb name (B "exists")); auto.
Qed.
