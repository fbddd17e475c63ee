(** Comparing and copying expression trees: operator== and clone() of /repo/src/common/expression/*.{h,cpp}. *)
From Verif Require Import ValueBase DateModel TimeModel ValueModel ExprModel.
From Coq Require Import String.
Local Open Scope string_scope.
Local Open Scope list_scope.
Local Open Scope Z_scope.

Section Eq.
Variable X : externals.

(** The sub-expressions of one side as comparisons against those of the other, one after the other; a pointer that is
    dereferenced and missing is undefined *)
Fixpoint zipEq (fs : list (expr -> outcome bool)) (cs : list expr) : outcome bool :=
  match fs, cs with
  | [], [] => Ret true
  | f :: fs', c :: cs' => let* b := f c in if b then zipEq fs' cs' else Ret false
  | _, _ => UB
  end.
(** containers compare the sizes first *)
Definition sizedEq (fs : list (expr -> outcome bool)) (cs : list expr) : outcome bool :=
  if Nat.eqb (List.length fs) (List.length cs) then zipEq fs cs else Ret false.

(** operator== of each class.  Simplifications: the two trees are different objects (checkPointer, base/CheckPointer.h:12-21,
    and the pointer comparison of text search arguments never meet the same object); flags, names, keys and sizes are all
    compared before the sub-expressions, where some of the classes alternate (a difference only if the comparison of a
    sub-expression is undefined). *)
Definition nodeEq (k k' : kind) (fs : list (expr -> outcome bool)) (cs : list expr) : outcome bool :=
  if negb (kindNo k =? kindNo k') then Ret false
  else
    let both (b : bool) := if b then zipEq fs cs else Ret false in
    match k, k' with
    | KConst v, KConst w => Ret (veq X v w)                                                  (* ConstantExpression.cpp:13-20 *)
    | KArith _, KArith _ | KRel _, KRel _ | KSubscript, KSubscript | KAttr, KAttr => zipEq fs cs   (* BinaryExpression.cpp:11-18 *)
    | KLabelAttr, KLabelAttr => zipEq fs cs                                                  (* LabelAttributeExpression.h:30-36 *)
    | KUnary _, KUnary _ => zipEq fs cs                                                      (* UnaryExpression.cpp:13-20 *)
    | KRange lo hi, KRange lo' hi' => both (Bool.eqb lo lo' && Bool.eqb hi hi')              (* SubscriptExpression.cpp:209-224 *)
    | KColumn i, KColumn j => Ret (i =? j)                                                   (* ColumnExpression.cpp:18-24 *)
    | KLogical _, KLogical _ => sizedEq fs cs                                                (* LogicalExpression.cpp:156-173 *)
    | KCast t, KCast t' => both (t =? t')                                                    (* TypeCastingExpression.cpp:98-105 *)
    | KCall n, KCall n' => if strEqb n n' then sizedEq fs cs else Ret false                  (* FunctionCallExpression.cpp:12-34 *)
    | KProp _ r s p, KProp _ r' s' p' => Ret (strEqb r r' && strEqb s s' && strEqb p p')     (* PropertyExpression.cpp:13-20 *)
    | KVertex, KVertex | KEdge, KEdge => Ret true                                            (* VertexExpression.h:39-41, EdgeExpression.h:41-43 *)
    | KUUID f, KUUID f' => Ret (strEqb f f')                                                 (* UUIDExpression.cpp:12-19 *)
    | KVar s _, KVar s' _ => Ret (strEqb s s')                                               (* VariableExpression.h:32-37 *)
    | KVersioned s v, KVersioned s' v' =>                                                    (* VariableExpression.h:80-91 *)
        if strEqb s s' then (if v && v' then zipEq fs cs else UB) else Ret false
    | KList, KList | KSet, KSet | KPathBuild, KPathBuild => sizedEq fs cs                    (* ContainerExpression.cpp:32-49, 104-121, PathBuildExpression.cpp:102-119 *)
    | KMap ks, KMap ks' => if listEq strEqb ks ks' then sizedEq fs cs else Ret false         (* ContainerExpression.cpp:178-198 *)
    | KLabel s, KLabel s' => Ret (strEqb s s')                                               (* LabelExpression.cpp:21-27 *)
    | KCase g c d, KCase g' c' d' =>                                                         (* CaseExpression.cpp:16-54 *)
        if Bool.eqb g g' && Bool.eqb c c' && Bool.eqb d d' then sizedEq fs cs else Ret false
    | KPredicate n iv _ f, KPredicate n' iv' _ f' =>                                         (* PredicateExpression.cpp:156-192 *)
        both (strEqb n n' && strEqb iv iv' && Bool.eqb f f')
    | KListComp iv _ f m, KListComp iv' _ f' m' =>                                           (* ListComprehensionExpression.cpp:69-103 *)
        both (strEqb iv iv' && Bool.eqb f f' && Bool.eqb m m')
    | KReduce a iv _, KReduce a' iv' _ => both (strEqb a a' && strEqb iv iv')                (* ReduceExpression.cpp:51-78 *)
    | KAggregate n _, KAggregate n' _ =>                                                     (* AggregateExpression.cpp:11-18: *arg_ of both *)
        if strEqb n n' then match fs, cs with _ :: _, _ :: _ => zipEq fs cs | _, _ => UB end else Ret false
    | KTextSearch _, KTextSearch _ => Ret false                                              (* TextSearchExpression.cpp:42-49: compares pointers *)
    | _, _ => UB
    end.
Fixpoint exprEq (a b : expr) {struct a} : outcome bool :=
  match a, b with Node k cs, Node k' cs' => nodeEq k k' (map exprEq cs) cs' end.
End Eq.

(** make() of the property classes, PropertyExpression.h:14-349: the members a constructor fixes *)
Definition madeProp (p : prop) (sym pr : str) : kind :=
  match p with
  | PEdge => KProp PEdge [] sym pr | PTag => KProp PTag [] sym pr
  | PInput => KProp PInput (B "$-") [] pr | PVar => KProp PVar (B "$") sym pr
  | PSrc => KProp PSrc (B "$^") sym pr | PDst => KProp PDst (B "$$") sym pr
  | PEdgeSrc => KProp PEdgeSrc [] sym (B "_src") | PEdgeType => KProp PEdgeType [] sym (B "_type")
  | PEdgeRank => KProp PEdgeRank [] sym (B "_rank") | PEdgeDst => KProp PEdgeDst [] sym (B "_dst")
  end.
(** clone() of each class, given the copies of the sub-expressions *)
Definition cloneNode (k : kind) (cs : list expr) : outcome expr :=
  match k, cs with
  | KConst v, _ => Ret (Node (KConst v) [])                          (* ConstantExpression.h:46-48 *)
  | KProp p _ sym pr, _ => Ret (Node (madeProp p sym pr) [])         (* PropertyExpression.h *)
  | KColumn i, _ => Ret (Node (KColumn i) [])
  | KVar s i, _ => Ret (Node (KVar s i) [])                          (* VariableExpression.h:43-45 *)
  | KVersioned s _, [v] => Ret (Node (KVersioned s true) [v])        (* VariableExpression.h:97-99: version_->clone() *)
  | KVersioned _ _, _ => UB
  | KAggregate n d, [a] => Ret (Node (KAggregate n d) [a])           (* AggregateExpression.h:41-44: arg()->clone() *)
  | KAggregate _ _, _ => UB
  | KCase g c d, cs => Ret (Node (KCase g c d) cs)                   (* CaseExpression.h:122-133 *)
  | KPredicate n iv org f, cs => Ret (Node (KPredicate n iv org f) cs)   (* PredicateExpression.cpp:194-204 *)
  | KListComp iv org f m, cs => Ret (Node (KListComp iv org f m) cs) (* ListComprehensionExpression.cpp:56-67 *)
  | KReduce a iv org, cs => Ret (Node (KReduce a iv org) cs)         (* ReduceExpression.cpp:38-49 *)
  | KUUID f, _ => Ret (Node (KUUID f) [])
  | KLabel s, _ => Ret (Node (KLabel s) [])
  | KVertex, _ => Ret (Node KVertex [])
  | KEdge, _ => Ret (Node KEdge [])
  | k, cs => Ret (Node k cs)                                         (* the other classes copy the kind, the name and every operand *)
  end.
Fixpoint clone (e : expr) : outcome expr :=
  match e with Node k cs => let* ds := obindList (map clone cs) in cloneNode k ds end.

(** TextSearchArgument, TextSearchExpression.h:15-91; the defaults of the members set later *)
Record tsArg := mkTs { tsFrom : str; tsProp : str; tsVal : str; tsOp : str; tsFuzz : Z; tsLimit : Z; tsTimeout : Z }.
Definition tsMake (f p v : str) : tsArg := mkTs f p v [] (-2) 100 200.
Definition tsClone (a : tsArg) : tsArg := tsMake (tsFrom a) (tsProp a) (tsVal a).   (* TextSearchExpression.h:128-131 *)
(** TextSearchArgument::operator==, TextSearchExpression.cpp:12-18 *)
Definition tsArgEq (a b : tsArg) : bool :=
  strEqb (tsVal a) (tsVal b) && strEqb (tsOp a) (tsOp b) && (tsFuzz a =? tsFuzz b) && (tsLimit a =? tsLimit b) && (tsTimeout a =? tsTimeout b).
