(** The text of an expression: toString() and rawString() of the classes in /repo/src/common/expression.
    UB where a pointer that is missing is dereferenced, operator[] or front() meets nothing, or an object is taken for one of another
    class; Fatal where a CHECK fails. Texts of constants are those of ValueModel. *)
From Verif Require Import Prelude ValueBase DateModel TimeModel ValueModel ExprModel CloneModel.
From Coq Require Import String List.
Import ListNotations.
Local Open Scope string_scope.
Local Open Scope list_scope.
Local Open Scope Z_scope.

(** ArithmeticExpression.cpp:39-63 *)
Definition arithSym (o : arith) : str :=
  match o with OAdd => B "+" | OMinus => B "-" | OMultiply => B "*" | ODivision => B "/" | OMod => B "%" end.
(** RelationalExpression.cpp:215-265 *)
Definition relSym (o : rel) : str :=
  match o with
  | OLT => B "<" | OLE => B "<=" | OGT => B ">" | OGE => B ">=" | OEQ => B "==" | ONE => B "!=" | OREG => B "=~"
  | OIn => B " IN " | ONotIn => B " NOT IN " | OContains => B " CONTAINS " | ONotContains => B " NOT CONTAINS "
  | OStartsWith => B " STARTS WITH " | ONotStartsWith => B " NOT STARTS WITH "
  | OEndsWith => B " ENDS WITH " | ONotEndsWith => B " NOT ENDS WITH "
  end.
(** LogicalExpression.cpp:107-121 *)
Definition logicSym (o : logic) : str := match o with OAnd => B " AND " | OOr => B " OR " | OXor => B " XOR " end.
(** UnaryExpression.cpp:101-133, given the text of the operand *)
Definition unaryText (o : unary) (e : str) : str :=
  match o with
  | OPlus => B "+(" ++ e ++ B ")" | ONegate => B "-(" ++ e ++ B ")" | ONot => B "!(" ++ e ++ B ")"
  | OIncr => B "++(" ++ e ++ B ")" | ODecr => B "--(" ++ e ++ B ")"
  | OIsNull => e ++ B " IS NULL" | OIsNotNull => e ++ B " IS NOT NULL"
  | OIsEmpty => e ++ B " IS EMPTY" | OIsNotEmpty => e ++ B " IS NOT EMPTY"
  end.
(** operator<<(ostream, Value::Type), Value.cpp:1838-1912 *)
Definition typeText (t : Z) : str :=
  if t =? 1 then B "__EMPTY__" else if t =? 9223372036854775808 then B "NULL" else if t =? 2 then B "BOOL" else if t =? 4 then B "INT"
  else if t =? 8 then B "FLOAT" else if t =? 16 then B "STRING" else if t =? 32 then B "DATE" else if t =? 64 then B "TIME"
  else if t =? 128 then B "DATETIME" else if t =? 256 then B "VERTEX" else if t =? 512 then B "EDGE" else if t =? 1024 then B "PATH"
  else if t =? 2048 then B "LIST" else if t =? 4096 then B "MAP" else if t =? 8192 then B "SET" else if t =? 16384 then B "DATASET"
  else B "__UNKNOWN__".
(** PropertyExpression::toString, PropertyExpression.cpp:142-160, and that of VariablePropertyExpression, 162-178 *)
Definition dotted (s : str) : str := match s with [] => [] | _ => s ++ B "." end.
Definition propText (p : prop) (ref sym pr : str) : str :=
  match p with PVar => ref ++ dotted sym ++ pr | _ => dotted ref ++ dotted sym ++ pr end.
(** The loops of ContainerExpression.cpp:15-29, 87-101, 159-175 and PathBuildExpression.cpp:121-132: a comma after each item, and then the last
    character is overwritten. Of nothing, this is the last character of the beginning. *)
Definition itemsText (first : str) (last : Z) (items : list str) : str :=
  removelast (first ++ flat_map (fun t => t ++ B ",") items) ++ [last].
Fixpoint entries (keys : list str) (ts : list str) : list str :=
  match keys, ts with k :: ks, t :: ts' => (k ++ B ":" ++ t) :: entries ks ts' | _, _ => [] end.
(** WHEN and THEN, CaseExpression.cpp:94-99 *)
Fixpoint casesText (ts : list str) : outcome str :=
  match ts with
  | [] => Ret []
  | w :: t :: ts' => let* r := casesText ts' in Ret (B " WHEN " ++ w ++ B " THEN " ++ t ++ r)
  | _ => UB
  end.
(** whether a node is a constant, and its text if that is a string *)
Definition constStr (e : expr) : option str := match kindOf e with KConst (VStr s) => Some s | _ => None end.

Section Text.
Variable X : externals.
(** toString() of each class, given the sub-expressions and how they print; [ts] is as long as [cs] *)
Definition textNode (k : kind) (cs : list expr) (ts : list (outcome str)) : outcome str :=
  match k, ts with
  | KConst v, _ => Ret (vstr X v)                                                                  (* ConstantExpression.cpp:42-46 *)
  | KArith o, [l; r] => let* a := l in let* b := r in Ret (B "(" ++ a ++ arithSym o ++ b ++ B ")")
  | KRel o, [l; r] => let* a := l in let* b := r in Ret (B "(" ++ a ++ relSym o ++ b ++ B ")")     (* RelationalExpression.cpp:266-269 *)
  | KUnary o, [e] => let* a := e in Ret (unaryText o a)
  | KSubscript, [l; r] => let* a := l in let* b := r in Ret (a ++ B "[" ++ b ++ B "]")             (* SubscriptExpression.cpp:106-114 *)
  | KRange lo hi, l :: bs =>                                                                       (* SubscriptExpression.cpp:189-203 *)
      let* a := l in
      match lo, hi, bs with
      | true, true, [x; y] => let* x := x in let* y := y in Ret (a ++ B "[" ++ x ++ B ".." ++ y ++ B "]")
      | true, false, [x] => let* x := x in Ret (a ++ B "[" ++ x ++ B "..]")
      | false, true, [y] => let* y := y in Ret (a ++ B "[.." ++ y ++ B "]")
      | false, false, [] => Ret (a ++ B "[..]")
      | _, _, _ => UB
      end
  | KAttr, [l; r] =>                                                                               (* AttributeExpression.cpp:76-90 *)
      match cs with
      | [_; Node (KConst v) _] => let* a := l in Ret (a ++ B "." ++ match v with VStr s => s | _ => vstr X v end)
      | [_; Node (KLabel _) _] => let* a := l in UB     (* the label is taken for a constant *)
      | _ => Fatal
      end
  | KLabelAttr, [l; r] =>                                                                          (* LabelAttributeExpression.cpp:13-18 *)
      match cs with
      | [_; Node (KConst v) _] => let* a := l in Ret (a ++ B "." ++ match v with VStr s => s | _ => vstr X v end)
      | _ => UB
      end
  | KColumn i, _ => Ret (B "COLUMN[" ++ decZ i ++ B "]")                                           (* ColumnExpression.cpp:26-30 *)
  | KLogical o, _ => let* ts := obindList ts in                                                    (* LogicalExpression.cpp:122-134 *)
      match ts with [] => UB | _ => Ret (B "(" ++ joinStr (logicSym o) ts ++ B ")") end
  | KCast t, [e] => let* a := e in Ret (B "(" ++ typeText t ++ B ")" ++ a)                         (* TypeCastingExpression.cpp:130-134 *)
  | KCall name, _ => let* ts := obindList ts in Ret (name ++ B "(" ++ joinStr (B ",") ts ++ B ")") (* FunctionCallExpression.cpp:85-94 *)
  | KProp p ref sym pr, _ => Ret (propText p ref sym pr)
  | KVertex, _ => Ret (B "VERTEX") | KEdge, _ => Ret (B "EDGE")                                    (* VertexExpression.h:35-37, EdgeExpression.h:37-39 *)
  | KUUID f, _ => Ret (B "uuid(""" ++ cstr f ++ B """)")                                           (* UUIDExpression.cpp:45-47 *)
  | KVar s _, _ => Ret (match s with [] => [] | _ => B "$" ++ s end)                               (* VariableExpression.cpp:44-52 *)
  | KVersioned s v, _ =>                                                                           (* VariableExpression.cpp:54-65 *)
      match s, v, ts with
      | [], _, _ => Ret []
      | _, false, _ => Ret (B "$" ++ s)
      | _, true, [e] => let* a := e in Ret (B "$" ++ s ++ B "{" ++ a ++ B "}")
      | _, _, _ => UB
      end
  | KList, _ => let* ts := obindList ts in Ret (itemsText (B "[") 93 ts)
  | KSet, _ => let* ts := obindList ts in Ret (itemsText (B "{") 125 ts)
  | KMap keys, _ => let* ts := obindList ts in Ret (itemsText (B "{") 125 (entries keys ts))
  | KPathBuild, _ => let* ts := obindList ts in Ret (itemsText (B "PathBuild[") 93 ts)
  | KLabel s, _ => Ret s                                                                           (* LabelExpression.cpp:17-19 *)
  | KCase true c d, _ =>                                                                           (* CaseExpression.cpp:84-116 *)
      let* ts := obindList ts in
      match c, d, ts with
      | true, true, x :: y :: r => let* w := casesText r in Ret (B "CASE " ++ x ++ w ++ B " ELSE " ++ y ++ B " END")
      | true, false, x :: r => let* w := casesText r in Ret (B "CASE " ++ x ++ w ++ B " END")
      | false, true, y :: r => let* w := casesText r in Ret (B "CASE" ++ w ++ B " ELSE " ++ y ++ B " END")
      | false, false, r => let* w := casesText r in Ret (B "CASE" ++ w ++ B " END")
      | _, _, _ => UB
      end
  | KCase false c d, _ =>
      match d, (if c then tl ts else ts) with
      | true, y :: w :: t :: _ => let* w := w in let* t := t in let* y := y in Ret (B "(" ++ w ++ B " ? " ++ t ++ B " : " ++ y ++ B ")")
      | _, _ => UB
      end
  | KPredicate n iv _ f, coll :: r =>                                                              (* PredicateExpression.cpp:243-261 *)
      if strEqb n (B "exists") then let* a := coll in Ret (n ++ B "(" ++ a ++ B ")")
      else let* a := coll in
           match f, r with
           | true, [e] => let* e := e in Ret (n ++ B "(" ++ iv ++ B " IN " ++ a ++ B " WHERE " ++ e ++ B ")")
           | _, _ => UB
           end
  | KListComp iv _ f m, coll :: r =>                                                               (* ListComprehensionExpression.cpp:142-161 *)
      let* a := coll in
      let* r := obindList r in
      match f, m, r with
      | true, true, [x; y] => Ret (B "[" ++ iv ++ B " IN " ++ a ++ B " WHERE " ++ x ++ B " | " ++ y ++ B "]")
      | true, false, [x] => Ret (B "[" ++ iv ++ B " IN " ++ a ++ B " WHERE " ++ x ++ B "]")
      | false, true, [y] => Ret (B "[" ++ iv ++ B " IN " ++ a ++ B " | " ++ y ++ B "]")
      | false, false, [] => Ret (B "[" ++ iv ++ B " IN " ++ a ++ B "]")
      | _, _, _ => UB
      end
  | KReduce acc iv _, [i; coll; m] =>                                                              (* ReduceExpression.cpp:107-125 *)
      let* i := i in let* a := coll in let* m := m in
      Ret (B "reduce(" ++ acc ++ B " = " ++ i ++ B ", " ++ iv ++ B " IN " ++ a ++ B " | " ++ m ++ B ")")
  | KAggregate n d, [e] =>                                                                         (* AggregateExpression.cpp:60-80 *)
      let* a := match cs with [c] => match constStr c with Some s => Ret s | None => e end | _ => e end in
      Ret (n ++ B "(" ++ (if d then B "distinct " else []) ++ a ++ B ")")
  | KTextSearch _, _ => UB                    (* the argument is no part of the tree: [searchText] *)
  | _, _ => UB
  end.
Fixpoint exprText (e : expr) : outcome str := match e with Node k cs => textNode k cs (map exprText cs) end.
(** rawString, Expression.h:140-142, PredicateExpression.h:44-46, ListComprehensionExpression.h:36-38, ReduceExpression.h:35-37 *)
Definition rawText (e : expr) : outcome str :=
  match kindOf e with
  | KPredicate _ _ org _ | KListComp _ org _ _ | KReduce _ _ org => match org with [] => exprText e | _ => Ret org end
  | _ => exprText e
  end.
End Text.

(** TextSearchArgument::toString, TextSearchExpression.cpp:20-40 *)
Definition searchArgText (a : tsArg) : str :=
  let op := if strEqb (tsOp a) (B "or") then B "OR" else B "AND" in
  tsFrom a ++ B "." ++ tsProp a ++ B ", " ++ B """" ++ tsVal a ++ B """" ++
  (if tsFuzz a =? -1 then B ", AUTO, " ++ op else if -1 <? tsFuzz a then B ", " ++ decZ (tsFuzz a) ++ B ", " ++ op else []) ++
  (if tsLimit a =? -1 then [] else B ", " ++ decZ (tsLimit a)) ++
  (if tsTimeout a =? -1 then [] else B ", " ++ decZ (tsTimeout a)).
(** TextSearchExpression::toString, 51-78; the kinds are 59 to 62, Expression.h:99-102 *)
Definition searchText (k : Z) (a : tsArg) : outcome str :=
  let with_ (s : str) := Ret (s ++ searchArgText a ++ B ")") in
  if k =? 59 then with_ (B "PREFIX(") else if k =? 60 then with_ (B "WILDCARD(") else if k =? 61 then with_ (B "REGEXP(") else if k =? 62 then with_ (B "FUZZY(")
  else Fatal.
