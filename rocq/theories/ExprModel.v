(** Expression trees and their wire format.
    /repo/src/common/expression/*.{h,cpp}

    A tree node is a kind (with the members that are not expressions) and the list of its sub-expressions in the order of
    the comment beside each kind.  DCHECKs are off (release build), CHECK and LOG(FATAL) abort. *)
From Verif Require Import ValueBase DateModel TimeModel ValueModel.
Local Open Scope list_scope.
Local Open Scope Z_scope.

(** enum Kind, Expression.h:76-155, grouped by class *)
Inductive arith := OAdd | OMinus | OMultiply | ODivision | OMod.
Inductive unary := OPlus | ONegate | ONot | OIncr | ODecr | OIsNull | OIsNotNull | OIsEmpty | OIsNotEmpty.
Inductive rel := OEQ | ONE | OLT | OLE | OGT | OGE | OREG | OIn | ONotIn | OContains | ONotContains
               | OStartsWith | ONotStartsWith | OEndsWith | ONotEndsWith.
Inductive logic := OAnd | OOr | OXor.
Inductive prop := PTag | PEdge | PInput | PVar | PDst | PSrc | PEdgeSrc | PEdgeType | PEdgeRank | PEdgeDst.

Inductive kind :=
| KConst (v : value)                              (* none *)
| KArith (o : arith)                              (* lhs_, rhs_ *)
| KUnary (o : unary)                              (* operand_ *)
| KRel (o : rel)                                  (* lhs_, rhs_ *)
| KSubscript                                      (* lhs_, rhs_ *)
| KRange (hasLo hasHi : bool)                     (* list_, lo_ if any, hi_ if any *)
| KAttr                                           (* lhs_, rhs_ *)
| KLabelAttr                                      (* lhs_, rhs_ *)
| KColumn (i : Z)                                 (* none; index_ is int32_t *)
| KLogical (o : logic)                            (* operands_ *)
| KCast (t : Z)                                   (* operand_; vType_ *)
| KCall (name : str)                              (* args_ *)
| KProp (p : prop) (ref sym pr : str)             (* none *)
| KVertex | KEdge                                 (* none *)
| KUUID (field : str)                             (* none *)
| KVar (name : str) (inner : bool)                (* none *)
| KVersioned (name : str) (hasVersion : bool)     (* version_ if any *)
| KList | KSet                                    (* items_ *)
| KMap (keys : list str)                          (* the expressions of items_, keys in the same order *)
| KLabel (name : str)                             (* none *)
| KCase (generic hasCond hasDefault : bool)       (* condition_ if any, default_ if any, when, then, when, then, ... *)
| KPredicate (name innerVar origin : str) (hasFilter : bool)     (* collection_, filter_ if any *)
| KListComp (innerVar origin : str) (hasFilter hasMapping : bool)(* collection_, filter_ if any, mapping_ if any *)
| KReduce (acc innerVar origin : str)             (* initial_, collection_, mapping_ *)
| KPathBuild                                      (* items_ *)
| KAggregate (name : str) (distinct : bool)       (* arg_ if any *)
| KTextSearch (k : Z).                            (* not modelled further; 59..62 *)
Inductive expr := Node (k : kind) (cs : list expr).
Definition kindOf (e : expr) : kind := let 'Node k _ := e in k.
Definition childrenOf (e : expr) : list expr := let 'Node _ cs := e in cs.

(** The enumerators as numbers *)
Definition arithNo (o : arith) : Z := match o with OAdd => 1 | OMinus => 2 | OMultiply => 3 | ODivision => 4 | OMod => 5 end.
Definition unaryNo (o : unary) : Z :=
  match o with OPlus => 6 | ONegate => 7 | ONot => 8 | OIncr => 9 | ODecr => 10
             | OIsNull => 64 | OIsNotNull => 65 | OIsEmpty => 66 | OIsNotEmpty => 67 end.
Definition relNo (o : rel) : Z :=
  match o with OEQ => 11 | ONE => 12 | OLT => 13 | OLE => 14 | OGT => 15 | OGE => 16 | OREG => 17 | OIn => 18 | ONotIn => 19
             | OContains => 20 | ONotContains => 21 | OStartsWith => 22 | ONotStartsWith => 23 | OEndsWith => 24 | ONotEndsWith => 25 end.
Definition logicNo (o : logic) : Z := match o with OAnd => 30 | OOr => 31 | OXor => 32 end.
Definition propNo (p : prop) : Z :=
  match p with PTag => 35 | PEdge => 36 | PInput => 37 | PVar => 38 | PDst => 39 | PSrc => 40
             | PEdgeSrc => 41 | PEdgeType => 42 | PEdgeRank => 43 | PEdgeDst => 44 end.
Definition kindNo (k : kind) : Z :=
  match k with
  | KConst _ => 0 | KArith o => arithNo o | KUnary o => unaryNo o | KRel o => relNo o
  | KSubscript => 26 | KAttr => 27 | KLabelAttr => 28 | KColumn _ => 29 | KLogical o => logicNo o
  | KCast _ => 33 | KCall _ => 34 | KProp p _ _ _ => propNo p | KVertex => 45 | KEdge => 46 | KUUID _ => 47
  | KVar _ _ => 48 | KVersioned _ _ => 49 | KList => 50 | KSet => 51 | KMap _ => 52 | KLabel _ => 53
  | KCase _ _ _ => 54 | KPredicate _ _ _ _ => 55 | KListComp _ _ _ _ => 56 | KReduce _ _ _ => 57 | KPathBuild => 58
  | KTextSearch k => k | KAggregate _ _ => 63 | KRange _ _ => 68
  end.

(** Serialization of values (serializer::serialize / deserialize of apache::thrift::CompactSerializer): bytes, and a value with
    the unread rest of the bytes (None: an exception, which ends the process because readValue is noexcept). *)
Record vcodec := mkCodec { venc : value -> list Z; vdec : list Z -> option (value * list Z) }.

Section Codec.
Variable VC : vcodec.

(** Encoder::operator<<, Expression.cpp:56-93; size_t and Value::Type are 8 bytes, little endian *)
Definition encSize (n : Z) : list Z := leBytes 8 n.
Definition encStr (s : str) : list Z := encSize (Z.of_nat (List.length s)) ++ s.
Definition encBool (b : bool) : list Z := venc VC (VBool b).
Definition nonEmpty (s : str) : bool := match s with [] => false | _ => true end.

(** writeTo of each class after the kind byte, given the bytes of the sub-expressions.  Fatal for the classes that refuse;
    UB when a pointer that writeTo dereferences is missing. *)
Definition lenOf {A} (l : list A) : Z := Z.of_nat (List.length l).
Definition encBody (k : kind) (cs : list (list Z)) : outcome (list Z) :=
  match k, cs with
  | KConst v, [] => Ret (venc VC v)                                            (* ConstantExpression.cpp:24-30 *)
  | KArith _, [l; r] | KRel _, [l; r] | KSubscript, [l; r] | KAttr, [l; r] => Ret (l ++ r)   (* BinaryExpression.cpp:21-32 *)
  | KUnary _, [e] => Ret e                                                     (* UnaryExpression.cpp:24-31 *)
  | KRange true true, [l; lo; hi] => Ret (l ++ encSize 2 ++ encSize 0 ++ lo ++ encSize 1 ++ hi)  (* SubscriptExpression.cpp:226-238 *)
  | KRange true false, [l; lo] => Ret (l ++ encSize 1 ++ encSize 0 ++ lo)
  | KRange false true, [l; hi] => Ret (l ++ encSize 1 ++ encSize 1 ++ hi)
  | KRange false false, [l] => Ret (l ++ encSize 1)
  | KLabelAttr, _ => Fatal                                                     (* LabelAttributeExpression.h:79-81 *)
  | KColumn i, [] => Ret (encSize (u64 i))                                     (* ColumnExpression.cpp:36-39 *)
  | KLogical _, cs => Ret (encSize (lenOf cs) ++ concat cs)                    (* LogicalExpression.cpp:140-146 *)
  | KCast t, [e] => Ret (encSize t ++ e)                                       (* TypeCastingExpression.cpp:108-118 *)
  | KCall name, cs => Ret (encStr name ++ encSize (lenOf cs) ++ concat cs)     (* FunctionCallExpression.cpp:38-56 *)
  | KProp _ ref sym pr, [] => Ret (encStr ref ++ encStr sym ++ encStr pr)      (* PropertyExpression.cpp:23-35 *)
  | KVertex, [] | KEdge, [] => Ret []                                          (* VertexExpression.h:46-48, EdgeExpression.h:48-50 *)
  | KUUID f, [] => if nonEmpty f then Ret (encStr f) else Fatal                (* UUIDExpression.cpp:23-30 *)
  | KVar s _, [] => Ret (encStr s)                                             (* VariableExpression.cpp:20-24 *)
  | KVersioned _ _, _ => Fatal                                                 (* VariableExpression.h:107-109 *)
  | KList, cs | KSet, cs | KPathBuild, cs => Ret (encSize (lenOf cs) ++ concat cs)   (* ContainerExpression.cpp:66-72, 138-144, PathBuildExpression.cpp:146-152 *)
  | KMap keys, cs => Ret (encSize (lenOf cs) ++ concat (map (fun p => encStr (fst p) ++ snd p) (combine keys cs)))  (* ContainerExpression.cpp:215-222 *)
  | KLabel s, [] => Ret (encStr s)                                             (* LabelExpression.cpp:30-36 *)
  | KCase g c d, cs =>                                                         (* CaseExpression.cpp:118-134 *)
      let nopt := ((if c then 1 else 0) + (if d then 1 else 0))%nat in
      Ret (encBool g ++ encBool c ++ encBool d ++ encSize (Z.of_nat ((List.length cs - nopt) / 2)) ++ concat cs)
  | KPredicate name iv org f, coll :: rest =>                                  (* PredicateExpression.cpp:206-223 *)
      Ret (encBool (nonEmpty iv) ++ encBool f ++ encBool (nonEmpty org) ++ encStr name ++
           (if nonEmpty iv then encStr iv else []) ++ coll ++ concat rest ++ (if nonEmpty org then encStr org else []))
  | KListComp iv org f m, coll :: rest =>                                      (* ListComprehensionExpression.cpp:105-122 *)
      Ret (encBool f ++ encBool m ++ encBool (nonEmpty org) ++ encStr iv ++ coll ++ concat rest ++
           (if nonEmpty org then encStr org else []))
  | KReduce acc iv org, [init; coll; mp] =>                                    (* ReduceExpression.cpp:80-92 *)
      Ret (encBool (nonEmpty org) ++ encStr acc ++ init ++ encStr iv ++ coll ++ mp ++ (if nonEmpty org then encStr org else []))
  | KAggregate name d, cs => Ret (encStr name ++ encBool d ++ concat cs)       (* AggregateExpression.cpp:20-27 *)
  | KTextSearch _, _ => Fatal                                                  (* TextSearchExpression.h:151-153 *)
  | _, _ => UB
  end.

Definition obindList {A} : list (outcome A) -> outcome (list A) :=
  fix go l := match l with [] => Ret [] | x :: l' => obind x (fun a => obind (go l') (fun r => Ret (a :: r))) end.
(** Expression::encode, Expression.cpp:184-188: the kind is written as one byte *)
Fixpoint encode (e : expr) : outcome (list Z) :=
  match e with
  | Node k cs => obind (obindList (map encode cs)) (fun bs => obind (encBody k bs) (fun b => Ret (kindNo k mod 256 :: b)))
  end.

(** The decoder: bytes not yet read.  *)
Definition dec (A : Type) := list Z -> outcome (A * list Z).
Definition dret {A} (a : A) : dec A := fun b => Ret (a, b).
Definition dbind {A C} (m : dec A) (f : A -> dec C) : dec C :=
  fun b => match m b with Ret (a, b') => f a b' | Fatal => Fatal | UB => UB | Diverge => Diverge end.
Definition dfail {A} : dec A := fun _ => Fatal.

Fixpoint leVal (l : list Z) : Z := match l with [] => 0 | x :: l' => x + 256 * leVal l' end.
(** readKind, Expression.cpp:116-124 *)
Definition readKind : dec Z := fun b => match b with [] => Fatal | k :: b' => Ret (k, b') end.
(** readSize 158-163 and readValueType 166-171: no bounds check *)
Definition readSize : dec Z :=
  fun b => if (List.length b <? 8)%nat then UB else Ret (leVal (firstn 8 b), skipn 8 b).
(** readStr 127-145; the pointer sum in the second CHECK overflows for a size of 2^63 or more *)
Definition readStr : dec str :=
  fun b => if (List.length b <? 8)%nat then Fatal
           else let sz := leVal (firstn 8 b) in
                let r := skipn 8 b in
                if 2 ^ 63 <=? sz then UB
                else if Z.of_nat (List.length r) <? sz then Fatal
                else Ret (firstn (Z.to_nat sz) r, skipn (Z.to_nat sz) r).
(** readValue 148-155 *)
Definition readValue : dec value := fun b => match vdec VC b with Some (v, b') => Ret (v, b') | None => Fatal end.
(** readValue().getBool(): CHECK_EQ on the type, Value.cpp:398 *)
Definition readBool : dec bool := dbind readValue (fun v => match v with VBool b => dret b | _ => dfail end).
Definition readInt : dec Z := dbind readValue (fun v => match v with VInt z => dret z | _ => dfail end).
Definition readOpt {A} (b : bool) (m : dec A) : dec (option A) := if b then dbind m (fun a => dret (Some a)) else dret None.

Section Node.
Variable readE : dec expr.
(** A loop reading n items; every item takes at least a byte, so the number of bytes left bounds the iterations *)
Fixpoint readMany {A} (item : dec A) (fuel : nat) (n : Z) : dec (list A) :=
  if n <=? 0 then dret []
  else match fuel with
       | O => fun _ => Diverge
       | S f => dbind item (fun a => dbind (readMany item f (n - 1)) (fun l => dret (a :: l)))
       end.
Definition readPair : dec (expr * expr) := dbind readE (fun w => dbind readE (fun t => dret (w, t))).
Definition readEntry : dec (str * expr) := dbind readStr (fun s => dbind readE (fun e => dret (s, e))).
Definition opt1 (o : option expr) : list expr := match o with Some e => [e] | None => [] end.
Definition strOf (o : option str) : str := match o with Some s => s | None => [] end.

Definition unaryNode (k : kind) : dec expr := dbind readE (fun e => dret (Node k [e])).
Definition binaryNode (k : kind) : dec expr := dbind readE (fun l => dbind readE (fun r => dret (Node k [l; r]))).
Definition manyNode (k : kind) (fuel : nat) : dec expr :=
  dbind readSize (fun n => dbind (readMany readE fuel n) (fun cs => dret (Node k cs))).
Definition propNode (p : prop) : dec expr :=
  dbind readStr (fun a => dbind readStr (fun b => dbind readStr (fun c => dret (Node (KProp p a b c) [])))).

(** Expression::decode, Expression.cpp:200-537, after the kind has been read, with the resetFrom of the class *)
Definition decBody (fuel : nat) (k : Z) : dec expr :=
  match k with
  | 0 => dbind readValue (fun v => dret (Node (KConst v) []))
  | 1 => binaryNode (KArith OAdd) | 2 => binaryNode (KArith OMinus) | 3 => binaryNode (KArith OMultiply)
  | 4 => binaryNode (KArith ODivision) | 5 => binaryNode (KArith OMod)
  | 6 => unaryNode (KUnary OPlus) | 7 => unaryNode (KUnary ONegate) | 8 => unaryNode (KUnary ONot)
  | 9 => unaryNode (KUnary OIncr) | 10 => unaryNode (KUnary ODecr)
  | 64 => unaryNode (KUnary OIsNull) | 65 => unaryNode (KUnary OIsNotNull)
  | 66 => unaryNode (KUnary OIsEmpty) | 67 => unaryNode (KUnary OIsNotEmpty)
  | 11 => binaryNode (KRel OEQ) | 12 => binaryNode (KRel ONE) | 13 => binaryNode (KRel OLT) | 14 => binaryNode (KRel OLE)
  | 15 => binaryNode (KRel OGT) | 16 => binaryNode (KRel OGE) | 17 => binaryNode (KRel OREG) | 18 => binaryNode (KRel OIn)
  | 19 => binaryNode (KRel ONotIn) | 20 => binaryNode (KRel OContains) | 21 => binaryNode (KRel ONotContains)
  | 22 => binaryNode (KRel OStartsWith) | 23 => binaryNode (KRel ONotStartsWith)
  | 24 => binaryNode (KRel OEndsWith) | 25 => binaryNode (KRel ONotEndsWith)
  | 26 => binaryNode KSubscript
  | 68 =>                                                   (* SubscriptExpression.cpp:240-256 *)
      dbind readE (fun l => dbind readSize (fun size => dbind readSize (fun index =>
      if index =? 0 then
        dbind readE (fun lo =>
        if size =? 2 then dbind readSize (fun _ => dbind readE (fun hi => dret (Node (KRange true true) [l; lo; hi])))
        else dret (Node (KRange true false) [l; lo]))
      else if index =? 1 then dbind readE (fun hi => dret (Node (KRange false true) [l; hi]))
      else if size =? 2 then dbind readSize (fun _ => dbind readE (fun hi => dret (Node (KRange false true) [l; hi])))
      else dret (Node (KRange false false) [l]))))
  | 29 => dbind readInt (fun i => dret (Node (KColumn (wrap32 i)) []))         (* ColumnExpression.cpp:41-43 *)
  | 27 => binaryNode KAttr
  | 28 => dfail
  | 30 => manyNode (KLogical OAnd) fuel | 31 => manyNode (KLogical OOr) fuel | 32 => manyNode (KLogical OXor) fuel
  | 33 => dbind readSize (fun t => dbind readE (fun e => dret (Node (KCast t) [e])))
  | 34 => dbind readStr (fun name => manyNode (KCall name) fuel)
  | 63 => dbind readStr (fun name => dbind readBool (fun d => dbind readE (fun e => dret (Node (KAggregate name d) [e]))))
  | 37 | 38 => dfail                                        (* input and variable properties *)
  | 39 => propNode PDst | 40 => propNode PSrc | 36 => propNode PEdge | 35 => propNode PTag
  | 41 => propNode PEdgeSrc | 42 => propNode PEdgeType | 43 => propNode PEdgeRank | 44 => propNode PEdgeDst
  | 45 => dret (Node KVertex []) | 46 => dret (Node KEdge [])
  | 48 => dbind readStr (fun s => dret (Node (KVar s true) []))
  | 49 => dfail
  | 47 => dbind readStr (fun s => dret (Node (KUUID s) []))
  | 50 => manyNode KList fuel | 51 => manyNode KSet fuel | 58 => manyNode KPathBuild fuel
  | 52 => dbind readSize (fun n => dbind (readMany readEntry fuel n) (fun l => dret (Node (KMap (map fst l)) (map snd l))))
  | 53 => dbind readStr (fun s => dret (Node (KLabel s) []))
  | 54 =>
      dbind readBool (fun g => dbind readBool (fun c => dbind readBool (fun d => dbind readSize (fun n =>
      dbind (readOpt c readE) (fun co => dbind (readOpt d readE) (fun de =>
      dbind (readMany readPair fuel n) (fun ps =>
      dret (Node (KCase g c d) (opt1 co ++ opt1 de ++ flat_map (fun p => [fst p; snd p]) ps)))))))))
  | 55 =>
      dbind readBool (fun hi => dbind readBool (fun hf => dbind readBool (fun ho => dbind readStr (fun name =>
      dbind (readOpt hi readStr) (fun iv => dbind readE (fun coll => dbind (readOpt hf readE) (fun f =>
      dbind (readOpt ho readStr) (fun org =>
      dret (Node (KPredicate name (strOf iv) (strOf org) hf) (coll :: opt1 f))))))))))
  | 56 =>
      dbind readBool (fun hf => dbind readBool (fun hm => dbind readBool (fun ho => dbind readStr (fun iv =>
      dbind readE (fun coll => dbind (readOpt hf readE) (fun f => dbind (readOpt hm readE) (fun m =>
      dbind (readOpt ho readStr) (fun org =>
      dret (Node (KListComp iv (strOf org) hf hm) (coll :: opt1 f ++ opt1 m))))))))))
  | 57 =>
      dbind readBool (fun ho => dbind readStr (fun acc => dbind readE (fun init => dbind readStr (fun iv =>
      dbind readE (fun coll => dbind readE (fun mp => dbind (readOpt ho readStr) (fun org =>
      dret (Node (KReduce acc iv (strOf org)) [init; coll; mp]))))))))
  | _ => dfail                                              (* text search 59..62, unknown kinds *)
  end.
End Node.

(** readExpression; the recursion consumes at least the kind byte *)
Fixpoint readExpr (fuel : nat) : dec expr :=
  match fuel with
  | O => fun _ => Diverge
  | S f => dbind readKind (decBody (readExpr f) f)
  end.
(** Expression::decode(pool, encoded), Expression.cpp:191-197 *)
Definition decode (b : list Z) : outcome (option expr) :=
  match b with
  | [] => Ret None
  | _ => match readExpr (S (List.length b)) b with
         | Ret (e, _) => Ret (Some e) | Fatal => Fatal | UB => UB | Diverge => Diverge
         end
  end.
End Codec.
