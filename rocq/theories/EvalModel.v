(** Evaluation of expression trees: the eval() member functions of /repo/src/common/expression/*.cpp.

    Every node has a member result_ that eval() overwrites and often returns by reference.  A tree is therefore
    evaluated together with a tree of the current result_ values ([cache]) and the variables of the context.
    Simplification: a returned reference is read where eval() returns, so a later change of the referenced
    variable or result_ during the same evaluation is not seen by the caller (operands are values). *)
From Verif Require Import ValueBase DateModel TimeModel ValueModel GraphModel ExprModel.
From Coq Require Import String.
Local Open Scope string_scope.
Local Open Scope list_scope.
Local Open Scope Z_scope.

Definition isBadNull (v : value) : bool := match v with VNull NNull => false | VNull _ => true | _ => false end.   (* Value.h:144-157 *)
Definition isStr (v : value) : bool := match v with VStr _ => true | _ => false end.
Definition isBoolV (v : value) : bool := match v with VBool _ => true | _ => false end.
Definition kNull := VNull NNull.
Definition kBadType := VNull NBadType.

(** ExpressionContext, /repo/src/common/context/ExpressionContext.h:24-83: an abstract interface.  The variables set by
    setVar are the list in [ctx]; the other getters are functions.  [eFun] is FunctionManager, [eRegex s p] is
    std::regex_match(s, std::regex(p)), None when the pattern is rejected by an exception. *)
Definition ctx := list (str * value).
Record env := mkEnv {
  eX : externals;
  eRegex : str -> str -> option bool;
  eFun : str -> list value -> outcome value;
  eNoVar : str -> value;
  eVersioned : ctx -> str -> Z -> value;
  eVarProp : ctx -> str -> str -> value;
  eEdgeProp : str -> str -> value; eTagProp : str -> str -> value; eSrcProp : str -> str -> value; eDstProp : str -> str -> value;
  eInput : str -> value; eColumn : Z -> value; eVertex : value; eEdge : value }.
Inductive cache := Cache (r : value) (ks : list cache).
Definition noCache := Cache VEmpty [].   (* a freshly made node: result_ is the default Value *)

Section Eval.
Variable E : env.
Let X := eX E.

Definition getVar (c : ctx) (s : str) : value := match lookup s c with Some v => v | None => eNoVar E s end.
Definition setVar (c : ctx) (s : str) (v : value) : ctx := (s, v) :: c.

(** * Conversions, Value.cpp:1558-1654 *)
Definition lowerByte (b : Z) : Z := if (65 <=? b) && (b <=? 90) then b + 32 else b.
Definition lower (s : str) : str := map lowerByte s.
Definition vtoBool (v : value) : value :=
  match v with
  | VEmpty | VNull _ => kNull
  | VBool _ => v
  | VStr s => if strEqb (lower s) (B "true") then VBool true else if strEqb (lower s) (B "false") then VBool false else kNull
  | _ => kBadType
  end.
Definition vtoFloat (v : value) : value :=
  match v with
  | VEmpty | VNull _ => kNull
  | VInt z => VFloat (f64ofZ z)
  | VFloat _ => v
  | VStr s => let '(d, n) := xstrtod X (cstr s) in if Nat.eqb n (List.length (cstr s)) then VFloat d else kNull
  | _ => kBadType
  end.
(** strtoll(s, &end, 10): blanks, a sign, digits; saturated with ERANGE.  Result and number of bytes consumed. *)
Definition isBlank (b : Z) : bool := (b =? 32) || ((9 <=? b) && (b <=? 13)).
Fixpoint skipBlanks (s : str) : nat * str :=
  match s with b :: s' => if isBlank b then let '(n, r) := skipBlanks s' in (S n, r) else (O, s) | [] => (O, []) end.
Fixpoint digits (s : str) (acc : Z) : nat * Z :=
  match s with b :: s' => if (48 <=? b) && (b <=? 57) then let '(n, z) := digits s' (acc * 10 + (b - 48)) in (S n, z) else (O, acc) | [] => (O, acc) end.
Definition strtoll (s : str) : Z * nat * bool :=
  let '(n1, s1) := skipBlanks s in
  let '(n2, neg, s2) := match s1 with 45 :: r => (1%nat, true, r) | 43 :: r => (1%nat, false, r) | _ => (O, false, s1) end in
  let '(n3, z) := digits s2 0 in
  match n3 with
  | O => (0, O, false)
  | _ => let v := if neg then - z else z in
         if v <? int64_min then (int64_min, (n1 + n2 + n3)%nat, true)
         else if int64_max <? v then (int64_max, (n1 + n2 + n3)%nat, true)
         else (v, (n1 + n2 + n3)%nat, false)
  end.
Definition f64toInt (f : f64) : outcome Z :=   (* static_cast<int64_t>(double) *)
  match f64trunc f with Some z => if in_int64 z then Ret z else UB | None => UB end.
Definition vtoInt (v : value) : outcome value :=
  match v with
  | VEmpty | VNull _ => Ret kNull
  | VInt _ => Ret v
  | VFloat f =>
      if f64leb f (f64ofZ int64_min) then Ret (VInt int64_min)
      else if f64leb (f64ofZ int64_max) f then Ret (VInt int64_max)
      else obind (f64toInt f) (fun z => Ret (VInt z))
  | VStr s =>
      if existsb (fun b => b =? 46) s then
        let '(d, n) := xstrtod X (cstr s) in
        obind (f64toInt d) (fun z => Ret (if Nat.eqb n (List.length (cstr s)) then VInt z else kNull))
      else
        let '(z, n, erange) := strtoll (cstr s) in
        Ret (if negb (Nat.eqb n (List.length (cstr s))) then kNull else if erange then VNull NOverflow else VInt z)
  | _ => Ret kBadType
  end.
(** TypeCastingExpression::eval, TypeCastingExpression.cpp:64-95, with the result_ it leaves *)
Definition castTo (t : Z) (v r0 : value) : outcome (value * value) :=
  if t =? 2 then let r := vtoBool v in Ret (r, r)
  else if t =? 4 then obind (vtoInt v) (fun r => Ret (r, r))
  else if t =? 8 then let r := vtoFloat v in Ret (r, r)
  else if t =? 16 then let r := VStr (match v with VStr s => s | _ => vstr X v end) in Ret (r, r)
  else Ret (kNull, r0).

(** * Relational operators, RelationalExpression.cpp:14-213 *)
Fixpoint isPrefix (p s : str) : bool :=
  match p, s with [], _ => true | x :: p', y :: s' => (x =? y) && isPrefix p' s' | _, [] => false end.
(** s.find(p) != npos *)
Fixpoint strFind (p s : str) : bool := isPrefix p s || match s with [] => false | _ :: s' => strFind p s' end.
Definition strEnds (p s : str) : bool :=
  (List.length p <=? List.length s)%nat && strEqb (skipn (List.length s - List.length p) s) p.
(** the operators on two strings *)
Definition onStrings (f : str -> str -> value) (l r : value) : value :=
  if isBadNull l || isBadNull r then kBadType
  else if (negb (isNull l) && negb (isStr l)) || (negb (isNull r) && negb (isStr r)) then kBadType
  else match l, r with VStr a, VStr b => f a b | _, _ => kNull end.
Definition listContains (l : list value) (v : value) : bool := existsb (fun w => veq X w v) l.
Definition setContains (s : list value) (v : value) : outcome bool := obind (vhash X v) (fun _ => Ret (memberOf X v s)).
Definition mapContains (m : list (str * value)) (v : value) : bool :=
  match v with VStr k => match lookup k m with Some _ => true | None => false end | _ => false end.
(** IN: is [pos] = true, NOT IN: false *)
Definition containment (pos : bool) (l r : value) : outcome value :=
  let finish (found hasNull : bool) := if found then VBool pos else if hasNull then kNull else VBool (negb pos) in
  let* v := match r with
            | VNull NNull => Ret kNull
            | VList x => Ret (finish (listContains x l) (listContains x kNull))
            | VSet x => let* f := setContains x l in
                        if f then Ret (finish true false)
                        else let* n := setContains x kNull in Ret (finish false n)
            | VMap m => Ret (finish (mapContains m l) (mapContains m kNull))
            | _ => Ret kBadType
            end in
  Ret (if negb (isBadNull v) && isNull l then kNull else v).
Definition vrel (o : rel) (l r : value) : outcome value :=
  match o with
  | OEQ => Ret (vequal X l r)
  | ONE => Ret (vnot (vequal X l r))
  | OLT => Ret (vlessThan X l r)
  | OLE => Ret (vorOp (vlessThan X l r) (vequal X l r))
  | OGT => Ret (vandOp (vnot (vlessThan X l r)) (vnot (vequal X l r)))
  | OGE => Ret (vorOp (vnot (vlessThan X l r)) (vequal X l r))
  | OREG => Ret (onStrings (fun a b => match eRegex E a b with Some m => VBool m | None => kBadType end) l r)
  | OIn => containment true l r
  | ONotIn => containment false l r
  | OContains => Ret (onStrings (fun a b => VBool (strFind b a)) l r)
  | ONotContains => Ret (onStrings (fun a b => VBool (negb (strFind b a))) l r)
  | OStartsWith => Ret (onStrings (fun a b => VBool (isPrefix b a)) l r)
  | ONotStartsWith => Ret (onStrings (fun a b => VBool (negb (isPrefix b a))) l r)
  | OEndsWith => Ret (onStrings (fun a b => VBool (strEnds b a)) l r)
  | ONotEndsWith => Ret (onStrings (fun a b => VBool (negb (strEnds b a))) l r)
  end.
(** ArithmeticExpression.cpp:12-38 *)
Definition varith (o : arith) (l r : value) : outcome value :=
  match o with OAdd => vadd X l r | OMinus => vsub l r | OMultiply => vmul l r | ODivision => vdiv l r | OMod => vmod X l r end.

(** * Subscript and attribute *)
Definition kVid := B "_vid". Definition kSrc := B "_src". Definition kType := B "_type". Definition kRank := B "_rank". Definition kDst := B "_dst".
Fixpoint tagsProp (ts : list tag) (key : str) : option value :=
  match ts with [] => None | t :: ts' => match lookup key (tgprops t) with Some v => Some v | None => tagsProp ts' key end end.
Definition mapAt (m : list (str * value)) (k : str) : value := match lookup k m with Some v => v | None => VNull NUnknownProp end.  (* Map.h:59-65 *)
Definition edgeMember (e : edge) (s : str) : option value :=
  if strEqb s kSrc then Some (esrc e) else if strEqb s kDst then Some (edst e)
  else if strEqb s kRank then Some (VInt (erank e)) else if strEqb s kType then Some (VStr (ename e)) else None.
Definition underscored (s : str) : bool := match s with 95 :: _ => true | _ => false end.
Definition same (v : value) : value * value := (v, v).   (* result_ is what is returned *)

(** SubscriptExpression::eval, SubscriptExpression.cpp:15-94: returned value and result_.  operator[] of a vector is not checked. *)
Definition subscript (l r : value) : outcome (value * value) :=
  match l with
  | VList x =>
      match r with
      | VInt i => let size := lenOf x in
                  if (size <=? i) || (i <? - size) then Ret (same (VNull NOutOfRange))
                  else let i := if i <? 0 then i + size else i in
                       match nth_error x (Z.to_nat i) with Some v => Ret (same v) | None => UB end
      | _ => Ret (same kBadType)
      end
  | VMap m => match r with VStr k => Ret (same (mapAt m k)) | _ => Ret (same kNull) end
  | VDataSet d =>
      match r with
      | VInt i => if (lenOf (drows d) <=? i) || (i <? 0) then Ret (same (VNull NOutOfRange))
                  else match nth_error (drows d) (Z.to_nat i) with Some row => Ret (same (VList row)) | None => UB end
      | _ => Ret (same kBadType)
      end
  | VVertex x =>
      match r with
      | VStr k => if strEqb k kVid then Ret (same (vvid x))
                  else Ret (match tagsProp (vtags x) k with Some v => v | None => kNull end, kNull)
      | _ => Ret (same kNull)
      end
  | VEdge e =>
      match r with
      | VStr k => if underscored k then Ret (same (match edgeMember e k with Some v => v | None => kNull end))
                  else Ret (match lookup k (eprops e) with Some v => v | None => kNull end, kNull)
      | _ => Ret (same kNull)
      end
  | _ => Ret (same kBadType)
  end.

(** TimeUtils::getDateAttr, getTimeAttr, getDateTimeAttr, TimeUtils.h:103-124, 161-172, 217-230 *)
Definition attrOf (l : list (string * Z)) (k : str) : value :=
  match find (fun p => strEqb (lower k) (B (fst p))) l with Some p => VInt (snd p) | None => VNull NUnknownProp end.
Definition dateAttr (d : date) := attrOf [("year", year d); ("month", month d); ("day", day d)].
Definition timeAttr (t : time) := attrOf [("hour", thour t); ("minute", tminute t); ("second", tsec t); ("microsecond", tmicro t)].
Definition datetimeAttr (t : datetime) :=
  attrOf [("year", dyear t); ("month", dmonth t); ("day", dday t); ("hour", dhour t); ("minute", dminute t); ("second", dsec t); ("microsecond", dmicro t)].
(** AttributeExpression::eval, AttributeExpression.cpp:16-70, given the old result_ *)
Definition attribute (l r r0 : value) : outcome (value * value) :=
  match l with
  | VMap _ | VVertex _ | VEdge _ | VDate _ | VTime _ | VDateTime _ =>
      match r with
      | VStr k =>
          Ret match l with
              | VMap m => (mapAt m k, r0)
              | VVertex x => if strEqb k kVid then same (vvid x)
                             else (match tagsProp (vtags x) k with Some v => v | None => VNull NUnknownProp end, r0)
              | VEdge e => if underscored k then match edgeMember e k with Some v => same v | None => (r0, r0) end
                           else (match lookup k (eprops e) with Some v => v | None => VNull NUnknownProp end, r0)
              | VDate d => same (dateAttr d k)
              | VTime t => same (timeAttr t k)
              | VDateTime t => same (datetimeAttr t k)
              | _ => (kBadType, r0)
              end
      | _ => Fatal    (* getStr() checks the type *)
      end
  | _ => Ret (kBadType, r0)
  end.

(** SubscriptRangeExpression::eval after the bounds are known, SubscriptExpression.cpp:165-186; lo, hi are int64_t already adjusted *)
Definition slice (l : list value) (lo hi : Z) : outcome (list value) :=
  let size := lenOf l in
  let lo := if lo <? 0 then 0 else lo in
  if hi <=? lo then Ret []
  else if size <=? lo then Ret []
  else let hi := if size <=? hi then size else hi in
       if (0 <=? lo) && (lo <=? hi) && (hi <=? size) then Ret (firstn (Z.to_nat (hi - lo)) (skipn (Z.to_nat lo) l)) else UB.
(** a bound: negative bounds count from the end; int64_t += size_t wraps *)
Definition bound (z size : Z) : Z := if z <? 0 then wrap64 (z + size) else z.

(** * PathBuildExpression::eval, PathBuildExpression.cpp:14-100 *)
Definition vertexOf (v : value) : option vertex :=
  match v with VStr _ | VInt _ => Some (mkVertex v []) | VVertex x => Some x | VPath p => Some (psrc p) | _ => None end.
Definition setLastDst (l : list step) (d : vertex) : list step :=
  match rev l with [] => [] | s :: r => rev r ++ [mkStep d (stype s) (sname s) (srank s) (sprops s)] end.
Definition lastDstVid (l : list step) : option value := match rev l with [] => None | s :: _ => Some (vvid (sdst s)) end.
Definition pathItem (odd : bool) (steps : list step) (v : value) : option (list step) :=
  match v with
  | VEdge e =>
      let next := steps ++ [mkStep (mkVertex (edst e) []) (etype e) (ename e) (erank e) (eprops e)] in
      match lastDstVid steps with Some d => if veq X d (esrc e) then Some next else None | None => Some next end
  | VVertex x => match lastDstVid steps with Some d => if veq X d (vvid x) then Some (setLastDst steps x) else None | None => None end
  | VPath p =>
      match lastDstVid steps with
      | Some d => if veq X d (vvid (psrc p)) then Some (setLastDst steps (psrc p) ++ psteps p) else None
      | None => Some (psteps p)
      end
  | _ => if odd then None else match steps, vertexOf v with _ :: _, Some x => Some (setLastDst steps x) | _, _ => None end
  end.

(** * The monad of one eval(): the result_ of the sub-expressions and the variables *)
Definition M (A : Type) := (list cache * ctx) -> outcome (A * (list cache * ctx)).
Definition mret {A} (a : A) : M A := fun s => Ret (a, s).
Definition mbind {A C} (m : M A) (f : A -> M C) : M C :=
  fun s => match m s with Ret (a, s') => f a s' | Fatal => Fatal | UB => UB | Diverge => Diverge end.
Definition mlift {A} (o : outcome A) : M A := fun s => match o with Ret a => Ret (a, s) | Fatal => Fatal | UB => UB | Diverge => Diverge end.
Notation "'let!' x := m 'in' k" := (mbind m (fun x => k)) (at level 200, x name, m at level 100, k at level 200).

Definition evfn := cache -> ctx -> outcome (value * cache * ctx).
Fixpoint setNth (n : nat) (k : cache) (ks : list cache) : list cache :=
  match n, ks with
  | O, [] => [k] | O, _ :: t => k :: t
  | S n', [] => noCache :: setNth n' k [] | S n', x :: t => x :: setNth n' k t
  end.
(** Running the i-th sub-expression; a missing one is a null pointer *)
Definition child (evs : list evfn) (i : nat) : M value :=
  fun s => match nth_error evs i with
           | None => UB
           | Some ev => match ev (nth i (fst s) noCache) (snd s) with
                        | Ret (v, k', c') => Ret (v, (setNth i k' (fst s), c'))
                        | Fatal => Fatal | UB => UB | Diverge => Diverge
                        end
           end.
(** ... the i-th sub-expression of the first sub-expression *)
Definition grandchild (evs : list evfn) (i : nat) : M value :=
  fun s => let 'Cache r0 ks0 := nth 0 (fst s) noCache in
           match child evs i (ks0, snd s) with
           | Ret (v, (ks0', c')) => Ret (v, (setNth 0 (Cache r0 ks0') (fst s), c'))
           | Fatal => Fatal | UB => UB | Diverge => Diverge
           end.
Definition mget (s : str) : M value := fun st => Ret (getVar (snd st) s, st).
Definition mset (s : str) (v : value) : M unit := fun st => Ret (tt, (fst st, setVar (snd st) s v)).

(** All sub-expressions, in order *)
Definition allChildren (evs : list evfn) : M (list value) :=
  (fix go (n : nat) (i : nat) : M (list value) :=
     match n with O => mret [] | S n' => let! v := child evs i in let! l := go n' (S i) in mret (v :: l) end) (List.length evs) 0%nat.

(** evalAnd (stop = false) and evalOr (stop = true), LogicalExpression.cpp:27-78 *)
Fixpoint evalAndOr (evs : list evfn) (stop : bool) (n i : nat) (res : value) : M value :=
  match n with
  | O => mret res
  | S n' =>
      let! v := child evs i in
      if isBadNull v || (match v with VBool b => Bool.eqb b stop | _ => false end) then mret v
      else if isBoolV v then evalAndOr evs stop n' (S i) res
      else if isNull v then evalAndOr evs stop n' (S i) v
      else if isEmpty v && negb (isNull res) then evalAndOr evs stop n' (S i) v
      else mret kBadType
  end.
(** evalXor, LogicalExpression.cpp:81-105; getBool of a result_ that is no Boolean aborts *)
Fixpoint evalXor (evs : list evfn) (n i : nat) (hasEmpty first : bool) (res : value) : M value :=
  match n with
  | O => mret res
  | S n' =>
      let! v := child evs i in
      if isNull v then mret v
      else match v with
           | VBool b =>
               if hasEmpty then evalXor evs n' (S i) hasEmpty first res
               else if first then evalXor evs n' (S i) hasEmpty false (VBool b)
               else match res with VBool a => evalXor evs n' (S i) hasEmpty false (VBool (xorb a b)) | _ => mlift Fatal end
           | VEmpty => evalXor evs n' (S i) true first v
           | _ => mret kBadType
           end
  end.

(** CaseExpression::eval, CaseExpression.cpp:56-82; the branches start at sub-expression i.  Result: value and result_ *)
Fixpoint evalCases (evs : list evfn) (cond : option value) (n i : nat) (dflt : M (value * value)) (r0 : value) : M (value * value) :=
  match n with
  | O => dflt
  | S n' =>
      let! w := child evs i in
      match cond with
      | Some cv => if veq X cv w then let! t := child evs (S i) in mret (same t) else evalCases evs cond n' (S (S i)) dflt r0
      | None => match w with
                | VBool true => let! t := child evs (S i) in mret (same t)
                | VBool false => evalCases evs cond n' (S (S i)) dflt r0
                | _ => mret (kBadType, r0)
                end
      end
  end.

(** PredicateExpression::eval, PredicateExpression.cpp:56-154; result: value and result_ *)
Inductive quantifier := QAll | QAny | QSingle | QNone.
Definition quantifierOf (name : str) : option quantifier :=
  if strEqb name (B "all") then Some QAll else if strEqb name (B "any") then Some QAny
  else if strEqb name (B "single") then Some QSingle else if strEqb name (B "none") then Some QNone else None.
Definition quantInit (q : quantifier) : bool := match q with QAll | QNone => true | _ => false end.
Definition isTrue (v : value) : bool := match v with VBool b => b | _ => false end.
Definition boolish (v : value) : bool := isEmpty v || isNull v || isBoolV v.
Fixpoint evalQuant (q : quantifier) (ev : M value) (iv : str) (l : list value) (res : bool) : M (value * value) :=
  match l with
  | [] => mret (same (VBool res))
  | v :: l' =>
      let! _ := mset iv v in
      let! f := ev in
      if negb (boolish f) then mret (kBadType, VBool res)
      else match q with
           | QAll => if isTrue f then evalQuant q ev iv l' res else mret (same (VBool false))
           | QAny => if isTrue f then mret (same (VBool true)) else evalQuant q ev iv l' res
           | QSingle => if isTrue f then (if res then mret (same (VBool false)) else evalQuant q ev iv l' true) else evalQuant q ev iv l' res
           | QNone => if isTrue f then mret (same (VBool false)) else evalQuant q ev iv l' res
           end
  end.
(** evalExists, PredicateExpression.cpp:19-54: the collection is taken for an attribute or subscript expression unchecked *)
Definition existsIn (container key : value) : value :=
  match key with
  | VStr k => match container with
              | VVertex x => VBool (negb (isNull (match tagsProp (vtags x) k with Some v => v | None => kNull end)))
              | VEdge e => VBool (negb (isNull (match lookup k (eprops e) with Some v => v | None => kNull end)))
              | VMap m => VBool (negb (isNull (mapAt m k)))
              | VNull _ => kNull
              | _ => kBadType
              end
  | _ => kBadType
  end.

(** ListComprehensionExpression::eval, ListComprehensionExpression.cpp:12-54: the loop; None when a filter is no truth value *)
Fixpoint evalComp (filter mapping : option (M value)) (iv : str) (l : list value) : M (option (list value)) :=
  match l with
  | [] => mret (Some [])
  | v :: l' =>
      let! _ := mset iv v in
      let! keep := match filter with None => mret (Some true) | Some m => let! f := m in mret (if boolish f then Some (isTrue f) else None) end in
      match keep with
      | None => mret None
      | Some false => evalComp filter mapping iv l'
      | Some true =>
          let! x := match mapping with None => mret v | Some m => m end in
          let! r := evalComp filter mapping iv l' in
          mret (match r with None => None | Some xs => Some (x :: xs) end)
      end
  end.
(** ReduceExpression::eval, ReduceExpression.cpp:12-36: the loop *)
Fixpoint evalReduce (mapping : M value) (acc iv : str) (l : list value) : M unit :=
  match l with
  | [] => mret tt
  | v :: l' => let! _ := mset iv v in let! m := mapping in let! _ := mset acc m in evalReduce mapping acc iv l'
  end.
(** PathBuildExpression::eval: the items after the first; the sub-expressions after a failing item are not evaluated *)
Fixpoint evalPath (evs : list evfn) (n i : nat) (steps : list step) : M (option (list step)) :=
  match n with
  | O => mret (Some steps)
  | S n' => let! v := child evs i in
            match pathItem (Nat.odd i) steps v with Some s => evalPath evs n' (S i) s | None => mret None end
  end.
(** Set: emplace in order *)
Fixpoint buildSet (l acc : list value) : outcome (list value) :=
  match l with [] => Ret acc | v :: l' => let* b := setContains acc v in buildSet l' (if b then acc else acc ++ [v]) end.
(** Map: emplace keeps the first of equal keys *)
Fixpoint buildMap (l acc : list (str * value)) : list (str * value) :=
  match l with [] => acc | p :: l' => buildMap l' (match lookup (fst p) acc with Some _ => acc | None => acc ++ [p] end) end.

(** The variable named by an operand of ++ and --: only a VariableExpression has it where UnaryExpression.cpp:72, 82 looks *)
Definition one : value := VInt 1.

Definition evalNode (k : kind) (r0 : value) (evs grands : list evfn) (kinds : list kind) : M (value * value) :=
  match k with
  | KConst v => mret (v, r0)                                                   (* ConstantExpression.h:29-32 returns val_ *)
  | KArith o => let! l := child evs 0 in let! r := child evs 1 in let! v := mlift (varith o l r) in mret (same v)
  | KRel o => let! l := child evs 0 in let! r := child evs 1 in let! v := mlift (vrel o l r) in mret (same v)
  | KUnary o =>                                                                (* UnaryExpression.cpp:43-105 *)
      match o with
      | OPlus => let! v := child evs 0 in mret (same v)
      | ONegate => let! v := child evs 0 in let! w := mlift (vneg v) in mret (same w)
      | ONot => let! v := child evs 0 in mret (same (vnot v))
      | OIncr | ODecr =>
          match kinds with
          | KVar s _ :: _ => let! v := child evs 0 in
                             let! w := mlift (match o with OIncr => vadd X v one | _ => vsub v one end) in
                             let! _ := mset s w in mret (same w)
          | KVersioned _ _ :: _ => let! v := child evs 0 in mlift UB            (* cast to the wrong class *)
          | _ :: _ => mret (same kBadType)
          | [] => mlift UB
          end
      | OIsNull => let! v := child evs 0 in mret (same (VBool (isNull v)))
      | OIsNotNull => let! v := child evs 0 in mret (same (VBool (negb (isNull v))))
      | OIsEmpty => let! v := child evs 0 in mret (same (VBool (isEmpty v)))
      | OIsNotEmpty => let! v := child evs 0 in mret (same (VBool (negb (isEmpty v))))
      end
  | KSubscript => let! l := child evs 0 in let! r := child evs 1 in mlift (subscript l r)
  | KAttr => let! l := child evs 0 in let! r := child evs 1 in mlift (attribute l r r0)
  | KRange hasLo hasHi =>                                                      (* SubscriptExpression.cpp:122-187 *)
      let! l := child evs 0 in
      match l with
      | VList x =>
          let! lo := if hasLo then let! v := child evs 1 in mret (Some v) else mret None in
          let loZ := match lo with None => Some (Some 0) | Some (VInt z) => Some (Some (bound z (lenOf x))) | Some (VNull _) => None | Some _ => Some None end in
          match loZ with
          | None => mret (same kNull)
          | Some None => mret (same kBadType)
          | Some (Some a) =>
              let! hi := if hasHi then let! v := child evs (if hasLo then 2 else 1) in mret (Some v) else mret None in
              match hi with
              | None => let! s := mlift (slice x a (lenOf x)) in mret (same (VList s))
              | Some (VInt z) => let! s := mlift (slice x a (bound z (lenOf x))) in mret (same (VList s))
              | Some (VNull _) => mret (same kNull)
              | Some _ => mret (same kBadType)
              end
          end
      | _ => mret (same kBadType)
      end
  | KLabelAttr => mlift Fatal                                                  (* LabelAttributeExpression.h:38-41 *)
  | KColumn i => mret (same (eColumn E i))                                     (* ColumnExpression.cpp:13-16 *)
  | KLogical OAnd => let! v := evalAndOr evs false (List.length evs) 0 (VBool true) in mret (same v)
  | KLogical OOr => let! v := evalAndOr evs true (List.length evs) 0 (VBool false) in mret (same v)
  | KLogical OXor => let! v := evalXor evs (List.length evs) 0 false true r0 in mret (same v)
  | KCast t => let! v := child evs 0 in mlift (castTo t v r0)
  | KCall name => let! l := allChildren evs in let! v := mlift (eFun E name l) in mret (same v)   (* FunctionCallExpression.cpp:76-84 *)
  | KProp p _ sym pr =>                                                        (* PropertyExpression.cpp:57-141 *)
      match p with
      | PEdge | PEdgeSrc | PEdgeType | PEdgeRank | PEdgeDst => mret (same (eEdgeProp E sym pr))
      | PTag => mret (same (eTagProp E sym pr))
      | PSrc => mret (same (eSrcProp E sym pr))
      | PDst => mret (eDstProp E sym pr, r0)
      | PInput => mret (eInput E pr, r0)
      | PVar => fun st => Ret ((eVarProp E (snd st) sym pr, r0), st)
      end
  | KVertex => mret (same (eVertex E))                                         (* VertexExpression.cpp:13-16 *)
  | KEdge => mret (same (eEdge E))                                             (* EdgeExpression.cpp:13-16 *)
  | KUUID _ => mret (same r0)                                                  (* UUIDExpression.cpp:39-43 *)
  | KVar s _ => let! v := mget s in mret (v, r0)                               (* VariableExpression.cpp:12-14 *)
  | KVersioned s hasV =>                                                       (* VariableExpression.cpp:31-42 *)
      if hasV then let! ver := child evs 0 in
                   match ver with VInt z => fun st => Ret ((eVersioned E (snd st) s z, r0), st) | _ => mret (kBadType, r0) end
      else let! v := mget s in mret (v, r0)
  | KList => let! l := allChildren evs in mret (same (VList l))
  | KSet => let! l := allChildren evs in let! s := mlift (buildSet l []) in mret (same (VSet s))
  | KMap keys => let! l := allChildren evs in mret (same (VMap (buildMap (combine keys l) [])))
  | KLabel s => mret (same (VStr s))                                           (* LabelExpression.cpp:12-15 *)
  | KCase _ hasCond hasDflt =>
      let nopt := ((if hasCond then 1 else 0) + (if hasDflt then 1 else 0))%nat in
      let n := ((List.length evs - nopt) / 2)%nat in
      let dflt := if hasDflt then let! v := child evs (if hasCond then 1 else 0) in mret (same v) else mret (same kNull) in
      if hasCond then let! cv := child evs 0 in evalCases evs (Some cv) n nopt dflt r0
      else evalCases evs None n nopt dflt r0
  | KPredicate name iv _ hasF =>
      if strEqb name (B "exists")
      then let! ct := grandchild grands 0 in let! key := grandchild grands 1 in mret (same (existsIn ct key))
      else match quantifierOf name with
           | None => mret (same kBadType)
           | Some q =>
               let! l := child evs 0 in
               if isNull l || isEmpty l then mret (same l)
               else match l with
                    | VList x => evalQuant q (if hasF then child evs 1 else mlift UB) iv x (quantInit q)
                    | _ => mret (same kBadType)
                    end
           end
  | KListComp iv _ hasF hasM =>
      let! l := child evs 0 in
      if isNull l || isEmpty l then mret (same l)
      else match l with
           | VList x =>
               if negb hasF && negb hasM then mret (same l)
               else let! r := evalComp (if hasF then Some (child evs 1) else None)
                                       (if hasM then Some (child evs (if hasF then 2 else 1)) else None) iv x in
                    mret (match r with Some xs => same (VList xs) | None => (kBadType, r0) end)
           | _ => mret (same kBadType)
           end
  | KReduce acc iv _ =>
      let! i := child evs 0 in
      let! l := child evs 1 in
      if isNull l || isEmpty l then mret (same l)
      else match l with
           | VList x => let! _ := mset acc i in
                        let! _ := evalReduce (child evs 2) acc iv x in
                        let! v := mget acc in mret (same v)
           | _ => mret (same kBadType)
           end
  | KPathBuild =>
      match evs with
      | [] => mret (kNull, r0)
      | _ => let! v := child evs 0 in
             match vertexOf v with
             | None => mret (kBadType, r0)
             | Some src => let! r := evalPath evs (List.length evs - 1) 1 (match v with VPath p => psteps p | _ => [] end) in
                           mret (match r with Some steps => same (VPath (mkPath src steps)) | None => (VNull NBadData, r0) end)
             end
      end
  | KAggregate _ _ => mlift UB                                                 (* aggData_ is null until set by the executor *)
  | KTextSearch _ => mlift Fatal                                               (* TextSearchExpression.h:117-120 *)
  end.

Fixpoint eval (e : expr) (k : cache) (c : ctx) {struct e} : outcome (value * cache * ctx) :=
  match e with
  | Node kd cs =>
      let 'Cache r0 ks := k in
      let grands := match cs with Node _ gs :: _ => map eval gs | [] => [] end in
      match evalNode kd r0 (map eval cs) grands (map kindOf cs) (ks, c) with
      | Ret ((v, r1), (ks', c')) => Ret (v, Cache r1 ks', c')
      | Fatal => Fatal | UB => UB | Diverge => Diverge
      end
  end.
End Eval.
Notation "'let!' x := m 'in' k" := (mbind m (fun x => k)) (at level 200, x name, m at level 100, k at level 200).
