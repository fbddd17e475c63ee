(** Model of nebula::Value and the data types it contains.
    /repo/src/common/datatypes/{Value,Vertex,Edge,Path,List,Map,Set,DataSet,Date}.{h,cpp} *)
From Verif Require Import ValueBase DateModel TimeModel HashModel.
From Coq Require Import String.
Local Open Scope string_scope.
Local Open Scope list_scope.
Local Open Scope Z_scope.

(** enum NullType, Value.h:36-45 *)
Inductive nullType :=
| NNull | NNaN | NBadData | NBadType | NOverflow | NUnknownProp | NDivByZero | NOutOfRange.

(** struct Tag, Vertex.h:19-70.  An unordered_map<string, Value> is an association list with distinct
    keys in iteration order (distinctness is part of well-formedness). *)
Record tagR (V : Type) := mkTag { tgname : str; tgprops : list (str * V) }.
(** struct Vertex, Vertex.h:73-118 *)
Record vertexR (V : Type) := mkVertex { vvid : V; vtags : list (tagR V) }.
(** struct Edge, Edge.h:17-79 *)
Record edgeR (V : Type) := mkEdge { esrc : V; edst : V; etype : Z; ename : str; erank : Z; eprops : list (str * V) }.
(** struct Step, Path.h:16-113 *)
Record stepR (V : Type) := mkStep { sdst : vertexR V; stype : Z; sname : str; srank : Z; sprops : list (str * V) }.
(** struct Path, Path.h:116-193 *)
Record pathR (V : Type) := mkPath { psrc : vertexR V; psteps : list (stepR V) }.
(** struct DataSet, DataSet.h:20-178; Row is List *)
Record datasetR (V : Type) := mkDataSet { dcols : list str; drows : list (list V) }.
Arguments mkTag {V}. Arguments tgname {V}. Arguments tgprops {V}.
Arguments mkVertex {V}. Arguments vvid {V}. Arguments vtags {V}.
Arguments mkEdge {V}. Arguments esrc {V}. Arguments edst {V}. Arguments etype {V}. Arguments ename {V}.
Arguments erank {V}. Arguments eprops {V}.
Arguments mkStep {V}. Arguments sdst {V}. Arguments stype {V}. Arguments sname {V}. Arguments srank {V}. Arguments sprops {V}.
Arguments mkPath {V}. Arguments psrc {V}. Arguments psteps {V}.
Arguments mkDataSet {V}. Arguments dcols {V}. Arguments drows {V}.

(** struct Value, Value.h:48-; the union member selected by type_ *)
Inductive value :=
| VEmpty
| VNull (n : nullType)
| VBool (b : bool)
| VInt (z : Z)
| VFloat (f : f64)
| VStr (s : str)
| VDate (d : date)
| VTime (t : time)
| VDateTime (t : datetime)
| VVertex (v : vertexR value)
| VEdge (e : edgeR value)
| VPath (p : pathR value)
| VList (l : list value)
| VMap (m : list (str * value))
| VSet (s : list value)
| VDataSet (d : datasetR value).

Definition vertex := vertexR value.
Definition edge := edgeR value.
Definition step := stepR value.
Definition path := pathR value.
Definition dataset := datasetR value.
Definition tag := tagR value.

(** enum Type, Value.h:63-80: the bit masks, here the order they have as numbers. *)
Definition typeBit (v : value) : Z :=
  match v with
  | VEmpty => 1 | VBool _ => 2 | VInt _ => 4 | VFloat _ => 8 | VStr _ => 16 | VDate _ => 32 | VTime _ => 64
  | VDateTime _ => 128 | VVertex _ => 256 | VEdge _ => 512 | VPath _ => 1024 | VList _ => 2048 | VMap _ => 4096
  | VSet _ => 8192 | VDataSet _ => 16384 | VNull _ => 9223372036854775808
  end.
Definition isNull (v : value) : bool := match v with VNull _ => true | _ => false end.
Definition isEmpty (v : value) : bool := match v with VEmpty => true | _ => false end.
(** kEmptyNullType, kNumericType, Value.cpp:95-96 *)
Definition kEmptyNullType : Z := Z.lor 9223372036854775808 1.
Definition kNumericType : Z := Z.lor 4 8.

(** Behaviour of library functions on doubles and text that is not modelled: folly::to<std::string>(double),
    std::strtod (value and number of characters consumed), std::fmod, strtoll. *)
Record externals := mkExt {
  xfmt : f64 -> str;
  xstrtod : str -> f64 * nat;
  xfmod : f64 -> f64 -> f64 }.

(** Date::toString, Time::toString, DateTime::toString, Date.cpp:98-119 *)
Definition dateStr (d : date) : str := decZ (year d) ++ B "-" ++ padZ 2 (month d) ++ B "-" ++ padZ 2 (day d).
Definition timeStr (t : time) : str :=
  padZ 2 (thour t) ++ B ":" ++ padZ 2 (tminute t) ++ B ":" ++ padZ 2 (tsec t) ++ B "." ++ padZ 6 (tmicro t).
Definition datetimeStr (t : datetime) : str :=
  decZ (dyear t) ++ B "-" ++ padZ 2 (dmonth t) ++ B "-" ++ padZ 2 (dday t) ++ B "T" ++
  padZ 2 (dhour t) ++ B ":" ++ padZ 2 (dminute t) ++ B ":" ++ padZ 2 (dsec t) ++ B "." ++ decZ (dmicro t).

(** toString of the containers, parametric in the one of the contained values *)
Section ToString.
Context {V : Type}.
Variable ts : V -> str.
Definition propStr (p : str * V) : str := fst p ++ B ":" ++ ts (snd p).
(** Tag::toString, Vertex.cpp:13-25 *)
Definition tagStr (t : tagR V) : str := B "Tag: " ++ tgname t ++ B ", " ++ joinStr (B ",") (map propStr (tgprops t)).
(** Vertex::toString, Vertex.cpp:51-61 *)
Definition vertexStr (v : vertexR V) : str :=
  B "(" ++ ts (vvid v) ++ B ")" ++
  match vtags v with [] => [] | _ => B " " ++ flat_map tagStr (vtags v) end.
(** Edge::toString, Edge.cpp:14-34 *)
Definition edgeStr (e : edgeR V) : str :=
  B "(" ++ ts (esrc e) ++ B ")-[" ++ ename e ++ B "(" ++ decZ (etype e) ++ B ")]->(" ++ ts (edst e) ++ B ")@" ++
  decZ (erank e) ++
  match eprops e with [] => [] | _ => B " " ++ joinStr (B ",") (map propStr (eprops e)) end.
(** Step::toString, Path.h:53-65; the last character is dropped *)
Definition stepStr (s : stepR V) : str :=
  removelast (B "-[" ++ sname s ++ B "(" ++ decZ (stype s) ++ B ")]->(" ++ vertexStr (sdst s) ++ B ")@" ++
              decZ (srank s) ++ B " " ++ flat_map (fun p => propStr p ++ B ",") (sprops s)).
(** Path::toString, Path.h:136-145 *)
Definition pathStr (p : pathR V) : str :=
  B "(" ++ vertexStr (psrc p) ++ B ") " ++ flat_map (fun s => stepStr s ++ B " ") (psteps p).
(** DataSet::toString, DataSet.h:150-170 *)
Definition datasetStr (d : datasetR V) : str :=
  flat_map (fun h => h ++ B "|") (dcols d) ++ [10] ++
  flat_map (fun row => flat_map (fun c => ts c ++ B "|") row ++ [10]) (drows d) ++ [10].
End ToString.

Definition nullStr (n : nullType) : str :=
  match n with
  | NNull => B "NULL" | NBadData => B "__NULL_BAD_DATA__" | NBadType => B "__NULL_BAD_TYPE__"
  | NDivByZero => B "__NULL_DIV_BY_ZERO__" | NOverflow => B "__NULL_OVERFLOW__" | NNaN => B "__NULL_NaN__"
  | NUnknownProp => B "__NULL_UNKNOWN_PROP__" | NOutOfRange => B "__NULL_OUT_OF_RANGE__"
  end.

(** Hash building blocks.  std::hash<std::string> and std::hash<double> of libstdc++ are _Hash_bytes, the
    same function as MurmurHash2 (HashModel); folly::hash::fnv64_buf of folly. *)
Definition stdHashBytes (b : str) : Z := match murmur b (List.length b) with Ret h => h | _ => 0 end.
Definition stdHashDouble (f : f64) : Z :=
  match f with S754_zero _ => 0 | _ => stdHashBytes (leBytes 8 (f64bits f)) end.
Definition fnvMix (h : Z) : Z :=
  u64 (h + shl64 h 1 + shl64 h 4 + shl64 h 5 + shl64 h 7 + shl64 h 8 + shl64 h 40).
Fixpoint fnv64buf (b : str) (h : Z) : Z :=
  match b with [] => h | x :: b' => fnv64buf b' (Z.lxor (fnvMix h) (u64 (wrap8 x))) end.
Definition fnvStart : Z := 14695981039346656037.
Definition fnv64 (b : str) : Z := fnv64buf b fnvStart.
Definition hashDate (d : date) : Z :=
  fnv64buf (leBytes 1 (day d)) (fnv64buf (leBytes 1 (month d)) (fnv64 (leBytes 2 (year d)))).
Definition hashTime (t : time) : Z :=
  fnv64buf (leBytes 4 (tmicro t)) (fnv64buf (leBytes 1 (tsec t)) (fnv64buf (leBytes 1 (tminute t)) (fnv64 (leBytes 1 (thour t))))).
(** DateTime: the packed qword, Date.h:170-184, Date.cpp:140-142 *)
Definition hashDateTime (t : datetime) : Z :=
  (dyear t) mod 65536 + (dmonth t) mod 16 * 65536 + (dday t) mod 32 * 1048576 + (dhour t) mod 32 * 33554432
  + (dminute t) mod 64 * 1073741824 + (dsec t) mod 64 * 68719476736 + (dmicro t) mod 4194304 * 4398046511104.

(** std::vector operator== *)
Definition listEq {A} (f : A -> A -> bool) : list A -> list A -> bool :=
  fix go (x y : list A) : bool :=
    match x, y with
    | [], [] => true
    | a :: x', b :: y' => f a b && go x' y'
    | _, _ => false
    end.
(** Comparison of containers, parametric in the comparison of the contained values *)
Section ContainerEq.
Context {V : Type}.
Variable eqv : V -> V -> bool.
Fixpoint lookup (k : str) (m : list (str * V)) : option V :=
  match m with [] => None | (k', v) :: m' => if strEqb k k' then Some v else lookup k m' end.
(** std::unordered_map operator==: same size and every entry of the first found in the second with an equal value *)
Definition mapEq (x y : list (str * V)) : bool :=
  Nat.eqb (List.length x) (List.length y) &&
  forallb (fun kv => match lookup (fst kv) y with Some v => eqv (snd kv) v | None => false end) x.
(** Tag, Vertex, Edge, Step, Path, DataSet operator== *)
Definition tagEq (a b : tagR V) : bool := strEqb (tgname a) (tgname b) && mapEq (tgprops a) (tgprops b).
Definition vertexEq (a b : vertexR V) : bool := eqv (vvid a) (vvid b) && listEq tagEq (vtags a) (vtags b).
(** Edge.cpp:72-80; -rhs.type is a 32-bit negation, undefined for -2^31 (excluded by well-formedness) *)
Definition edgeEq (a b : edgeR V) : bool :=
  if negb (etype a =? etype b) && negb (etype a =? - etype b) then false
  else if etype a =? etype b
  then eqv (esrc a) (esrc b) && eqv (edst a) (edst b) && (erank a =? erank b) && mapEq (eprops a) (eprops b)
  else eqv (esrc a) (edst b) && eqv (edst a) (esrc b) && (erank a =? erank b) && mapEq (eprops a) (eprops b).
Definition stepEq (a b : stepR V) : bool :=
  vertexEq (sdst a) (sdst b) && (stype a =? stype b) && strEqb (sname a) (sname b) && (srank a =? srank b)
  && mapEq (sprops a) (sprops b).
Definition pathEq (a b : pathR V) : bool := vertexEq (psrc a) (psrc b) && listEq stepEq (psteps a) (psteps b).
Definition datasetEq (a b : datasetR V) : bool :=
  listEq strEqb (dcols a) (dcols b) && listEq (listEq eqv) (drows a) (drows b).
End ContainerEq.

Definition dtEq (a b : datetime) : bool :=
  (dyear a =? dyear b) && (dmonth a =? dmonth b) && (dday a =? dday b) && (dhour a =? dhour b) &&
  (dminute a =? dminute b) && (dsec a =? dsec b) && (dmicro a =? dmicro b).
Definition timeEq (a b : time) : bool :=
  (thour a =? thour b) && (tminute a =? tminute b) && (tsec a =? tsec b) && (tmicro a =? tmicro b).
(** field-by-field lexicographic comparison, Date.h:49-60, 104-118, 222-245 *)
Fixpoint lexLt (a b : list Z) : bool :=
  match a, b with
  | x :: a', y :: b' => if negb (x =? y) then x <? y else lexLt a' b'
  | _, _ => false
  end.
Definition dtFields (a : datetime) : list Z := [dyear a; dmonth a; dday a; dhour a; dminute a; dsec a; dmicro a].
Definition timeFields (a : time) : list Z := [thour a; tminute a; tsec a; tmicro a].
Definition dtLt (a b : datetime) : bool := lexLt (dtFields a) (dtFields b).
Definition timeLt (a b : time) : bool := lexLt (timeFields a) (timeFields b).

Section WithExternals.
Variable X : externals.

(** Value::toString, Value.cpp:1484-1556 *)
Fixpoint vstr (v : value) : str :=
  match v with
  | VEmpty => B "__EMPTY__"
  | VNull n => nullStr n
  | VBool b => if b then B "true" else B "false"
  | VInt z => decZ z
  | VFloat f => xfmt X f
  | VStr s => B """" ++ s ++ B """"
  | VDate d => dateStr d
  | VTime t => timeStr t
  | VDateTime t => datetimeStr t
  | VVertex v => vertexStr vstr v
  | VEdge e => edgeStr vstr e
  | VPath p => pathStr vstr p
  | VList l => B "[" ++ joinStr (B ",") (map vstr l) ++ B "]"
  | VMap m => B "{" ++ joinStr (B ",") (map (propStr vstr) m) ++ B "}"
  | VSet s => B "{" ++ joinStr (B ",") (map vstr s) ++ B "}"
  | VDataSet d => datasetStr vstr d
  end.

(** std::hash<Tag>, <Vertex>, <Edge>, <Step>, <Path>; Vertex.cpp:96-110, Edge.cpp:106-115, Path.cpp:86-108 *)
Definition hashTag (t : tag) : Z := fnv64 (tgname t).
Definition hashVertex (v : vertex) : Z :=
  fold_left (fun hv t => Z.lxor (fnvMix hv) (hashTag t)) (vtags v) (fnv64 (vstr (vvid v))).
Definition hashEdge (e : edge) : Z :=
  let src := if 0 <? etype e then vstr (esrc e) else vstr (edst e) in
  let dst := if 0 <? etype e then vstr (edst e) else vstr (esrc e) in
  let type := if 0 <? etype e then etype e else - etype e in
  fnv64buf (leBytes 8 (erank e)) (fnv64buf (leBytes 4 type) (fnv64buf dst (fnv64 src))).
Definition hashStep (s : step) : Z :=
  fnv64buf (leBytes 8 (srank s)) (fnv64buf (leBytes 4 (stype s)) (hashVertex (sdst s))).
Definition hashPath (p : path) : Z :=
  fold_left (fun hv s => Z.lxor (fnvMix hv) (hashStep s)) (psteps p) (hashVertex (psrc p)).
(** List.h:88-97 *)
Definition hashCombine (seed h : Z) : Z :=
  Z.lxor seed (u64 (h + 2654435769 + shl64 seed 6 + shr64 seed 2)).

(** std::hash<Value>, Value.cpp:25-79 *)
Fixpoint vhash (v : value) : outcome Z :=
  match v with
  | VEmpty => Ret 0
  | VNull _ => Ret 18446744073709551615
  | VBool b => Ret (if b then 1 else 0)
  | VInt z => Ret (u64 z)
  | VFloat f => Ret (stdHashDouble f)
  | VStr s => Ret (stdHashBytes s)
  | VDate d => Ret (hashDate d)
  | VTime t => Ret (hashTime t)
  | VDateTime t => Ret (hashDateTime t)
  | VVertex v => Ret (hashVertex v)
  | VEdge e => Ret (hashEdge e)
  | VPath p => Ret (hashPath p)
  | VList l =>
      (fix go (l : list value) (seed : Z) : outcome Z :=
         match l with
         | [] => Ret seed
         | x :: l' => obind (vhash x) (fun h => go l' (hashCombine seed h))
         end) l 0
  | VMap _ | VSet _ | VDataSet _ => Fatal
  end.
(** Two keys can only meet in an unordered_set when their (cached) hashes agree. *)
Definition sameHash (a b : value) : bool :=
  match vhash a, vhash b with Ret x, Ret y => x =? y | _, _ => false end.

(** Comparison of two numbers with kEpsilon, Value.cpp:2556-2577 *)
Definition nearEq (a b : f64) : bool := f64ltb (f64abs (f64sub a b)) kEpsilon.

Definition byType (a b : value) : bool :=
  let lr := Z.lor (typeBit a) (typeBit b) in
  negb (Z.land lr kEmptyNullType =? 0)
  || (negb (typeBit a =? typeBit b) && negb (Z.land lr kNumericType =? kNumericType)).

(** operator==, Value.cpp:2535-2617.  std::unordered_set operator== looks every element up by hash and ==. *)
Fixpoint veq (a b : value) {struct a} : bool :=
  if byType a b then typeBit a =? typeBit b else
  match a, b with
  | VBool x, VBool y => Bool.eqb x y
  | VInt x, VInt y => x =? y
  | VInt x, VFloat y => nearEq (f64ofZ x) y
  | VFloat x, VInt y => nearEq x (f64ofZ y)
  | VFloat x, VFloat y => nearEq x y
  | VStr x, VStr y => strEqb x y
  | VDate x, VDate y => dateEq x y
  | VTime x, VTime y => timeEq x y
  | VDateTime x, VDateTime y => dtEq x y
  | VVertex x, VVertex y => vertexEq veq x y
  | VEdge x, VEdge y => edgeEq veq x y
  | VPath x, VPath y => pathEq veq x y
  | VList x, VList y => listEq veq x y
  | VMap x, VMap y => mapEq veq x y
  | VSet x, VSet y =>
      Nat.eqb (List.length x) (List.length y) &&
      forallb (fun p => existsb (fun q => sameHash p q && veq p q) y) x
  | VDataSet x, VDataSet y => datasetEq veq x y
  | _, _ => false
  end.

(** Both a < b and b < a at once (std::lexicographical_compare needs both directions).
    A pair (l, g) means: a < b is l, b < a is g. *)
Definition lt2 := (bool * bool)%type.
Definition ltZ2 (a b : Z) : lt2 := (a <? b, b <? a).
Section ContainerLt.
Context {V : Type}.
Variable cmpv : V -> V -> lt2.
Variable eqv : V -> V -> bool.
(** std::lexicographical_compare, both directions *)
Definition listLt2 {A} (f : A -> A -> lt2) : list A -> list A -> lt2 :=
  fix go (x y : list A) : lt2 :=
    match x, y with
    | [], [] => (false, false)
    | [], _ :: _ => (true, false)
    | _ :: _, [] => (false, true)
    | a :: x', b :: y' =>
        let '(l, g) := f a b in
        let '(rl, rg) := go x' y' in
        ((if l then true else if g then false else rl), (if g then true else if l then false else rg))
    end.
Definition sizeLt2 {A} (x y : list A) : lt2 := (Nat.ltb (List.length x) (List.length y), Nat.ltb (List.length y) (List.length x)).
(** Vertex::operator<, Vertex.cpp:79-87 *)
Definition vertexLt2 (a b : vertexR V) : lt2 :=
  if negb (eqv (vvid a) (vvid b)) then cmpv (vvid a) (vvid b)
  else if negb (Nat.eqb (List.length (vtags a)) (List.length (vtags b))) then sizeLt2 (vtags a) (vtags b)
  else (false, false).
(** Edge::operator<, Edge.cpp:53-70 *)
Definition edgeLt2 (a b : edgeR V) : lt2 :=
  if negb (eqv (esrc a) (esrc b)) then cmpv (esrc a) (esrc b)
  else if negb (eqv (edst a) (edst b)) then cmpv (edst a) (edst b)
  else if negb (etype a =? etype b) then ltZ2 (etype a) (etype b)
  else if negb (erank a =? erank b) then ltZ2 (erank a) (erank b)
  else if negb (Nat.eqb (List.length (eprops a)) (List.length (eprops b))) then sizeLt2 (eprops a) (eprops b)
  else (false, false).
(** Step::operator<, Path.h:97-112.  `type != rhs.dst` compares an integer Value with a vertex Value and is
    always true, so the comparison ends with the types. *)
Definition stepLt2 (a b : stepR V) : lt2 :=
  if negb (vertexEq eqv (sdst a) (sdst b)) then vertexLt2 (sdst a) (sdst b)
  else ltZ2 (stype a) (stype b).
(** Path::operator<, Path.h:180-188 *)
Definition pathLt2 (a b : pathR V) : lt2 :=
  if negb (vertexEq eqv (psrc a) (psrc b)) then vertexLt2 (psrc a) (psrc b)
  else if negb (listEq (stepEq eqv) (psteps a) (psteps b)) then listLt2 stepLt2 (psteps a) (psteps b)
  else (false, false).
End ContainerLt.

(** operator<, Value.cpp:2456-2533 *)
Fixpoint vlt2 (a b : value) {struct a} : lt2 :=
  if byType a b then ltZ2 (typeBit a) (typeBit b) else
  match a, b with
  | VBool x, VBool y => (negb x && y, negb y && x)
  | VInt x, VInt y => ltZ2 x y
  | VInt x, VFloat y => (f64ltb (f64ofZ x) y, f64ltb y (f64ofZ x))
  | VFloat x, VInt y => (f64ltb x (f64ofZ y), f64ltb (f64ofZ y) x)
  | VFloat x, VFloat y => (f64ltb x y, f64ltb y x)
  | VStr x, VStr y => (strLtb x y, strLtb y x)
  | VDate x, VDate y => (dateLt x y, dateLt y x)
  | VTime x, VTime y => (timeLt x y, timeLt y x)
  | VDateTime x, VDateTime y => (dtLt x y, dtLt y x)
  | VVertex x, VVertex y => vertexLt2 vlt2 veq x y
  | VEdge x, VEdge y => edgeLt2 vlt2 veq x y
  | VPath x, VPath y => pathLt2 vlt2 veq x y
  | VList x, VList y => listLt2 vlt2 x y
  | _, _ => (false, false)
  end.
Definition vlt (a b : value) : bool := fst (vlt2 a b).

(** Value::equal, Value.cpp:1745-1830 *)
Definition vequal (a b : value) : value :=
  if isEmpty a then (if isNull b then VNull NNull else VBool (isEmpty b)) else
  if isNull a || isNull b then VNull NNull else
  if negb (typeBit a =? typeBit b) && negb (Z.land (Z.lor (typeBit a) (typeBit b)) kNumericType =? kNumericType)
  then VBool false else
  match a, b with
  | VBool x, VBool y => VBool (Bool.eqb x y)
  | VInt x, VInt y => VBool (x =? y)
  | VInt x, VFloat y => VBool (nearEq (f64ofZ x) y)
  | VFloat x, VInt y => VBool (nearEq x (f64ofZ y))
  | VFloat x, VFloat y => VBool (nearEq x y)
  | VStr x, VStr y => VBool (strEqb x y)
  | VDate x, VDate y => VBool (dateEq x y)
  | VTime x, VTime y => VBool (timeEq x y)
  | VDateTime x, VDateTime y => VBool (dtEq x y)
  | VVertex x, VVertex y => VBool (vertexEq veq x y)
  | VEdge x, VEdge y => VBool (edgeEq veq x y)
  | VPath x, VPath y => VBool (pathEq veq x y)
  | VList x, VList y => VBool (listEq veq x y)
  | VMap x, VMap y => VBool (mapEq veq x y)
  | VSet x, VSet y => VBool (veq (VSet x) (VSet y))
  | VDataSet x, VDataSet y => VBool (datasetEq veq x y)
  | _, _ => VNull NBadType
  end.

(** Value::lessThan, Value.cpp:1656-1743.  Map, Set and DataSet have no operator<; the comparison converts
    to Value and uses operator< of Value. *)
Definition farLt (a b : f64) : bool := f64leb kEpsilon (f64abs (f64sub a b)) && f64ltb a b.
Definition vlessThan (a b : value) : value :=
  if isEmpty a || isEmpty b then (if isNull b || isNull a then VNull NNull else VEmpty) else
  if isNull a || isNull b then VNull NNull else
  if negb (typeBit a =? typeBit b) && negb (Z.land (Z.lor (typeBit a) (typeBit b)) kNumericType =? kNumericType)
  then VNull NNull else
  match a, b with
  | VBool x, VBool y => VBool (negb x && y)
  | VInt x, VInt y => VBool (x <? y)
  | VInt x, VFloat y => VBool (farLt (f64ofZ x) y)
  | VFloat x, VInt y => VBool (farLt x (f64ofZ y))
  | VFloat x, VFloat y => VBool (farLt x y)
  | VStr x, VStr y => VBool (strLtb x y)
  | VDate x, VDate y => VBool (dateLt x y)
  | VTime x, VTime y => VBool (timeLt x y)
  | VDateTime x, VDateTime y => VBool (dtLt x y)
  | VVertex _, VVertex _ | VEdge _, VEdge _ | VPath _, VPath _ | VList _, VList _ => VBool (vlt a b)
  | VMap _, VMap _ | VSet _, VSet _ | VDataSet _, VDataSet _ => VBool (vlt a b)
  | _, _ => VNull NBadType
  end.

(** Arithmetic *)
Definition intRes (z : Z) : value := if in_int64 z then VInt z else VNull NOverflow.
(** The first lines of every binary operator: Some r when an operand is null or empty. *)
Definition nullOrEmpty (l r : value) : option value :=
  if isNull l || (isEmpty l && negb (isNull r)) then Some l
  else if isNull r || isEmpty r then Some r
  else None.
Definition boolStr (b : bool) : str := if b then B "true" else B "false".

(** operator+, Value.cpp:1913-2177 *)
Definition vadd (l r : value) : outcome value :=
  match nullOrEmpty l r with
  | Some v => Ret v
  | None =>
    match l, r with
    | VBool b, VStr s => Ret (VStr (boolStr b ++ cstr s))
    | VInt x, VInt y => Ret (intRes (x + y))
    | VInt x, VFloat y => Ret (VFloat (f64add (f64ofZ x) y))
    | VInt x, VStr s => Ret (VStr (decZ x ++ cstr s))
    | VInt x, VDate d => obind (addDays d x) (fun d' => Ret (VDate d'))
    | VFloat x, VInt y => Ret (VFloat (f64add x (f64ofZ y)))
    | VFloat x, VFloat y => Ret (VFloat (f64add x y))
    | VFloat x, VStr s => Ret (VStr (xfmt X x ++ s))
    | VStr s, VBool b => Ret (VStr (cstr s ++ boolStr b))
    | VStr s, VInt y => Ret (VStr (cstr s ++ decZ y))
    | VStr s, VFloat y => Ret (VStr (s ++ xfmt X y))
    | VStr s, VStr t => Ret (VStr (s ++ t))
    | VStr s, VDate d => Ret (VStr (s ++ dateStr d))
    | VStr s, VTime t => Ret (VStr (s ++ timeStr t))
    | VStr s, VDateTime t => Ret (VStr (s ++ datetimeStr t))
    | VDate d, VInt y => obind (addDays d y) (fun d' => Ret (VDate d'))
    | VDate d, VStr s => Ret (VStr (dateStr d ++ s))
    | VTime t, VStr s => Ret (VStr (timeStr t ++ s))
    | VDateTime t, VStr s => Ret (VStr (datetimeStr t ++ s))
    | VList x, VList y => Ret (VList (x ++ y))
    | VList x, VDataSet _ => Ret (VNull NBadType)
    | VList x, y => Ret (VList (x ++ [y]))
    | VDataSet _, _ => Ret (VNull NBadType)
    | x, VList y => Ret (VList (x :: y))
    | _, _ => Ret (VNull NBadType)
    end
  end.

(** operator-, Value.cpp:2180-2238 *)
Definition vsub (l r : value) : outcome value :=
  match nullOrEmpty l r with
  | Some v => Ret v
  | None =>
    match l, r with
    | VInt x, VInt y => Ret (intRes (x - y))
    | VInt x, VFloat y => Ret (VFloat (f64sub (f64ofZ x) y))
    | VFloat x, VInt y => Ret (VFloat (f64sub x (f64ofZ y)))
    | VFloat x, VFloat y => Ret (VFloat (f64sub x y))
    | VDate d, VInt y => obind (subDays d y) (fun d' => Ret (VDate d'))
    | VDate d, VDate e => obind (toInt d) (fun a => obind (toInt e) (fun b => Ret (VInt (a - b))))
    | _, _ => Ret (VNull NBadType)
    end
  end.

(** operator*, Value.cpp:2241-2290 *)
Definition vmul (l r : value) : outcome value :=
  match nullOrEmpty l r with
  | Some v => Ret v
  | None =>
    match l, r with
    | VInt x, VInt y =>
        if ((x =? -1) && (y =? int64_min)) || ((y =? -1) && (x =? int64_min)) then Ret (VNull NOverflow)
        else Ret (intRes (x * y))
    | VInt x, VFloat y => Ret (VFloat (f64mul (f64ofZ x) y))
    | VFloat x, VInt y => Ret (VFloat (f64mul x (f64ofZ y)))
    | VFloat x, VFloat y => Ret (VFloat (f64mul x y))
    | _, _ => Ret (VNull NBadType)
    end
  end.

(** operator/, Value.cpp:2293-2356.  The built-in / is undefined when the quotient is not representable. *)
Definition cdiv (x y : Z) : outcome Z := if y =? 0 then UB else if in_int64 (Z.quot x y) then Ret (Z.quot x y) else UB.
Definition crem (x y : Z) : outcome Z := if y =? 0 then UB else if in_int64 (Z.quot x y) then Ret (Z.rem x y) else UB.
Definition bigEnough (d : f64) : bool := f64ltb kEpsilon (f64abs d).
Definition vdiv (l r : value) : outcome value :=
  match nullOrEmpty l r with
  | Some v => Ret v
  | None =>
    match l, r with
    | VInt x, VInt y =>
        if y =? 0 then Ret (VNull NDivByZero)
        else if (x =? int64_min) && (y =? -1) then Ret (VNull NOverflow)
        else obind (cdiv x y) (fun q => Ret (VInt q))
    | VInt x, VFloat y => if bigEnough y then Ret (VFloat (f64div (f64ofZ x) y)) else Ret (VNull NDivByZero)
    | VFloat x, VInt y => if negb (y =? 0) then Ret (VFloat (f64div x (f64ofZ y))) else Ret (VNull NDivByZero)
    | VFloat x, VFloat y => if bigEnough y then Ret (VFloat (f64div x y)) else Ret (VNull NDivByZero)
    | _, _ => Ret (VNull NBadType)
    end
  end.

(** operator%, Value.cpp:2358-2417 *)
Definition vmod (l r : value) : outcome value :=
  match nullOrEmpty l r with
  | Some v => Ret v
  | None =>
    match l, r with
    | VInt x, VInt y => if negb (y =? 0) then obind (crem x y) (fun q => Ret (VInt q)) else Ret (VNull NDivByZero)
    | VInt x, VFloat y => if bigEnough y then Ret (VFloat (xfmod X (f64ofZ x) y)) else Ret (VNull NDivByZero)
    | VFloat x, VInt y => if negb (y =? 0) then Ret (VFloat (xfmod X x (f64ofZ y))) else Ret (VNull NDivByZero)
    | VFloat x, VFloat y => if bigEnough y then Ret (VFloat (xfmod X x y)) else Ret (VNull NDivByZero)
    | _, _ => Ret (VNull NBadType)
    end
  end.

(** unary operator-, Value.cpp:2419-2441 *)
Definition vneg (r : value) : outcome value :=
  match r with
  | VNull _ | VEmpty => Ret r
  | VInt y => if y =? int64_min then Ret (VNull NOverflow) else if in_int64 (- y) then Ret (VInt (- y)) else UB
  | VFloat y => Ret (VFloat (f64neg y))
  | _ => Ret (VNull NBadType)
  end.
(** operator!, Value.cpp:2443-2454 *)
Definition vnot (r : value) : value :=
  match r with VNull _ | VEmpty => r | VBool b => VBool (negb b) | _ => VNull NBadType end.

(** operator&& and ||, Value.cpp:2635-2675 *)
Definition vandOp (l r : value) : value :=
  match l, r with
  | VNull n, _ => VNull n
  | _, VNull n => VNull n
  | VEmpty, _ | _, VEmpty => VEmpty
  | VBool a, VBool b => VBool (a && b)
  | _, _ => VNull NBadType
  end.
Definition vorOp (l r : value) : value :=
  match l, r with
  | VNull n, _ => VNull n
  | _, VNull n => VNull n
  | VEmpty, _ | _, VEmpty => VEmpty
  | VBool a, VBool b => VBool (a || b)
  | _, _ => VNull NBadType
  end.

(** operator&, |, ^, Value.cpp:2677-2744 *)
Definition vbit (f : Z -> Z -> Z) (l r : value) : value :=
  match nullOrEmpty l r with
  | Some v => v
  | None => match l, r with VInt x, VInt y => VInt (f x y) | _, _ => VNull NBadType end
  end.
End WithExternals.
