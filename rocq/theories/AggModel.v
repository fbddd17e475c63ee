(** Model of src/common/function/AggFunctionManager.cpp and of the per-row step of AggregateExpression. *)
From Coq Require Import String List Floats.SpecFloat.
From Verif Require Import Prelude Trans ValueBase ValueModel GraphModel EvalModel.
Import ListNotations.
Open Scope Z_scope.

(** AggData, AggFunctionManager.h:23-118, with the elements of uniques_ *)
Record aggData := mkAgg { acnt : value; asum : value; aavg : value; adev : value; ares : value; auniq : list value }.
Definition f64zero : f64 := S754_zero false.
(** AggData::AggData(), 25-38 *)
Definition aggNew : aggData := mkAgg (VInt 0) (VFloat f64zero) (VFloat f64zero) (VFloat f64zero) kNull [].

Definition setRes (a : aggData) (r : value) : aggData := mkAgg (acnt a) (asum a) (aavg a) (adev a) r (auniq a).
Definition isNumericV (v : value) : bool := match v with VInt _ | VFloat _ => true | _ => false end.
Definition isIntV (v : value) : bool := match v with VInt _ => true | _ => false end.
(** std::sqrt(double): correctly rounded *)
Definition f64sqrt : f64 -> f64 := SFsqrt 53 1024.

Inductive aggFn := AFirst | ACount | ASum | AAvg | AMax | AMin | AStd | ABitAnd | ABitOr | ABitXor | ACollect | ACollectSet.

Section Agg.
Context (X : externals).

(** Set::contains, Set.h: unordered_set::count hashes the value first *)
Definition setHas (s : list value) (v : value) : outcome bool := let* _ := vhash X v in Ret (memberOf X v s).

(** AggFunctionManager.cpp:19-278, one lambda per name. *)
Definition aggCount (a : aggData) (v : value) : outcome aggData :=   (* 28-43 *)
  if isBadNull (ares a) then Ret a
  else let a := if isNull (ares a) then setRes a (VInt 0) else a in
       if isNull v || isEmpty v then Ret a
       else let* r := vadd X (ares a) (VInt 1) in Ret (setRes a r).

Definition aggSum (a : aggData) (v : value) : outcome aggData :=   (* 45-68 *)
  if isBadNull (ares a) then Ret a
  else let a := if isNull (ares a) then setRes a (VInt 0) else a in
       if negb (isNull v) && negb (isEmpty v) && negb (isNumericV v) then Ret (setRes a kBadType)
       else if isNull v || isEmpty v then Ret a
       else if isNull (ares a) then Ret (setRes a v)
       else let* r := vadd X (ares a) v in Ret (setRes a r).

Definition aggAvg (a : aggData) (v : value) : outcome aggData :=   (* 70-96 *)
  if isBadNull (ares a) then Ret a
  else if negb (isNull v) && negb (isEmpty v) && negb (isNumericV v) then Ret (setRes a kBadType)
  else if isNull v || isEmpty v then Ret a
  else let a := if isNull (ares a) then mkAgg (VFloat f64zero) (VFloat f64zero) (aavg a) (adev a) (VFloat f64zero) (auniq a) else a in
       let* s := vadd X (asum a) v in
       let* c := vadd X (acnt a) (VInt 1) in
       let* r := vdiv s c in
       Ret (mkAgg c s (aavg a) (adev a) r (auniq a)).

(** MAX 98-116 keeps [val > res], which is [res < val]; MIN 118-135 *)
Definition aggExt (gt : bool) (a : aggData) (v : value) : outcome aggData :=
  if isBadNull (ares a) then Ret a
  else if isNull v || isEmpty v then Ret a
  else if isNull (ares a) then Ret (setRes a v)
  else if (if gt then vlt X (ares a) v else vlt X v (ares a)) then Ret (setRes a v) else Ret a.

Definition aggStd (a : aggData) (v : value) : outcome aggData :=   (* 137-169 *)
  if isBadNull (ares a) then Ret a
  else if negb (isNull v) && negb (isEmpty v) && negb (isNumericV v) then Ret (setRes a kBadType)
  else if isNull v || isEmpty v then Ret a
  else let a := if isNull (ares a)
                then mkAgg (VFloat f64zero) (asum a) (VFloat f64zero) (VFloat f64zero) (VFloat f64zero) (auniq a) else a in
       let* c := vadd X (acnt a) (VInt 1) in
       let* c1 := vsub c (VInt 1) in
       let* cc := vmul c c in
       let* q := vdiv c1 cc in
       let* d := vsub v (aavg a) in
       let* dd := vmul d d in
       let* x := vmul q dd in
       let* q' := vdiv c1 c in
       let* y := vmul q' (adev a) in
       let* dev := vadd X x y in
       let* d' := vsub v (aavg a) in
       let* dc := vdiv d' c in
       let* avg := vadd X (aavg a) dc in
       Ret (mkAgg c (asum a) avg dev (match dev with VFloat f => VFloat (f64sqrt f) | _ => kBadType end) (auniq a)).

Definition aggBit (f : Z -> Z -> Z) (a : aggData) (v : value) : outcome aggData :=   (* 171-235 *)
  if isBadNull (ares a) then Ret a
  else if negb (isNull v) && negb (isEmpty v) && negb (isIntV v) then Ret (setRes a kBadType)
  else if isNull v || isEmpty v then Ret a
  else if isNull (ares a) && isIntV v then Ret (setRes a v)
  else Ret (setRes a (vbit f (ares a) v)).

Definition aggCollect (a : aggData) (v : value) : outcome aggData :=   (* 237-256 *)
  if isBadNull (ares a) then Ret a
  else let a := if isNull (ares a) then setRes a (VList []) else a in
       if isNull v || isEmpty v then Ret a
       else match ares a with
            | VList l => Ret (setRes a (VList (l ++ [v])))
            | _ => Ret (setRes a (VNull NBadData))
            end.

(** unordered_set::emplace computes the hash first *)
Definition setEmplace (s : list value) (v : value) : outcome (list value) :=
  let* b := setHas s v in Ret (if b then s else s ++ [v]).
Definition aggCollectSet (a : aggData) (v : value) : outcome aggData :=   (* 258-278 *)
  if isBadNull (ares a) then Ret a
  else let a := if isNull (ares a) then setRes a (VSet []) else a in
       if isNull v || isEmpty v then Ret a
       else match ares a with
            | VSet l => let* l' := setEmplace l v in Ret (setRes a (VSet l'))
            | _ => Ret (setRes a (VNull NBadData))
            end.

Definition aggStep (f : aggFn) (a : aggData) (v : value) : outcome aggData :=
  match f with
  | AFirst => Ret (setRes a v)
  | ACount => aggCount a v
  | ASum => aggSum a v
  | AAvg => aggAvg a v
  | AMax => aggExt true a v
  | AMin => aggExt false a v
  | AStd => aggStd a v
  | ABitAnd => aggBit Z.land a v
  | ABitOr => aggBit Z.lor a v
  | ABitXor => aggBit Z.lxor a v
  | ACollect => aggCollect a v
  | ACollectSet => aggCollectSet a v
  end.

(** AggregateExpression::eval, AggregateExpression.cpp:39-54, for one row whose argument has value [v] *)
Definition aggEval (f : aggFn) (distinct : bool) (a : aggData) (v : value) : outcome aggData :=
  if distinct then
    let* b := setHas (auniq a) v in
    if b then Ret a
    else aggStep f (mkAgg (acnt a) (asum a) (aavg a) (adev a) (ares a) (auniq a ++ [v])) v
  else aggStep f a v.

(** A group of rows, in order. *)
Fixpoint aggRows (f : aggFn) (distinct : bool) (a : aggData) (rows : list value) : outcome aggData :=
  match rows with
  | [] => Ret a
  | v :: rows' => let* a' := aggEval f distinct a v in aggRows f distinct a' rows'
  end.
(** The value of the group. *)
Definition aggValue (f : aggFn) (distinct : bool) (rows : list value) : outcome value :=
  let* a := aggRows f distinct aggNew rows in Ret (ares a).
End Agg.

(** The names, matched after conversion to upper case: AggFunctionManager::getInternal, 293-302 *)
Definition aggOf (upperName : string) : option aggFn :=
  match upperName with
  | "" => Some AFirst | "COUNT" => Some ACount | "SUM" => Some ASum | "AVG" => Some AAvg | "MAX" => Some AMax
  | "MIN" => Some AMin | "STD" => Some AStd | "BIT_AND" => Some ABitAnd | "BIT_OR" => Some ABitOr
  | "BIT_XOR" => Some ABitXor | "COLLECT" => Some ACollect | "COLLECT_SET" => Some ACollectSet
  | _ => None
  end%string.
