(** folly::dynamic as far as src/common uses it: values read from JSON texts, and their conversions. *)
From Coq Require Import String List.
From Verif Require Import Prelude ValueBase NetModel EvalModel.
Import ListNotations.
Local Open Scope Z_scope.
Local Open Scope list_scope.

(** The keys of an object are strings and pairwise different (a hypothesis where it matters); a list stands for the hash map in the order it yields its items. *)
Inductive dyn : Type :=
| DNull
| DBool (b : bool)
| DInt (z : Z)
| DDouble (d : f64)
| DStr (s : str)
| DArr (l : list dyn)
| DObj (m : list (str * dyn)).

(** What is outside: folly::parseJson (None: it throws) and the conversions between doubles and texts or integers *)
Record dynWorld := mkDynWorld {
  dwParse : str -> option dyn;
  dwDoubleStr : f64 -> str;
  dwStrDouble : str -> option f64;
  dwDoubleInt : f64 -> option Z;
  dwIntDouble : Z -> option f64;
  dwDoubleBool : f64 -> option bool
}.

(** folly::to<int64_t>(StringPiece), as toInt32 of NetModel *)
Definition toInt64 (s : str) : option Z :=
  let (neg, s2) := takeSign (dropSpace s) in
  let '(n, z) := digits s2 0 in
  let v := if neg then - z else z in
  if (0 <? n)%nat && forallb isSpace (skipn n s2) && in_int64 v then Some v else None.
(** folly::to<bool>(StringPiece): blanks, then digits 0 and 1 of which at most the last is 1, or one of the words below
    in any case, then blanks *)
Definition lowerByte (c : Z) : Z := if (65 <=? c) && (c <=? 90) then c + 32 else c.
Definition dropSpaceEnd (s : str) : str := rev (dropSpace (rev s)).
Fixpoint boolDigits (s : str) (result : bool) : option bool :=
  match s with
  | [] => Some result
  | c :: r => if result then None else if c =? 48 then boolDigits r false else if c =? 49 then boolDigits r true else None
  end.
Definition toBool (s : str) : option bool :=
  let w := map lowerByte (dropSpaceEnd (dropSpace s)) in
  if existsb (strEqb w) [B "y"; B "yes"; B "t"; B "true"; B "on"] then Some true
  else if existsb (strEqb w) [B "n"; B "no"; B "f"; B "false"; B "off"] then Some false
  else match w with [] => None | _ => boolDigits w false end.

(** dynamic::asString, asInt, asDouble, asBool: None when they throw. A Boolean becomes the text 1 or 0. *)
Definition asString (W : dynWorld) (d : dyn) : option str :=
  match d with
  | DStr s => Some s
  | DInt z => Some (decZ z)
  | DBool b => Some (if b then B "1" else B "0")
  | DDouble x => Some (dwDoubleStr W x)
  | _ => None
  end.
Definition asInt (W : dynWorld) (d : dyn) : option Z :=
  match d with
  | DStr s => toInt64 s
  | DInt z => Some z
  | DBool b => Some (if b then 1 else 0)
  | DDouble x => dwDoubleInt W x
  | _ => None
  end.
Definition asDouble (W : dynWorld) (d : dyn) : option f64 :=
  match d with
  | DStr s => dwStrDouble W s
  | DInt z => dwIntDouble W z
  | DBool b => dwIntDouble W (if b then 1 else 0)
  | DDouble x => Some x
  | _ => None
  end.
Definition asBool (W : dynWorld) (d : dyn) : option bool :=
  match d with
  | DStr s => toBool s
  | DInt z => Some (negb (z =? 0))
  | DBool b => Some b
  | DDouble x => dwDoubleBool W x
  | _ => None
  end.

(** find and operator[]= of an object *)
Fixpoint dget (k : str) (m : list (str * dyn)) : option dyn :=
  match m with [] => None | (k', d) :: m' => if strEqb k' k then Some d else dget k m' end.
Fixpoint dset (k : str) (d : dyn) (m : list (str * dyn)) : list (str * dyn) :=
  match m with [] => [(k, d)] | (k', d') :: m' => if strEqb k' k then (k', d) :: m' else (k', d') :: dset k d m' end.
