(** The function table: FunctionManager's registrations, its signature table, getReturnType and getInternal, and
    the bodies that FuncModel leaves out (math library, random numbers, clock, text of dates).
    /repo/src/common/function/FunctionManager.cpp, /repo/src/common/time/TimeUtils.{h,cpp} *)
From Coq Require Import String List.
From Verif Require Import Prelude Trans DateModel TimeModel ValueBase ValueModel GraphModel EvalModel FuncModel.
Import ListNotations.
Local Open Scope list_scope.
Local Open Scope string_scope.
Open Scope Z_scope.

(** enum Value::Type, Value.h:63-80 *)
Inductive vty := TEmpty | TNull | TBool | TInt | TFloat | TStr | TDate | TTime | TDateTime | TVertex | TEdge | TPath
  | TList | TMap | TSet | TDataSet.
Definition typeOf (v : value) : vty :=
  match v with
  | VEmpty => TEmpty | VNull _ => TNull | VBool _ => TBool | VInt _ => TInt | VFloat _ => TFloat | VStr _ => TStr
  | VDate _ => TDate | VTime _ => TTime | VDateTime _ => TDateTime | VVertex _ => TVertex | VEdge _ => TEdge
  | VPath _ => TPath | VList _ => TList | VMap _ => TMap | VSet _ => TSet | VDataSet _ => TDataSet
  end.
Definition vtyEqb (a b : vty) : bool :=
  match a, b with
  | TEmpty, TEmpty | TNull, TNull | TBool, TBool | TInt, TInt | TFloat, TFloat | TStr, TStr | TDate, TDate
  | TTime, TTime | TDateTime, TDateTime | TVertex, TVertex | TEdge, TEdge | TPath, TPath | TList, TList
  | TMap, TMap | TSet, TSet | TDataSet, TDataSet => true
  | _, _ => false
  end.
Fixpoint tysEqb (a b : list vty) : bool :=
  match a, b with [], [] => true | x :: a', y :: b' => vtyEqb x y && tysEqb a' b' | _, _ => false end.

(** typeSignature_, FunctionManager.cpp:31-240 *)
Definition signatures : list (str * list (list vty * vty)) := [
   (B "abs", [([TInt], TInt); ([TFloat], TFloat)]);
   (B "bit_and", [([TInt; TInt], TInt)]);
   (B "bit_or", [([TInt; TInt], TInt)]);
   (B "bit_xor", [([TInt; TInt], TInt)]);
   (B "floor", [([TInt], TFloat); ([TFloat], TFloat)]);
   (B "ceil", [([TInt], TFloat); ([TFloat], TFloat)]);
   (B "round", [([TInt], TFloat); ([TFloat], TFloat)]);
   (B "sqrt", [([TInt], TFloat); ([TFloat], TFloat)]);
   (B "cbrt", [([TInt], TFloat); ([TFloat], TFloat)]);
   (B "hypot", [([TInt; TInt], TFloat); ([TInt; TFloat], TFloat); ([TFloat; TInt], TFloat); ([TFloat; TFloat], TFloat)]);
   (B "pow", [([TInt; TInt], TInt); ([TInt; TFloat], TFloat); ([TFloat; TInt], TFloat); ([TFloat; TFloat], TFloat)]);
   (B "e", [([], TFloat)]);
   (B "exp", [([TInt], TFloat); ([TFloat], TFloat)]);
   (B "exp2", [([TInt], TFloat); ([TFloat], TFloat)]);
   (B "log", [([TInt], TFloat); ([TFloat], TFloat)]);
   (B "log2", [([TInt], TFloat); ([TFloat], TFloat)]);
   (B "log10", [([TInt], TFloat); ([TFloat], TFloat)]);
   (B "pi", [([], TFloat)]);
   (B "radians", [([TInt], TFloat); ([TFloat], TFloat)]);
   (B "sin", [([TInt], TFloat); ([TFloat], TFloat)]);
   (B "cos", [([TInt], TFloat); ([TFloat], TFloat)]);
   (B "asin", [([TInt], TFloat); ([TFloat], TFloat)]);
   (B "acos", [([TInt], TFloat); ([TFloat], TFloat)]);
   (B "tan", [([TInt], TFloat); ([TFloat], TFloat)]);
   (B "atan", [([TInt], TFloat); ([TFloat], TFloat)]);
   (B "sign", [([TInt], TInt); ([TFloat], TInt)]);
   (B "rand", [([], TFloat)]);
   (B "rand32", [([], TInt); ([TInt], TInt); ([TInt; TInt], TInt)]);
   (B "rand64", [([], TInt); ([TInt], TInt); ([TInt; TInt], TInt)]);
   (B "now", [([], TInt)]);
   (B "strcasecmp", [([TStr; TStr], TStr)]);
   (B "lower", [([TStr], TStr)]);
   (B "tolower", [([TStr], TStr)]);
   (B "upper", [([TStr], TStr)]);
   (B "toupper", [([TStr], TStr)]);
   (B "length", [([TStr], TInt); ([TPath], TInt)]);
   (B "trim", [([TStr], TStr)]);
   (B "ltrim", [([TStr], TStr)]);
   (B "rtrim", [([TStr], TStr)]);
   (B "left", [([TStr; TInt], TStr)]);
   (B "right", [([TStr; TInt], TStr)]);
   (B "replace", [([TStr; TStr; TStr], TStr)]);
   (B "reverse", [([TStr], TStr); ([TList], TList)]);
   (B "split", [([TStr; TStr], TList)]);
   (B "lpad", [([TStr; TInt; TStr], TStr)]);
   (B "rpad", [([TStr; TInt; TStr], TStr)]);
   (B "substr", [([TStr; TInt; TInt], TStr); ([TStr; TInt], TStr)]);
   (B "substring", [([TStr; TInt; TInt], TStr); ([TStr; TInt], TStr)]);
   (B "tostring", [([TInt], TStr); ([TFloat], TStr); ([TStr], TStr); ([TBool], TStr); ([TDate], TStr); ([TTime], TStr); ([TDateTime], TStr)]);
   (B "toboolean", [([TStr], TBool); ([TStr], TNull); ([TBool], TBool)]);
   (B "tofloat", [([TStr], TFloat); ([TStr], TNull); ([TFloat], TFloat); ([TInt], TFloat)]);
   (B "tointeger", [([TStr], TInt); ([TStr], TNull); ([TFloat], TInt); ([TInt], TInt)]);
   (B "hash", [([TInt], TInt); ([TFloat], TInt); ([TStr], TInt); ([TNull], TInt); ([TEmpty], TInt); ([TBool], TInt); ([TDate], TInt); ([TDateTime], TInt); ([TPath], TInt); ([TVertex], TInt); ([TEdge], TInt); ([TList], TInt)]);
   (B "size", [([TStr], TInt); ([TNull], TNull); ([TEmpty], TEmpty); ([TList], TInt); ([TMap], TInt); ([TSet], TInt); ([TDataSet], TInt)]);
   (B "time", [([], TTime); ([TStr], TTime); ([TMap], TTime)]);
   (B "date", [([], TDate); ([TStr], TDate); ([TMap], TDate)]);
   (B "datetime", [([], TDateTime); ([TStr], TDateTime); ([TMap], TDateTime)]);
   (B "timestamp", [([], TInt); ([TStr], TInt); ([TInt], TInt)]);
   (B "tags", [([TVertex], TList)]);
   (B "labels", [([TVertex], TList)]);
   (B "properties", [([TVertex], TMap); ([TEdge], TMap); ([TMap], TMap)]);
   (B "type", [([TEdge], TStr)]);
   (B "typeid", [([TEdge], TInt)]);
   (B "rank", [([TEdge], TInt)]);
   (B "startnode", [([TEdge], TVertex); ([TPath], TVertex)]);
   (B "endnode", [([TEdge], TVertex); ([TPath], TVertex)]);
   (B "keys", [([TVertex], TList); ([TEdge], TList); ([TMap], TList)]);
   (B "nodes", [([TPath], TList)]);
   (B "tail", [([TList], TList)]);
   (B "relationships", [([TPath], TList)]);
   (B "head", [([TList], TEmpty)]);
   (B "last", [([TList], TEmpty)]);
   (B "coalesce", [([TList], TEmpty)]);
   (B "range", [([TInt; TInt], TList); ([TInt; TInt; TInt], TList)]);
   (B "hassameedgeinpath", [([TPath], TBool)]);
   (B "hassamevertexinpath", [([TPath], TBool)]);
   (B "reversepath", [([TPath], TPath)]);
   (B "datasetrowcol", [([TDataSet; TInt; TInt], TEmpty); ([TDataSet; TInt; TStr], TEmpty)])
].

Fixpoint findName {A} (n : str) (l : list (str * A)) : option A :=
  match l with [] => None | (k, a) :: l' => if strEqb k n then Some a else findName n l' end.
Fixpoint findSig (tys : list vty) (l : list (list vty * vty)) : option vty :=
  match l with [] => None | (a, r) :: l' => if tysEqb tys a then Some r else findSig tys l' end.
Fixpoint firstNullish (tys : list vty) : option vty :=
  match tys with [] => None | t :: tys' => match t with TEmpty | TNull => Some t | _ => firstNullish tys' end end.
(** FunctionManager::getReturnType, FunctionManager.cpp:242-268; None = an error status *)
Definition returnType (sigs : list (list vty * vty)) (tys : list vty) : option vty :=
  match findSig tys sigs with Some r => Some r | None => firstNullish tys end.
Definition getReturnType (name : str) (tys : list vty) : option vty :=
  match findName (lower name) signatures with None => None | Some sigs => returnType sigs tys end.

(** std::tm as std::get_time leaves it: year since 1900, month 0..11, day, hour, minute, second *)
Record tmFields := mkTm { tmYear : Z; tmMon : Z; tmDay : Z; tmHour : Z; tmMin : Z; tmSec : Z }.

Inductive mathFn := MFloor | MCeil | MRound | MSqrt | MCbrt | MExp | MExp2 | MLog | MLog2 | MLog10
  | MSin | MAsin | MCos | MAcos | MTan | MAtan.
(** What the bodies use and the model leaves open, but which is the same in every call: the math library, std::get_time
    with the three formats of TimeUtils.h:60-66, 130, 181 (None = the stream failed; the tm that TimeUtils passes is
    uninitialised, a field that the format does not set is whatever the record says), the zone offset, fuel for loops. *)
Record world := mkWorld {
  wMath : mathFn -> f64 -> f64;
  wHypot : f64 -> f64 -> f64;
  wPow : f64 -> f64 -> f64;
  wGetDate : str -> option tmFields;
  wGetTime : str -> option tmFields;
  wGetDateTime : str -> option tmFields;
  wOffset : Z;
  wFuel : nat }.
(** What may differ between two calls: the random generator and the clock. folly::Random::rand32(max), rand32(min, max),
    rand64(...) are computed from one random word; the distribution is not modelled. *)
Record oracle := mkOracle { oDouble : f64; oRand32 : Z; oRand64 : Z; oNow : Z; oUnix : Z; oMillis : Z }.

(** * Dates and times from maps and text *)
(** One key of dateTimeFromMap / dateFromMap / timeFromMap, TimeUtils.cpp:23-65, 78-100, 113-142: the range of a field. *)
Definition fieldRange (k : str) : option (Z * Z) :=
  if strEqb k (B "year") then Some (-32768, 32767)
  else if strEqb k (B "month") then Some (1, 12)
  else if strEqb k (B "day") then Some (1, 31)
  else if strEqb k (B "hour") then Some (0, 23)
  else if strEqb k (B "minute") then Some (0, 59)
  else if strEqb k (B "second") then Some (0, 59)
  else if strEqb k (B "microsecond") then Some (0, 999999)
  else None.
Definition setField (k : str) (z : Z) (d : datetime) : datetime :=
  let '(mkDT y mo da h mi s us) := d in
  if strEqb k (B "year") then mkDT z mo da h mi s us
  else if strEqb k (B "month") then mkDT y z da h mi s us
  else if strEqb k (B "day") then mkDT y mo z h mi s us
  else if strEqb k (B "hour") then mkDT y mo da z mi s us
  else if strEqb k (B "minute") then mkDT y mo da h z s us
  else if strEqb k (B "second") then mkDT y mo da h mi z us
  else mkDT y mo da h mi s z.
(** The loops over the map, TimeUtils.cpp:23-67, 77-102, 112-143; [ok k] says which keys this function knows. The three
    functions fill a DateTime, a Date or a Time; here all fill a DateTime whose other fields stay at their defaults. *)
Fixpoint fromMapLoop (ok : str -> bool) (m : list (str * value)) (d : datetime) : option datetime :=
  match m with
  | [] => Some d
  | (k, VInt z) :: m' =>
      if ok k then
        match fieldRange k with
        | Some (lo, hi) => if (z <? lo) || (hi <? z) then None else fromMapLoop ok m' (setField k z d)
        | None => None
        end
      else None
  | _ :: _ => None
  end.
(** Date(), Time(), DateTime(): Date.h:25, 90, 154 *)
Definition dt0 : datetime := mkDT 0 1 1 0 0 0 0.
Definition isDateKey (k : str) : bool := existsb (strEqb k) [B "year"; B "month"; B "day"].
Definition isTimeKey (k : str) : bool := existsb (strEqb k) [B "hour"; B "minute"; B "second"; B "microsecond"].

(** TimeUtils::dateTimeFromMap, TimeUtils.cpp:20-73; None = an error status *)
Definition dateTimeFromMap (m : list (str * value)) : outcome (option datetime) :=
  match fromMapLoop (fun k => isDateKey k || isTimeKey k) m dt0 with
  | None => Ret None
  | Some d => let* ok := validateDateTime d in Ret (if ok : bool then Some d else None)
  end.
(** TimeUtils::dateFromMap, TimeUtils.cpp:75-108 *)
Definition dateFromMap (m : list (str * value)) : outcome (option date) :=
  match fromMapLoop isDateKey m dt0 with
  | None => Ret None
  | Some d => let r := mkDate (dyear d) (dmonth d) (dday d) in
              let* ok := validateDate r in Ret (if ok : bool then Some r else None)
  end.
(** TimeUtils::timeFromMap, TimeUtils.cpp:110-145 *)
Definition timeFromMap (m : list (str * value)) : option time :=
  match fromMapLoop isTimeKey m dt0 with
  | None => None
  | Some d => Some (mkTime (dhour d) (dminute d) (dsec d) (dmicro d))
  end.

Section Bodies.
Context (X : externals) (W : world).

(** TimeUtils::parseDateTime, TimeUtils.h:57-77. The stores into the bit fields and int8_t members truncate. *)
Definition parseDateTime (s : str) : outcome (option datetime) :=
  match wGetDateTime W s with
  | None => Ret None
  | Some t => let d := mkDT (wrap16 (tmYear t + 1900)) ((tmMon t + 1) mod 16) (tmDay t mod 32)
                            (tmHour t mod 32) (tmMin t mod 64) (tmSec t mod 64) 0 in
              let* ok := validateDateTime d in Ret (if ok : bool then Some d else None)
  end.
(** TimeUtils::parseDate, TimeUtils.h:127-140 *)
Definition parseDate (s : str) : outcome (option date) :=
  match wGetDate W s with
  | None => Ret None
  | Some t => let d := mkDate (wrap16 (tmYear t + 1900)) (wrap8 (tmMon t + 1)) (wrap8 (tmDay t)) in
              let* ok := validateDate d in Ret (if ok : bool then Some d else None)
  end.
(** TimeUtils::parseTime, TimeUtils.h:178-191 *)
Definition parseTime (s : str) : option time :=
  match wGetTime W s with
  | None => None
  | Some t => Some (mkTime (wrap8 (tmHour t)) (wrap8 (tmMin t)) (wrap8 (tmSec t)) 0)
  end.
(** kMaxTimestamp and TimeUtils::toTimestamp, TimeUtils.cpp:18, 147-171 *)
Definition kMaxTimestamp : Z := int64_max / 1000000000.
Definition checkTimestamp (z : Z) : option Z := if (z <? 0) || (kMaxTimestamp <? z) then None else Some z.
Definition toTimestamp (v : value) : outcome (option Z) :=
  match v with
  | VStr s =>
      let* r := parseDateTime s in
      match r with
      | None => Ret None
      | Some d => if negb (dmicro d =? 0) then Ret None
                  else let* z := dateTimeToUnixSeconds d in Ret (checkTimestamp z)
      end
  | VInt z => Ret (checkTimestamp z)
  | _ => Ret None
  end.

(** * Bodies *)
Definition isNumeric (v : value) : bool := match v with VInt _ | VFloat _ => true | _ => false end.
Definition asDouble (v : value) : f64 := match v with VInt z => f64ofZ z | VFloat f => f | _ => S754_nan end.
Definition f64zero : f64 := f64ofZ 0.
(** bit_and, bit_or, bit_xor, FunctionManager.cpp:294-321 *)
Definition fBit (f : Z -> Z -> Z) (args : list value) : outcome value :=
  match args with a :: b :: _ => Ret (vbit f a b) | _ => UB end.
(** floor, ceil, round, cbrt, exp, exp2, sin, asin, cos, acos, tan, atan: FunctionManager.cpp:322-390, 422-444, 494-539,
    665-796; an integer argument is converted to double by the overload for integers *)
Definition fMath (g : mathFn) (args : list value) : outcome value :=
  match args with
  | VNull _ :: _ => Ret kNull
  | VInt z :: _ => Ret (VFloat (wMath W g (f64ofZ z)))
  | VFloat f :: _ => Ret (VFloat (wMath W g f))
  | _ :: _ => Ret kBadType
  | [] => UB
  end.
(** sqrt, 391-421 *)
Definition fSqrt (args : list value) : outcome value :=
  match args with
  | VNull _ :: _ => Ret kNull
  | VInt z :: _ => if z <? 0 then Ret kNull else Ret (VFloat (wMath W MSqrt (f64ofZ z)))
  | VFloat f :: _ => if f64ltb f f64zero then Ret kNull else Ret (VFloat (wMath W MSqrt f))
  | _ :: _ => Ret kBadType
  | [] => UB
  end.
(** log, log2, log10: 540-632 *)
Definition fLog (g : mathFn) (args : list value) : outcome value :=
  match args with
  | VNull _ :: _ => Ret kNull
  | VInt z :: _ => if z =? 0 then Ret kNull else Ret (VFloat (wMath W g (f64ofZ z)))
  | VFloat f :: _ => if f64leb (f64neg kEpsilon) f && f64leb f kEpsilon then Ret kNull else Ret (VFloat (wMath W g f))
  | _ :: _ => Ret kBadType
  | [] => UB
  end.
(** hypot, 445-459 *)
Definition fHypot (args : list value) : outcome value :=
  match args with
  | a :: b :: _ => Ret (if isNumeric a && isNumeric b then VFloat (wHypot W (asDouble a) (asDouble b)) else kBadType)
  | _ => UB
  end.
(** pow, 460-482: two integers go through double; static_cast<int64_t> of a double out of range is undefined *)
Definition fPow (args : list value) : outcome value :=
  match args with
  | a :: b :: _ =>
      if isNumeric a && isNumeric b then
        let r := wPow W (asDouble a) (asDouble b) in
        match a, b with
        | VInt _, VInt _ => let* z := f64toInt r in Ret (VInt z)
        | _, _ => Ret (VFloat r)
        end
      else Ret kBadType
  | _ => UB
  end.
(** e, pi: 483-493, 633-643 *)
Definition kE : f64 := S754_finite false 6121026514868073 (-51).
Definition kPi : f64 := S754_finite false 7074237752028440 (-51).
Definition fConst (c : f64) (args : list value) : outcome value := Ret (VFloat c).
(** radians, 644-664: Value arithmetic *)
Definition fRadians (args : list value) : outcome value :=
  match args with
  | VNull _ :: _ => Ret kNull
  | (VInt _ | VFloat _) as a :: _ => let* p := vmul a (VFloat kPi) in vdiv p (VInt 180)
  | _ :: _ => Ret kBadType
  | [] => UB
  end.
(** sign, 797-820 *)
Definition fSign (args : list value) : outcome value :=
  match args with
  | VNull _ :: _ => Ret kNull
  | VInt z :: _ => Ret (VInt (if 0 <? z then 1 else if z <? 0 then -1 else 0))
  | VFloat f :: _ => Ret (VInt (if f64ltb f64zero f then 1 else if f64ltb f f64zero then -1 else 0))
  | _ :: _ => Ret kBadType
  | [] => UB
  end.
(** strcasecmp, 910-922: the difference of the first lower-case bytes that differ (glibc, C locale) *)
Fixpoint casecmp (a b : str) : Z :=
  match a, b with
  | [], [] => 0
  | x :: _, [] => lowerByte x
  | [], y :: _ => - lowerByte y
  | x :: a', y :: b' => if lowerByte x =? lowerByte y then casecmp a' b' else lowerByte x - lowerByte y
  end.
Definition fStrcasecmp (args : list value) : outcome value :=
  match args with
  | VStr a :: VStr b :: _ => Ret (VInt (casecmp (cstr a) (cstr b)))
  | _ :: _ :: _ => Ret kBadType
  | _ => UB
  end.
(** lower / tolower 923-944, upper / toupper 945-968 (C locale) *)
Definition upperByte (b : Z) : Z := if (97 <=? b) && (b <=? 122) then b - 32 else b.
Definition onStr (f : str -> value) (args : list value) : outcome value :=
  match args with VNull _ :: _ => Ret kNull | VStr s :: _ => Ret (f s) | _ :: _ => Ret kBadType | [] => UB end.
Definition fLower := onStr (fun s => VStr (lower s)).
Definition fUpper := onStr (fun s => VStr (map upperByte s)).
(** length, 969-992 *)
Definition fLength (args : list value) : outcome value :=
  match args with
  | VNull _ :: _ => Ret kNull
  | VStr s :: _ => Ret (VInt (sizeOf s))
  | VPath p :: _ => Ret (VInt (sizeOf (psteps p)))
  | _ :: _ => Ret kBadType
  | [] => UB
  end.
(** trim, ltrim, rtrim: 993-1052; folly::ltrimWhitespace removes ' ', '\n', '\t', '\r' *)
Definition trimmed (b : Z) : bool := (b =? 32) || (b =? 10) || (b =? 9) || (b =? 13).
Fixpoint ltrim (s : str) : str := match s with b :: s' => if trimmed b then ltrim s' else s | [] => [] end.
Definition rtrim (s : str) : str := rev (ltrim (rev s)).
Definition fTrim (f : str -> str) := onStr (fun s => VStr (f s)).
(** tostring, 1191-1231 *)
Definition fTostring (args : list value) : outcome value :=
  match args with
  | VNull _ :: _ => Ret kNull
  | VInt z :: _ => Ret (VStr (decZ z))
  | VFloat f :: _ => let s := xfmt X f in Ret (VStr (if existsb (fun b => b =? 46) s then s else (s ++ B ".0")%list))
  | VBool b :: _ => Ret (VStr (if b then B "true" else B "false"))
  | VStr s :: _ => Ret (VStr s)
  | VDate d :: _ => Ret (VStr (dateStr d))
  | VTime t :: _ => Ret (VStr (timeStr t))
  | VDateTime t :: _ => Ret (VStr (datetimeStr t))
  | _ :: _ => Ret kBadType
  | [] => UB
  end.
(** toboolean, tofloat, tointeger: 1232-1258. The conversions are those of EvalModel, which reads only [eX] of its environment. *)
Definition convEnv : env :=
  mkEnv X (fun _ _ => None) (fun _ _ => UB) (fun _ => VEmpty) (fun _ _ _ => VEmpty) (fun _ _ _ => VEmpty) (fun _ _ => VEmpty)
    (fun _ _ => VEmpty) (fun _ _ => VEmpty) (fun _ _ => VEmpty) (fun _ => VEmpty) (fun _ => VEmpty) VEmpty VEmpty.
Definition fTobool (args : list value) : outcome value := match args with v :: _ => Ret (vtoBool v) | [] => UB end.
Definition fTofloat (args : list value) : outcome value := match args with v :: _ => Ret (vtoFloat convEnv v) | [] => UB end.
Definition fTointeger (args : list value) : outcome value := match args with v :: _ => vtoInt convEnv v | [] => UB end.
(** hash, 1354-1380 *)
Definition fHash (args : list value) : outcome value :=
  match args with
  | (VNull _ | VEmpty | VInt _ | VFloat _ | VBool _ | VStr _ | VDate _ | VDateTime _ | VVertex _ | VEdge _ | VPath _ | VList _)
      as v :: _ => let* h := vhash X v in Ret (VInt (wrap64 h))
  | _ :: _ => Ret kBadType
  | [] => UB
  end.
(** udf_is_in, 1381-1389 *)
Definition fIsIn (args : list value) : outcome value :=
  match args with v :: l => Ret (VBool (existsb (fun w => veq X w v) l)) | [] => UB end.
(** near, 1390-1406 *)
Definition fNear (args : list value) : outcome value := Ret (VStr []).
(** cos_similarity, 1407-1443; [args[i]] and [args[i + mid]] *)
Fixpoint cosLoop (l r : list value) (s1 s2 s3 : f64) : option (f64 * f64 * f64) :=
  match l, r with
  | x :: l', y :: r' =>
      if isNumeric x && isNumeric y then
        let xi := asDouble x in let yi := asDouble y in
        cosLoop l' r' (f64add s1 (f64mul xi yi)) (f64add s2 (f64mul xi xi)) (f64add s3 (f64mul yi yi))
      else None
  | _, _ => Some (s1, s2, s3)
  end.
Definition fCosSim (args : list value) : outcome value :=
  if negb (Nat.even (List.length args)) then Ret (VFloat (f64ofZ (-2)))
  else let mid := Nat.div2 (List.length args) in
       match cosLoop (firstn mid args) (skipn mid args) f64zero f64zero f64zero with
       | None => Ret kBadType
       | Some (s1, s2, s3) =>
           if f64leb (f64abs s2) kEpsilon || f64leb (f64abs s3) kEpsilon then Ret (VFloat (f64ofZ (-2)))
           else Ret (VFloat (f64div s1 (f64mul (wMath W MSqrt s2) (wMath W MSqrt s3))))
       end.
(** hassameedgeinpath, hassamevertexinpath: 2038-2063 *)
Definition fSameEdge (args : list value) : outcome value :=
  match args with
  | VPath p :: _ => let* b := hasDuplicateEdges X p in Ret (VBool b)
  | _ :: _ => Ret kBadType
  | [] => UB
  end.
Definition fSameVertex (args : list value) : outcome value :=
  match args with
  | VPath p :: _ => let* b := hasDuplicateVertices X p in Ret (VBool b)
  | _ :: _ => Ret kBadType
  | [] => UB
  end.

(** rand, 821-831 *)
Definition fRand (o : oracle) (args : list value) : outcome value := Ret (VFloat (oDouble o)).
(** rand32, 832-868. folly::Random::rand32(max) is 0 for max = 0, else below max; rand32(min, max) is in [min, max).
    More than two arguments fail the DCHECK in a debug build only; the arity check excludes them. *)
Definition below (w max : Z) : Z := if max =? 0 then 0 else w mod max.
Definition fRand32 (o : oracle) (args : list value) : outcome value :=
  match args with
  | [] => Ret (VInt (wrap32 (oRand32 o)))
  | [VInt max] =>
      if (max <? 0) || (4294967295 <? max) then Ret (VNull NBadData) else Ret (VInt (wrap32 (below (oRand32 o) max)))
  | [_] => Ret kBadType
  | VInt min :: VInt max :: _ =>
      if (max <? 0) || (min <? 0) || (4294967295 <? max) || (4294967295 <? min) then Ret (VNull NBadData)
      else if max <=? min then Ret (VNull NBadData)
      else Ret (VInt (min + below (oRand32 o) (max - min)))
  | _ :: _ :: _ => Ret kBadType
  end.
(** rand64, 869-899 *)
Definition fRand64 (o : oracle) (args : list value) : outcome value :=
  match args with
  | [] => Ret (VInt (wrap64 (oRand64 o)))
  | [VInt max] => if max <? 0 then Ret (VNull NBadData) else Ret (VInt (wrap64 (below (oRand64 o) max)))
  | [_] => Ret kBadType
  | VInt min :: VInt max :: _ =>
      if (max <? 0) || (min <? 0) || (max <=? min) then Ret (VNull NBadData)
      else Ret (VInt (wrap64 (min + below (oRand64 o) (max - min))))
  | _ :: _ :: _ => Ret kBadType
  end.
(** now, 900-909 *)
Definition fNow (o : oracle) (args : list value) : outcome value := Ret (VInt (oNow o)).
(** date, 1479-1516; std::time returns -1 when it fails *)
Definition fDate (o : oracle) (args : list value) : outcome value :=
  match args with
  | [] => if oUnix o =? -1 then Ret (VNull NBadData) else let* d := utcDate (oUnix o) in Ret (VDate d)
  | [VStr s] => let* r := parseDate s in Ret (match r with Some d => VDate d | None => VNull NBadData end)
  | [VMap m] => let* r := dateFromMap m in Ret (match r with Some d => VDate d | None => VNull NBadData end)
  | [_] => Ret kBadType
  | _ => Fatal
  end.
(** time, 1517-1550 *)
Definition fTime (o : oracle) (args : list value) : outcome value :=
  let conv r := match r with
                | Some t => let* u := timeToUTC (wOffset W) t in Ret (VTime u)
                | None => Ret (VNull NBadData)
                end in
  match args with
  | [] => let* t := utcTime (oUnix o) (oMillis o) in Ret (VTime t)
  | [VStr s] => conv (parseTime s)
  | [VMap m] => conv (timeFromMap m)
  | [_] => Ret kBadType
  | _ => Fatal
  end.
(** datetime, 1551-1584 *)
Definition fDatetime (o : oracle) (args : list value) : outcome value :=
  let conv r := match r with
                | Some t => let* u := dateTimeToUTC (wOffset W) t in Ret (VDateTime u)
                | None => Ret (VNull NBadData)
                end in
  match args with
  | [] => let* t := utcDateTime (oUnix o) (oMillis o) in Ret (VDateTime t)
  | [VStr s] => let* r := parseDateTime s in conv r
  | [VMap m] => let* r := dateTimeFromMap m in conv r
  | [_] => Ret (VNull NBadData)
  | _ => Fatal
  end.
(** timestamp, 1585-1600 *)
Definition fTimestamp (o : oracle) (args : list value) : outcome value :=
  match args with
  | [] => Ret (VInt (oNow o))
  | v :: _ => let* r := toTimestamp v in Ret (match r with Some z => VInt z | None => VNull NBadData end)
  end.

(** struct FunctionAttributes, FunctionManager.h *)
Record attr := mkAttr { minArity : Z; maxArity : Z; isPure : bool; body : oracle -> list value -> outcome value }.
Definition det (f : list value -> outcome value) (o : oracle) (args : list value) : outcome value := f args.

(** functions_: the constructor, FunctionManager.cpp:270-2108, one entry per registration *)
Definition functions : list (str * attr) := [
   (B "abs", mkAttr 1 1 true (det (fAbs))); (* 273-293 *)
   (B "bit_and", mkAttr 2 2 true (det (fBit Z.land))); (* 295-302 *)
   (B "bit_or", mkAttr 2 2 true (det (fBit Z.lor))); (* 304-311 *)
   (B "bit_xor", mkAttr 2 2 true (det (fBit Z.lxor))); (* 313-321 *)
   (B "floor", mkAttr 1 1 true (det (fMath MFloor))); (* 323-344 *)
   (B "ceil", mkAttr 1 1 true (det (fMath MCeil))); (* 346-367 *)
   (B "round", mkAttr 1 1 true (det (fMath MRound))); (* 369-390 *)
   (B "sqrt", mkAttr 1 1 true (det (fSqrt))); (* 392-421 *)
   (B "cbrt", mkAttr 1 1 true (det (fMath MCbrt))); (* 423-444 *)
   (B "hypot", mkAttr 2 2 true (det (fHypot))); (* 446-459 *)
   (B "pow", mkAttr 2 2 true (det (fPow))); (* 461-482 *)
   (B "e", mkAttr 0 0 true (det (fConst kE))); (* 484-493 *)
   (B "exp", mkAttr 1 1 true (det (fMath MExp))); (* 495-516 *)
   (B "exp2", mkAttr 1 1 true (det (fMath MExp2))); (* 518-539 *)
   (B "log", mkAttr 1 1 true (det (fLog MLog))); (* 541-570 *)
   (B "log2", mkAttr 1 1 true (det (fLog MLog2))); (* 572-601 *)
   (B "log10", mkAttr 1 1 true (det (fLog MLog10))); (* 603-632 *)
   (B "pi", mkAttr 0 0 true (det (fConst kPi))); (* 634-643 *)
   (B "radians", mkAttr 1 1 true (det (fRadians))); (* 645-664 *)
   (B "sin", mkAttr 1 1 true (det (fMath MSin))); (* 666-686 *)
   (B "asin", mkAttr 1 1 true (det (fMath MAsin))); (* 688-708 *)
   (B "cos", mkAttr 1 1 true (det (fMath MCos))); (* 710-730 *)
   (B "acos", mkAttr 1 1 true (det (fMath MAcos))); (* 732-752 *)
   (B "tan", mkAttr 1 1 true (det (fMath MTan))); (* 754-774 *)
   (B "atan", mkAttr 1 1 true (det (fMath MAtan))); (* 776-796 *)
   (B "sign", mkAttr 1 1 true (det (fSign))); (* 798-820 *)
   (B "rand", mkAttr 0 0 true fRand); (* 822-831 *)
   (B "rand32", mkAttr 0 2 false (fRand32)); (* 833-868 *)
   (B "rand64", mkAttr 0 2 false (fRand64)); (* 870-899 *)
   (B "now", mkAttr 0 0 false (fNow)); (* 901-909 *)
   (B "strcasecmp", mkAttr 2 2 true (det (fStrcasecmp))); (* 911-922 *)
   (B "lower", mkAttr 1 1 true (det (fLower))); (* 924-944 *)
   (B "tolower", mkAttr 1 1 true (det (fLower))); (* 924-944 *)
   (B "upper", mkAttr 1 1 true (det (fUpper))); (* 946-968 *)
   (B "toupper", mkAttr 1 1 true (det (fUpper))); (* 946-968 *)
   (B "length", mkAttr 1 1 true (det (fLength))); (* 970-992 *)
   (B "trim", mkAttr 1 1 true (det (fTrim (fun s => ltrim (rtrim s))))); (* 994-1012 *)
   (B "ltrim", mkAttr 1 1 true (det (fTrim ltrim))); (* 1014-1032 *)
   (B "rtrim", mkAttr 1 1 true (det (fTrim rtrim))); (* 1034-1052 *)
   (B "left", mkAttr 2 2 true (det (fLeft))); (* 1054-1080 *)
   (B "right", mkAttr 2 2 true (det (fRight))); (* 1082-1112 *)
   (B "replace", mkAttr 3 3 true (det (fReplace))); (* 1114-1130 *)
   (B "reverse", mkAttr 1 1 true (det (fReverse))); (* 1132-1157 *)
   (B "split", mkAttr 2 2 true (det (fSplit))); (* 1159-1190 *)
   (B "tostring", mkAttr 1 1 true (det (fTostring))); (* 1192-1231 *)
   (B "toboolean", mkAttr 1 1 true (det (fTobool))); (* 1233-1240 *)
   (B "tofloat", mkAttr 1 1 true (det (fTofloat))); (* 1242-1249 *)
   (B "tointeger", mkAttr 1 1 true (det (fTointeger))); (* 1251-1258 *)
   (B "lpad", mkAttr 3 3 true (det (fLpad (wFuel W)))); (* 1260-1287 *)
   (B "rpad", mkAttr 3 3 true (det (fRpad (wFuel W)))); (* 1289-1317 *)
   (B "substr", mkAttr 2 3 true (det (fSubstr))); (* 1319-1353 *)
   (B "substring", mkAttr 2 3 true (det (fSubstr))); (* 1319-1353 *)
   (B "hash", mkAttr 1 1 true (det (fHash))); (* 1355-1380 *)
   (B "udf_is_in", mkAttr 2 int64_max true (det (fIsIn))); (* 1382-1389 *)
   (B "near", mkAttr 2 2 true (det (fNear))); (* 1391-1406 *)
   (B "cos_similarity", mkAttr 2 int64_max true (det (fCosSim))); (* 1408-1443 *)
   (B "size", mkAttr 1 1 true (det (fSize))); (* 1445-1478 *)
   (B "date", mkAttr 0 1 false (fDate)); (* 1480-1516 *)
   (B "time", mkAttr 0 1 false (fTime)); (* 1518-1550 *)
   (B "datetime", mkAttr 0 1 false (fDatetime)); (* 1552-1584 *)
   (B "timestamp", mkAttr 0 1 false (fTimestamp)); (* 1586-1600 *)
   (B "range", mkAttr 2 3 true (det (fRange (wFuel W)))); (* 1602-1630 *)
   (B "id", mkAttr 1 1 true (det (fId))); (* 1632-1649 *)
   (B "tags", mkAttr 1 1 true (det (fTags))); (* 1651-1673 *)
   (B "labels", mkAttr 1 1 true (det (fTags))); (* 1651-1673 *)
   (B "properties", mkAttr 1 1 true (det (fProperties))); (* 1675-1704 *)
   (B "type", mkAttr 1 1 true (det (fType))); (* 1706-1723 *)
   (B "typeid", mkAttr 1 1 true (det (fTypeid))); (* 1725-1742 *)
   (B "src", mkAttr 1 1 true (det (fSrc))); (* 1744-1762 *)
   (B "dst", mkAttr 1 1 true (det (fDst))); (* 1764-1782 *)
   (B "rank", mkAttr 1 1 true (det (fRank))); (* 1784-1801 *)
   (B "startnode", mkAttr 1 1 true (det (fStartNode))); (* 1803-1823 *)
   (B "endnode", mkAttr 1 1 true (det (fEndNode))); (* 1825-1849 *)
   (B "head", mkAttr 1 1 true (det (fHead))); (* 1851-1868 *)
   (B "last", mkAttr 1 1 true (det (fLast))); (* 1870-1887 *)
   (B "coalesce", mkAttr 1 1 true (det (fCoalesce X))); (* 1889-1915 *)
   (B "keys", mkAttr 1 1 true (det (fKeys))); (* 1917-1955 *)
   (B "nodes", mkAttr 1 1 true (det (fNodes))); (* 1957-1980 *)
   (B "tail", mkAttr 1 1 true (det (fTail))); (* 1982-2003 *)
   (B "relationships", mkAttr 1 1 true (det (fRelationships))); (* 2005-2037 *)
   (B "hassameedgeinpath", mkAttr 1 1 true (det (fSameEdge))); (* 2039-2050 *)
   (B "hassamevertexinpath", mkAttr 1 1 true (det (fSameVertex))); (* 2052-2063 *)
   (B "reversepath", mkAttr 1 1 true (det (fReversePath))); (* 2065-2077 *)
   (B "datasetrowcol", mkAttr 3 3 true (det (fRowCol))) (* 2079-2106 *)
].

(** FunctionManager::getInternal, FunctionManager.cpp:2131-2159; None = an error status *)
Definition getInternal (name : str) (arity : Z) : option attr :=
  match findName (lower name) functions with
  | None => None
  | Some a => if (arity <? minArity a) || (maxArity a <? arity) then None else Some a
  end.
(** FunctionManager::get, 2111-2115, and the call of the body it returns *)
Definition callFunction (name : str) (o : oracle) (args : list value) : option (outcome value) :=
  match getInternal name (sizeOf args) with None => None | Some a => Some (body a o args) end.
(** FunctionManager::getIsPure, 2124-2128 *)
Definition getIsPure (name : str) (arity : Z) : option bool := option_map isPure (getInternal name arity).
End Bodies.
