(** Which casts are validated: /repo/src/common/expression/TypeCastingExpression.cpp:12-62. The cast itself is [castTo] of EvalModel. *)
From Verif Require Import Prelude.
Open Scope Z_scope.

(** typeCastMap, 12-46: the type of the operand and the type to cast to, as the bits of Value::Type (Value.h:72-89) *)
Definition tEmpty := 1. Definition tBool := 2. Definition tInt := 4. Definition tFloat := 8. Definition tString := 16. Definition tDate := 32. Definition tTime := 64.
Definition tDateTime := 128. Definition tVertex := 256. Definition tEdge := 512. Definition tPath := 1024. Definition tList := 2048. Definition tMap := 4096.
Definition tSet := 8192. Definition tDataSet := 16384. Definition tNull := 9223372036854775808.
Definition typeCastMap : list (Z * Z) :=
  [(tInt, tInt); (tFloat, tInt); (tString, tInt); (tEmpty, tInt);
   (tString, tString); (tEmpty, tString); (tNull, tString); (tBool, tString); (tInt, tString); (tFloat, tString); (tDate, tString); (tDateTime, tString);
   (tMap, tString); (tPath, tString); (tList, tString); (tSet, tString); (tDataSet, tString); (tVertex, tString); (tEdge, tString);
   (tBool, tBool); (tEmpty, tBool); (tNull, tBool); (tInt, tBool); (tFloat, tBool); (tString, tBool); (tDate, tBool);
   (tFloat, tFloat); (tInt, tFloat); (tString, tFloat); (tEmpty, tFloat)].
(** validateTypeCast, 49-62 *)
Definition validateTypeCast (operand type : Z) : bool := existsb (fun p => (fst p =? operand) && (snd p =? type)) typeCastMap.
