(** Specification for C188: what a function is called with. *)
From Coq Require Import String List.
From Verif Require Import Prelude ValueBase DateModel TimeModel ValueModel ValueProofs ExprModel ExprSpec EvalModel ValueProps FuncModel FuncTableModel FaultSpec SoundSpec.
Import ListNotations.
Local Open Scope list_scope.
Open Scope Z_scope.

(** The text consists of bytes, and what is counted is shorter than 2^63: so in the code by std::string and max_size() *)
Definition count {A} (l : list A) : Prop := Z.of_nat (List.length l) < 2 ^ 63.
Definition fitsMemory (v : value) : Prop :=
  match v with
  | VStr s => count s /\ Forall (fun b => 0 <= b < 256) s
  | VList l | VSet l => count l
  | VMap m => count m
  | VDataSet d => count (drows d)
  | VPath p => count (psteps p)
  | _ => True
  end.
(** The clocks give 64-bit seconds and 0 to 999 milliseconds *)
Definition soundClock (o : oracle) : Prop := int64 (oNow o) /\ 0 <= oMillis o <= 999.
