(** Specification of a string builder. *)
From Verif Require Import Prelude CordModel.

(** Operations of a history and the bytes that should be visible after it. *)
Inductive sop := SWrite (bytes : list Z) | SClear.
Fixpoint content (acc : list Z) (h : list sop) : list Z :=
  match h with
  | [] => acc
  | SWrite bs :: h' => content (acc ++ bs) h'
  | SClear :: h' => content [] h'
  end.

(** Visiting a list of chunks until the visitor says stop. *)
Fixpoint visit_all {S} (visit : S -> list Z -> S * bool) (s : S) (chunks : list (list Z)) : S * bool :=
  match chunks with
  | [] => (s, true)
  | ch :: rest => let '(s', go) := visit s ch in if go then visit_all visit s' rest else (s', false)
  end.

(** Running a history on the models. *)
Fixpoint cord_run (c : cord) (h : list sop) : outcome cord :=
  match h with
  | [] => Ret c
  | SWrite bs :: h' => let* c := cordPut c bs in cord_run c h'
  | SClear :: h' => cord_run (cordClear c) h'
  end.
Fixpoint icord_run (c : icord) (h : list sop) : outcome icord :=
  match h with
  | [] => Ret c
  | SWrite bs :: h' => let* c := icordPut c bs in icord_run c h'
  | SClear :: h' => icord_run (icordClear c) h'
  end.
