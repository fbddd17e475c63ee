(** Which variables an expression reads and which it sets: what the theorems of C182 speak about. *)
From Coq Require Import String.
From Verif Require Import ValueBase ValueModel ExprModel EvalModel.
Local Open Scope list_scope.
Local Open Scope Z_scope.

(** All that was ever stored in a variable, the last first. *)
Definition history (c : ctx) (s : str) : list value := map snd (filter (fun p => strEqb s (fst p)) c).

(** What an expression wants to know of the context: (false, s) the value of the variable s, (true, s) its history too.
    The variable of a loop, and the accumulator of a reduce, are not asked of the context inside of the loop. *)
Definition hide (s : str) (l : list (bool * str)) : list (bool * str) := filter (fun n => fst n || negb (strEqb (snd n) s)) l.
Fixpoint needs (e : expr) : list (bool * str) :=
  match e with
  | Node k cs =>
      match k with
      | KVar s _ => [(false, s)]
      | KVersioned s true => (true, s) :: flat_map needs cs
      | KVersioned s false => [(false, s)]
      | KProp PVar _ sym _ => [(true, sym)]
      | KPredicate name iv _ _ =>
          if strEqb name (B "exists") then match cs with Node _ gs :: _ => flat_map needs gs | [] => [] end
          else match map needs cs with l :: r => l ++ hide iv (concat r) | [] => [] end
      | KListComp iv _ _ _ => match map needs cs with l :: r => l ++ hide iv (concat r) | [] => [] end
      | KReduce acc iv _ => match map needs cs with i :: l :: r => i ++ l ++ hide acc (hide iv (concat r)) | r => concat r end
      | _ => flat_map needs cs
      end
  end.
(** The variables that may be set. *)
Fixpoint sets (e : expr) : list str :=
  match e with
  | Node k cs =>
      match k with
      | KUnary OIncr | KUnary ODecr => match cs with Node (KVar s _) _ :: _ => [s] | _ => [] end
      | KPredicate _ iv _ _ => [iv]
      | KListComp iv _ _ _ => [iv]
      | KReduce acc iv _ => [acc; iv]
      | _ => []
      end ++ flat_map sets cs
  end.
(** Two contexts answer alike to what is wanted. *)
Definition agree (E : env) (c : ctx) (E' : env) (c' : ctx) (ns : list (bool * str)) : Prop :=
  forall h s, In (h, s) ns -> getVar E c s = getVar E' c' s /\ (h = true -> history c s = history c' s).

(** Two environments answer alike to what a node asks of the row; versions and columns of a variable depend on its history only. *)
Definition alike (E E' : env) (k : kind) : Prop :=
  match k with
  | KColumn i => eColumn E i = eColumn E' i
  | KVertex => eVertex E = eVertex E'
  | KEdge => eEdge E = eEdge E'
  | KVersioned s true => forall c c' z, history c s = history c' s -> eVersioned E c s z = eVersioned E' c' s z
  | KProp p _ sym pr =>
      match p with
      | PTag => eTagProp E sym pr = eTagProp E' sym pr
      | PSrc => eSrcProp E sym pr = eSrcProp E' sym pr
      | PDst => eDstProp E sym pr = eDstProp E' sym pr
      | PInput => eInput E pr = eInput E' pr
      | PVar => forall c c', history c sym = history c' sym -> eVarProp E c sym pr = eVarProp E' c' sym pr
      | _ => eEdgeProp E sym pr = eEdgeProp E' sym pr
      end
  | _ => True
  end.
Fixpoint nodes (P : kind -> Prop) (e : expr) : Prop := match e with Node k cs => P k /\ fold_right (fun x r => nodes P x /\ r) True cs end.
