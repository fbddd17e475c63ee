(** Operations of Edge, Path and DataSet.
    /repo/src/common/datatypes/{Edge.h,Edge.cpp,Path.cpp,DataSet.h} *)
From Verif Require Import ValueBase DateModel TimeModel HashModel ValueModel.
Local Open Scope list_scope.
Local Open Scope Z_scope.

(** 32-bit negation of an edge type; the negation of -2^31 overflows. *)
Definition negType (t : Z) : outcome Z := if t =? int32_min then UB else Ret (- t).

(** Edge::reverse, Edge.cpp:83-88 *)
Definition edgeReverse (e : edge) : outcome edge :=
  obind (negType (etype e)) (fun t => Ret (mkEdge (edst e) (esrc e) t (ename e) (erank e) (eprops e))).
(** Edge::format, Edge.h:63-67 *)
Definition edgeFormat (e : edge) : outcome edge := if etype e <? 0 then edgeReverse e else Ret e.

(** The loop of Path::reverse (Path.cpp:23-27) on the steps already in reversed order: dst is swapped with the
    following step's and the type negated. *)
Definition setDst (s : step) (v : vertex) : step := mkStep v (stype s) (sname s) (srank s) (sprops s).
Definition setType (s : step) (t : Z) : step := mkStep (sdst s) t (sname s) (srank s) (sprops s).
(** [d] is the destination that step [s] currently holds *)
Fixpoint reverseLoop (d : vertex) (l : list step) : outcome (list step) :=
  match l with
  | [] => Ret []
  | [s] => obind (negType (stype s)) (fun t => Ret [setType (setDst s d) t])
  | s :: ((s2 :: _) as rest) =>
      obind (negType (stype s)) (fun t =>
      obind (reverseLoop d rest) (fun rest' => Ret (setType (setDst s (sdst s2)) t :: rest')))
  end.
(** Path::reverse, Path.cpp:17-29 *)
Definition pathReverse (p : path) : outcome path :=
  match rev (psteps p) with
  | [] => Ret p
  | s :: rest => obind (reverseLoop (psrc p) (s :: rest)) (fun l => Ret (mkPath (sdst s) l))
  end.

Section WithX.
Variable X : externals.
(** Path::append, Path.cpp:31-41; steps.back() of no steps is undefined *)
Definition pathAppend (p q : path) : outcome (bool * path) :=
  let go := Ret (true, mkPath (psrc p) (psteps p ++ psteps q)) in
  if vertexEq (veq X) (psrc p) (psrc q) then go
  else match rev (psteps p) with
       | [] => UB
       | s :: _ => if vertexEq (veq X) (sdst s) (psrc q) then go else Ret (false, p)
       end.

(** std::unordered_set<Value>::emplace(v).second: false when an element with the same hash and equal is there *)
Definition memberOf (v : value) (seen : list value) : bool := existsb (fun w => sameHash X v w && veq X v w) seen.
(** Path::hasDuplicateVertices, Path.cpp:43-57 (hash of an unhashable id aborts) *)
Fixpoint dupVertices (seen : list value) (l : list step) : outcome bool :=
  match l with
  | [] => Ret false
  | s :: l' =>
      obind (vhash X (vvid (sdst s))) (fun _ =>
      if memberOf (vvid (sdst s)) seen then Ret true else dupVertices (vvid (sdst s) :: seen) l')
  end.
Definition hasDuplicateVertices (p : path) : outcome bool :=
  match psteps p with
  | [] => Ret false
  | l => obind (vhash X (vvid (psrc p))) (fun _ => dupVertices [vvid (psrc p)] l)
  end.

(** Path::hasDuplicateEdges, Path.cpp:59-83.  A key is found when the ids have equal hashes and compare equal and
    type and ranking coincide (the hash of the tuple is a function of the hashes of its parts). *)
Definition ekey := (value * value * Z * Z)%type.
Definition keyFound (a b : ekey) : bool :=
  let '(s1, d1, t1, r1) := a in let '(s2, d2, t2, r2) := b in
  (sameHash X s1 s2 && veq X s1 s2) && (sameHash X d1 d2 && veq X d1 d2) && (t1 =? t2) && (r1 =? r2).
Fixpoint dupEdges (seen : list ekey) (src : value) (l : list step) : outcome bool :=
  match l with
  | [] => Ret false
  | s :: l' =>
      let dst := vvid (sdst s) in
      obind (vhash X src) (fun _ => obind (vhash X dst) (fun _ =>
      obind (if 0 <? stype s then Ret (src, dst, stype s, srank s)
             else obind (negType (stype s)) (fun t => Ret (dst, src, t, srank s))) (fun k =>
      if existsb (keyFound k) seen then Ret true else dupEdges (k :: seen) dst l')))
  end.
Definition hasDuplicateEdges (p : path) : outcome bool :=
  match psteps p with
  | [] | [_] => Ret false
  | l => dupEdges [] (vvid (psrc p)) l
  end.
End WithX.

(** DataSet::emplace_back, DataSet.h:86-92 *)
Definition dsEmplace (d : dataset) (row : list value) : bool * dataset :=
  if Nat.eqb (length row) (length (dcols d)) then (true, mkDataSet (dcols d) (drows d ++ [row])) else (false, d).
(** DataSet::append, DataSet.h:95-108 *)
Definition dsAppend (d o : dataset) : bool * dataset :=
  match dcols d with
  | [] => (true, mkDataSet (dcols o) (drows d ++ drows o))
  | _ => if listEq strEqb (dcols d) (dcols o) then (true, mkDataSet (dcols d) (drows d ++ drows o)) else (false, d)
  end.
(** DataSet::merge, DataSet.h:111-129: the names go to the end, the values to the beginning *)
Fixpoint mergeRows (a b : list (list value)) : list (list value) :=
  match a, b with
  | r :: a', s :: b' => (s ++ r) :: mergeRows a' b'
  | _, _ => []
  end.
Definition dsMerge (d o : dataset) : bool * dataset :=
  if negb (Nat.eqb (length (drows d)) (length (drows o))) then (false, d)
  else (true, mkDataSet (dcols d ++ dcols o) (mergeRows (drows d) (drows o))).
(** DataSet::colValues, DataSet.h:58-70; indexing past the end of a row is undefined *)
Fixpoint indexOf (c : str) (l : list str) : option nat :=
  match l with [] => None | x :: l' => if strEqb x c then Some 0%nat else option_map S (indexOf c l') end.
Fixpoint colOf (i : nat) (rows : list (list value)) : outcome (list value) :=
  match rows with
  | [] => Ret []
  | r :: rows' => match nth_error r i with
                  | None => UB
                  | Some v => obind (colOf i rows') (fun l => Ret (v :: l))
                  end
  end.
Definition dsColValues (d : dataset) (c : str) : outcome (list value) :=
  match indexOf c (dcols d) with None => Ret [] | Some i => colOf i (drows d) end.
