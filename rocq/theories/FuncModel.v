(** Model of the built-in functions of src/common/function/FunctionManager.cpp that are not calls into the
    math library, the clock or the random generator.

    A body receives the argument vector; FunctionManager::get has checked the arity before, so a shorter
    vector is undefined behaviour here. Memory exhaustion is not modelled. *)
From Coq Require Import String List.
From Verif Require Import Prelude Trans ValueBase ValueModel GraphModel EvalModel.
Import ListNotations.
Open Scope Z_scope.

Section Func.
Context (X : externals).

Definition sizeOf {A} (l : list A) : Z := Z.of_nat (List.length l).

(** std::string::substr(pos, len) for pos <= size: at most [len] (a size_t) bytes from [pos] *)
Definition substrAt (s : str) (pos len : Z) : str :=
  firstn (Z.to_nat (Z.min len (sizeOf s - pos))) (skipn (Z.to_nat pos) s).

(** abs, FunctionManager.cpp:271-292; std::abs(INT64_MIN) overflows *)
Definition fAbs (args : list value) : outcome value :=
  match args with
  | VNull _ :: _ => Ret kNull
  | VInt z :: _ => if z =? int64_min then UB else Ret (VInt (Z.abs z))
  | VFloat f :: _ => Ret (VFloat (f64abs f))
  | _ :: _ => Ret kBadType
  | [] => UB
  end.

(** left, 1053-1079 *)
Definition fLeft (args : list value) : outcome value :=
  match args with
  | VNull _ :: _ :: _ => Ret kNull
  | VStr s :: VInt len :: _ => if len <? 0 then Ret kBadType else Ret (VStr (substrAt s 0 len))
  | _ :: _ :: _ => Ret kBadType
  | _ => UB
  end.

(** right, 1081-1111 *)
Definition fRight (args : list value) : outcome value :=
  match args with
  | VNull _ :: _ :: _ => Ret kNull
  | VStr s :: VInt len :: _ =>
      if len <? 0 then Ret kBadType
      else let len := if sizeOf s <? len then sizeOf s else len in
           Ret (VStr (substrAt s (sizeOf s - len) (sizeOf s)))
  | _ :: _ :: _ => Ret kBadType
  | _ => UB
  end.

(** substr / substring, 1318-1352. [auto length = 0] is an int: both assignments to it truncate to 32 bits. *)
Definition fSubstr (args : list value) : outcome value :=
  let body s start (len : option Z) :=
    let length := match len with
                  | Some l => wrap32 l
                  | None => wrap32 (if sizeOf s <=? u64 start then 0 else sizeOf s - u64 start)
                  end in
    if (start <? 0) || (length <? 0) then Ret (VNull NBadData)
    else if (sizeOf s <=? start) || (length =? 0) then Ret (VStr [])
    else Ret (VStr (substrAt s start length)) in
  match args with
  | VNull _ :: _ :: _ => Ret kNull
  | [VStr s; VInt start] => body s start None
  | [VStr s; VInt start; VInt len] => body s start (Some len)
  | _ :: _ :: _ => Ret kBadType
  | _ => UB
  end.

(** The padding loop of lpad (1276-1279) and rpad (1306-1309): what is left of [size] and the stream. *)
Fixpoint padLoop (fuel : nat) (extra : str) (size : Z) (stream : str) : outcome (Z * str) :=
  match fuel with
  | O => Diverge
  | S f => if sizeOf extra <? size then padLoop f extra (size - sizeOf extra) (stream ++ extra) else Ret (size, stream)
  end.

(** lpad, 1259-1287. [static_cast<int32_t>(size)] is the count passed to substr, a size_t. *)
Definition fLpad (fuel : nat) (args : list value) : outcome value :=
  match args with
  | [VStr s; VInt size; VStr extra] =>
      if size <? 0 then Ret (VStr [])
      else if size <? sizeOf s then Ret (VStr (substrAt s 0 (u64 (wrap32 size))))
      else let* r := padLoop fuel extra (size - sizeOf s) [] in
           Ret (VStr (snd r ++ substrAt extra 0 (fst r) ++ s))
  | [_; _; _] => Ret kBadType
  | _ => UB
  end.

(** rpad, 1288-1316 *)
Definition fRpad (fuel : nat) (args : list value) : outcome value :=
  match args with
  | [VStr s; VInt size; VStr extra] =>
      if size <? 0 then Ret (VStr [])
      else if size <? sizeOf s then Ret (VStr (substrAt s 0 (u64 (wrap32 size))))
      else let* r := padLoop fuel extra (size - sizeOf s) s in
           Ret (VStr (snd r ++ substrAt extra 0 (fst r)))
  | [_; _; _] => Ret kBadType
  | _ => UB
  end.

(** range, 1601-1629. The signed addition [i + step] is undefined when it leaves int64. *)
Fixpoint rangeLoop (fuel : nat) (i last step : Z) (res : list value) : outcome (list value) :=
  match fuel with
  | O => Diverge
  | S f => if (if 0 <? step then i <=? last else last <=? i)
           then (if in_int64 (i + step) then rangeLoop f (i + step) last step (res ++ [VInt i]) else UB)
           else Ret res
  end.
Definition fRange (fuel : nat) (args : list value) : outcome value :=
  let body i last step := if step =? 0 then Ret (VNull NBadData)
                          else let* l := rangeLoop fuel i last step [] in Ret (VList l) in
  match args with
  | [VInt i; VInt last] => body i last 1
  | [VInt i; VInt last; VInt step] => body i last step
  | _ :: _ :: _ => Ret kBadType
  | _ => UB
  end.

(** reverse, 1131-1156 *)
Definition fReverse (args : list value) : outcome value :=
  match args with
  | VNull _ :: _ => Ret kNull
  | VStr s :: _ => Ret (VStr (rev s))
  | VList l :: _ => Ret (VList (rev l))
  | _ :: _ => Ret kBadType
  | [] => UB
  end.

(** folly::split with a string delimiter (folly/String-inl.h internalSplit), 1158-1190: a delimiter longer
    than the input, or an empty one, yields the input as the only piece; otherwise left to right,
    non-overlapping. [tok] is the current token. *)
Fixpoint splitFrom (fuel : nat) (d s tok : str) : list str :=
  match fuel with
  | O => [tok ++ s]
  | S f =>
      if isPrefix d s then tok :: splitFrom f d (skipn (List.length d) s) []
      else match s with
           | [] => [tok]
           | x :: s' => splitFrom f d s' (tok ++ [x])
           end
  end.
Definition follySplit (d s : str) : list str :=
  match d with [] => [s] | _ => splitFrom (S (List.length s)) d s [] end.
Definition fSplit (args : list value) : outcome value :=
  match args with
  | VNull _ :: _ :: _ => Ret kNull
  | VStr _ :: VNull _ :: _ => Ret kNull
  | VStr s :: VStr d :: _ => Ret (VList (map VStr (follySplit d s)))
  | _ :: _ :: _ => Ret kBadType
  | _ => UB
  end.

(** boost::replace_all_copy, 1113-1130: an empty search string is never found. *)
Definition replaceAll (s d n : str) : str := joinStr n (follySplit d s).
Definition fReplace (args : list value) : outcome value :=
  match args with
  | [a; b; c] =>
      if isNull a || isNull b || isNull c then Ret kNull
      else match a, b, c with
           | VStr s, VStr d, VStr n => Ret (VStr (replaceAll s d n))
           | _, _, _ => Ret kBadType
           end
  | _ => UB
  end.

(** size, 1444-1477 *)
Definition fSize (args : list value) : outcome value :=
  match args with
  | VNull _ :: _ => Ret kNull
  | VEmpty :: _ => Ret VEmpty
  | VStr s :: _ => Ret (VInt (sizeOf s))
  | VList l :: _ => Ret (VInt (sizeOf l))
  | VMap m :: _ => Ret (VInt (sizeOf m))
  | VSet l :: _ => Ret (VInt (sizeOf l))
  | VDataSet d :: _ => Ret (VInt (sizeOf (drows d)))
  | _ :: _ => Ret kBadType
  | [] => UB
  end.

(** head, last, tail: 1850-1887, 1981-2003; front() and back() of an empty vector are undefined *)
Definition fHead (args : list value) : outcome value :=
  match args with
  | VNull _ :: _ => Ret kNull
  | VList (x :: _) :: _ => Ret x
  | VList [] :: _ => UB
  | _ :: _ => Ret kBadType
  | [] => UB
  end.
Definition fLast (args : list value) : outcome value :=
  match args with
  | VNull _ :: _ => Ret kNull
  | VList l :: _ => match rev l with x :: _ => Ret x | [] => UB end
  | _ :: _ => Ret kBadType
  | [] => UB
  end.
Definition fTail (args : list value) : outcome value :=
  match args with
  | VNull _ :: _ => Ret kNull
  | VList l :: _ => Ret (VList (tl l))
  | _ :: _ => Ret kBadType
  | [] => UB
  end.

(** coalesce, 1888-1915: the first element that is != null. *)
Fixpoint firstNotNull (l : list value) : value :=
  match l with [] => kNull | v :: l' => if negb (veq X v kNull) then v else firstNotNull l' end.
Definition fCoalesce (args : list value) : outcome value :=
  match args with
  | VNull _ :: _ => Ret kNull
  | VList l :: _ => Ret (firstNotNull l)
  | _ :: _ => Ret kBadType
  | [] => UB
  end.

(** std::set<std::string>::emplace: sorted, without duplicates *)
Fixpoint sortedInsert (k : str) (l : list str) : list str :=
  match l with
  | [] => [k]
  | x :: l' => if strLtb k x then k :: l else if strLtb x k then x :: sortedInsert k l' else l
  end.
Definition sortedSet (ks : list str) : list str := fold_left (fun l k => sortedInsert k l) ks [].

(** keys, 1916-1955 *)
Definition fKeys (args : list value) : outcome value :=
  match args with
  | VNull _ :: _ => Ret kNull
  | VVertex v :: _ => Ret (VList (map VStr (sortedSet (List.concat (map (fun t => map fst (tgprops t)) (vtags v))))))
  | VEdge e :: _ => Ret (VList (map VStr (sortedSet (map fst (eprops e)))))
  | VMap m :: _ => Ret (VList (map VStr (sortedSet (map fst m))))
  | _ :: _ => Ret kBadType
  | [] => UB
  end.

(** properties, 1674-1704; unordered_map::insert keeps what is there *)
Fixpoint insertAll (m ps : list (str * value)) : list (str * value) :=
  match ps with
  | [] => m
  | (k, v) :: ps' => insertAll (match lookup k m with Some _ => m | None => m ++ [(k, v)] end) ps'
  end.
Definition fProperties (args : list value) : outcome value :=
  match args with
  | VNull _ :: _ => Ret kNull
  | VVertex v :: _ => Ret (VMap (fold_left (fun m t => insertAll m (tgprops t)) (vtags v) []))
  | VEdge e :: _ => Ret (VMap (eprops e))
  | VMap m :: _ => Ret (VMap m)
  | _ :: _ => Ret kBadType
  | [] => UB
  end.

(** id 1631-1649, tags/labels 1650-1673, type 1705-1723, typeid 1724-1742, rank 1783-1801 *)
Definition fId (args : list value) : outcome value :=
  match args with VNull _ :: _ => Ret kNull | VVertex v :: _ => Ret (vvid v) | _ :: _ => Ret kBadType | [] => UB end.
Definition fTags (args : list value) : outcome value :=
  match args with
  | VNull _ :: _ => Ret kNull
  | VVertex v :: _ => Ret (VList (map (fun t => VStr (tgname t)) (vtags v)))
  | _ :: _ => Ret kBadType
  | [] => UB
  end.
Definition fType (args : list value) : outcome value :=
  match args with VNull _ :: _ => Ret kNull | VEdge e :: _ => Ret (VStr (ename e)) | _ :: _ => Ret kBadType | [] => UB end.
Definition fTypeid (args : list value) : outcome value :=
  match args with VNull _ :: _ => Ret kNull | VEdge e :: _ => Ret (VInt (etype e)) | _ :: _ => Ret kBadType | [] => UB end.
Definition fRank (args : list value) : outcome value :=
  match args with VNull _ :: _ => Ret kNull | VEdge e :: _ => Ret (VInt (erank e)) | _ :: _ => Ret kBadType | [] => UB end.

(** src 1743-1762, dst 1763-1782, startnode 1802-1823, endnode 1824-1849 *)
Definition fSrc (args : list value) : outcome value :=
  match args with
  | VNull _ :: _ => Ret kNull
  | VEdge e :: _ => Ret (if 0 <? etype e then esrc e else edst e)
  | _ :: _ => Ret kBadType
  | [] => UB
  end.
Definition fDst (args : list value) : outcome value :=
  match args with
  | VNull _ :: _ => Ret kNull
  | VEdge e :: _ => Ret (if 0 <? etype e then edst e else esrc e)
  | _ :: _ => Ret kBadType
  | [] => UB
  end.
Definition fStartNode (args : list value) : outcome value :=
  match args with
  | VNull _ :: _ => Ret kNull
  | VEdge e :: _ => Ret (VVertex (mkVertex (esrc e) []))
  | VPath p :: _ => Ret (VVertex (psrc p))
  | _ :: _ => Ret kBadType
  | [] => UB
  end.
Definition fEndNode (args : list value) : outcome value :=
  match args with
  | VNull _ :: _ => Ret kNull
  | VEdge e :: _ => Ret (VVertex (mkVertex (edst e) []))
  | VPath p :: _ => Ret (VVertex (match rev (psteps p) with [] => psrc p | s :: _ => sdst s end))
  | _ :: _ => Ret kBadType
  | [] => UB
  end.

(** nodes 1956-1980, relationships 2004-2037 *)
Definition fNodes (args : list value) : outcome value :=
  match args with
  | VNull _ :: _ => Ret kNull
  | VPath p :: _ => Ret (VList (VVertex (psrc p) :: map (fun s => VVertex (sdst s)) (psteps p)))
  | _ :: _ => Ret kBadType
  | [] => UB
  end.
Fixpoint relLoop (src : value) (l : list step) : list value :=
  match l with
  | [] => []
  | s :: l' => VEdge (mkEdge src (vvid (sdst s)) (stype s) (sname s) (srank s) (sprops s)) :: relLoop (vvid (sdst s)) l'
  end.
Definition fRelationships (args : list value) : outcome value :=
  match args with
  | VNull _ :: _ => Ret kNull
  | VPath p :: _ => Ret (VList (relLoop (vvid (psrc p)) (psteps p)))
  | _ :: _ => Ret kBadType
  | [] => UB
  end.

(** reversepath, 2064-2076 *)
Definition fReversePath (args : list value) : outcome value :=
  match args with
  | VPath p :: _ => let* q := pathReverse p in Ret (VPath q)
  | _ :: _ => Ret kBadType
  | [] => UB
  end.

(** datasetrowcol, 2078-2107; indexing past the end of the row is undefined *)
Definition fRowCol (args : list value) : outcome value :=
  let body d row col :=
    if (sizeOf (drows d) <? 1) || (sizeOf (dcols d) <? 1) then Ret (VNull NBadData)
    else if (row <? 0) || (col <? 0) then Ret (VNull NBadData)
    else if (sizeOf (drows d) <=? row) || (sizeOf (dcols d) <=? col) then Ret (VNull NBadData)
    else match nth_error (drows d) (Z.to_nat row) with
         | None => UB
         | Some r => match nth_error r (Z.to_nat col) with None => UB | Some v => Ret v end
         end in
  match args with
  | [VDataSet d; VInt row; VInt col] => body d row col
  | [VDataSet d; VInt row; VStr c] =>
      body d row (match indexOf c (dcols d) with Some i => Z.of_nat i | None => sizeOf (dcols d) end)
  | [_; _; _] => Ret kBadType
  | _ => UB
  end.
End Func.
