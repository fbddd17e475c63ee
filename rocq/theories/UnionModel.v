(** The memory behind Value: a type and a union of scalars and owning pointers (/repo/src/common/datatypes/Value.h:360-400, Value.cpp:99-1483, 1832-1836).
    Memory is a map from addresses to blocks. A block is what one unique_ptr of the union owns (a std::string, Vertex, Edge, Path, List, Map, Set or
    DataSet): the Values stored in it, and everything else in it as plain data. Addresses are not used twice, so a pointer to a block that is
    gone stays invalid. Local variables are the Values of block 0. *)
From Verif Require Import Prelude CastModel.
Open Scope Z_scope.

(** value_: not alive, a scalar, or a unique_ptr (None: nullptr) *)
Inductive slot := SRaw | SScal (z : list Z) | SPtr (p : option Z).
Record cell := Cell { ctag : Z; cslot : slot }.
Record block := Block { bkind : Z; bdata : list Z; bkids : list cell }.
Record mem := Mem { heap : Z -> option block; next : Z }.
Definition emptyCell := Cell tEmpty SRaw.
Definition scalarTag (t : Z) : bool := existsb (Z.eqb t) [tNull; tBool; tInt; tFloat; tDate; tTime; tDateTime].
Definition heapTag (t : Z) : bool := existsb (Z.eqb t) [tString; tVertex; tEdge; tPath; tList; tMap; tSet; tDataSet].

(** where a Value is: the block it is in and its place there *)
Definition addr := (Z * nat)%type.
Definition setBlock (m : mem) (p : Z) (b : option block) : mem := Mem (fun q => if q =? p then b else heap m q) (next m).
Definition alloc (m : mem) (b : block) : mem * Z := (Mem (fun q => if q =? next m then Some b else heap m q) (next m + 1), next m).
Definition readA (m : mem) (a : addr) : outcome cell :=
  match heap m (fst a) with Some b => match nth_error (bkids b) (snd a) with Some c => Ret c | None => UB end | None => UB end.
Fixpoint setKid (i : nat) (c : cell) (cs : list cell) : list cell :=
  match cs, i with [], _ => [] | _ :: cs', O => c :: cs' | x :: cs', S i' => x :: setKid i' c cs' end.
Definition writeA (m : mem) (a : addr) (c : cell) : outcome mem :=
  match heap m (fst a) with
  | Some b => if (snd a <? List.length (bkids b))%nat then Ret (setBlock m (fst a) (Some (Block (bkind b) (bdata b) (setKid (snd a) c (bkids b))))) else UB
  | None => UB
  end.
(** A reference to a Value inside a Value: getList().values[i] and the like; CHECK_EQ of the type, Value.cpp:690-868 *)
Fixpoint resolve (m : mem) (p : Z) (i : nat) (path : list nat) : outcome addr :=
  match path with
  | [] => Ret (p, i)
  | j :: path' => let* c := readA m (p, i) in
      if heapTag (ctag c) then match cslot c with SPtr (Some q) => resolve m q j path' | _ => UB end else Fatal
  end.

(** * Copies and destruction, to any depth *)
Fixpoint copyCells (f : mem -> cell -> outcome (mem * cell)) (m : mem) (cs : list cell) : outcome (mem * list cell) :=
  match cs with
  | [] => Ret (m, [])
  | c :: cs' => let* r := f m c in let* r' := copyCells f (fst r) cs' in Ret (fst r', snd r :: snd r')
  end.
(** Value::Value(const Value&), 183-262: new List( *v ) and so on copy the Values inside *)
Fixpoint copyCell (n : nat) (m : mem) (c : cell) : outcome (mem * cell) :=
  match n with
  | O => Diverge
  | S n' =>
      if ctag c =? tEmpty then Ret (m, emptyCell)
      else if scalarTag (ctag c) then match cslot c with SScal _ => Ret (m, c) | _ => UB end
      else if heapTag (ctag c) then
        match cslot c with
        | SPtr (Some p) =>
            match heap m p with
            | Some b => if bkind b =? ctag c then let* r := copyCells (copyCell n') m (bkids b) in
                let (m', q) := alloc (fst r) (Block (bkind b) (bdata b) (snd r)) in Ret (m', Cell (ctag c) (SPtr (Some q))) else UB
            | None => UB
            end
        | _ => UB
        end
      else UB
  end.
Fixpoint deleteCells (f : mem -> cell -> outcome mem) (m : mem) (cs : list cell) : outcome mem :=
  match cs with [] => Ret m | c :: cs' => let* m' := f m c in deleteCells f m' cs' end.
(** clear() but for the last assignment, 1012-1097: the destructors of unique_ptr run clear() of the Values inside; the block is not accessible any more *)
Fixpoint deleteCell (n : nat) (m : mem) (c : cell) : outcome mem :=
  match n with
  | O => Diverge
  | S n' =>
      if (ctag c =? tEmpty) || scalarTag (ctag c) then Ret m
      else if heapTag (ctag c) then
        match cslot c with
        | SPtr None => Ret m
        | SPtr (Some p) =>
            match heap m p with
            | Some b => if bkind b =? ctag c then deleteCells (deleteCell n') (setBlock m p None) (bkids b) else UB
            | None => UB
            end
        | _ => UB
        end
      else UB
  end.
(** clear(), 1012-1097 *)
Definition clearA (n : nat) (m : mem) (a : addr) : outcome mem :=
  let* c := readA m a in
  if ctag c =? tEmpty then Ret m else
  let* m1 := deleteCell n m c in writeA m1 a emptyCell.

(** * Assignments *)
Definition sameAddr (a b : addr) : bool := (fst a =? fst b) && (snd a =? snd b)%nat.
(** operator=(const Value&), 1190-1277: the set functions, 1280-1482, set type_ before they make the copy *)
Definition assignCopy (n : nat) (m : mem) (a b : addr) : outcome mem :=
  if sameAddr a b then Ret m else
  let* m1 := clearA n m a in
  let* rhs := readA m1 b in
  if ctag rhs =? tEmpty then Ret m1 else
  let* m2 := writeA m1 a (Cell (ctag rhs) SRaw) in
  let* r := copyCell n m2 rhs in
  writeA (fst r) a (snd r).
(** what operator=(const Value&) leaves behind if the new in a set function throws: type_ is set already, 1294-1482 *)
Definition copyThrows (n : nat) (m : mem) (a b : addr) : outcome mem :=
  let* m1 := clearA n m a in
  let* rhs := readA m1 b in
  writeA m1 a (Cell (ctag rhs) SRaw).
(** what unique_ptr or a scalar is after std::move *)
Definition movedFrom (c : cell) : cell := Cell (ctag c) (match cslot c with SPtr _ => SPtr None | s => s end).
(** operator=(Value&&), 1100-1187 *)
Definition assignMove (n : nat) (m : mem) (a b : addr) : outcome mem :=
  if sameAddr a b then Ret m else
  let* m1 := clearA n m a in
  let* rhs := readA m1 b in
  if ctag rhs =? tEmpty then Ret m1 else
  let* m2 := writeA m1 a rhs in
  let* m3 := writeA m2 b (movedFrom rhs) in
  clearA n m3 b.
(** Value(Value&&), 99-180, into a temporary *)
Definition takeCell (n : nat) (m : mem) (a : addr) : outcome (mem * cell) :=
  let* rhs := readA m a in
  if ctag rhs =? tEmpty then Ret (m, emptyCell) else
  let* m1 := writeA m a (movedFrom rhs) in
  let* m2 := clearA n m1 a in Ret (m2, rhs).
(** operator=(Value&&) from a temporary *)
Definition putCell (n : nat) (m : mem) (a : addr) (c : cell) : outcome mem :=
  let* m1 := clearA n m a in
  if ctag c =? tEmpty then Ret m1 else writeA m1 a c.
(** swap, 1832-1836 *)
Definition swapA (n : nat) (m : mem) (a b : addr) : outcome mem :=
  let* r := takeCell n m a in
  let* m1 := assignMove n (fst r) a b in
  putCell n m1 b (snd r).
(** moveNull() to moveDataSet(), 871-1009, followed by the constructor of a Value from the result *)
Definition takeAs (n : nat) (m : mem) (a : addr) (t : Z) : outcome (mem * cell) :=
  let* c := readA m a in
  if negb (ctag c =? t) then Fatal
  else if heapTag t then
    match cslot c with
    | SPtr (Some p) =>
        match heap m p with
        | Some b => if bkind b =? t then
            let* m1 := clearA n (setBlock m p (Some (Block t [] []))) a in
            let (m2, q) := alloc m1 b in Ret (m2, Cell t (SPtr (Some q))) else UB
        | None => UB
        end
    | _ => UB
    end
  else let* m1 := clearA n m a in Ret (m1, c).
(** setStr(const std::string&) to setDataSet(const DataSet&), 440-687, from what getStr() to getDataSet() of another Value refer to *)
Definition setFrom (n : nat) (m : mem) (a b : addr) (t : Z) : outcome mem :=
  let* c := readA m b in
  if negb (ctag c =? t) then Fatal
  else if scalarTag t then
    let* m1 := clearA n m a in
    let* rhs := readA m1 b in       (* the reference is to the union of b *)
    match cslot rhs with SScal z => writeA m1 a (Cell t (SScal z)) | _ => UB end
  else if heapTag t then            (* the reference is to the block *)
    let* m1 := clearA n m a in
    let* m2 := writeA m1 a (Cell t SRaw) in
    let* r := copyCell n m2 c in
    writeA (fst r) a (snd r)
  else UB.

(** * Whole programs: variables are the Values of block 0, arguments are paths *)
Inductive tree := Node (tag : Z) (data : list Z) (kids : list tree).
(** a Value made from a Value-free description of what it shall be (the constructors from scalars, strings and containers, 264-388) *)
Fixpoint build (m : mem) (t : tree) : mem * cell :=
  match t with
  | Node tag d ts =>
      if heapTag tag then
        let r := (fix go (m : mem) (ts : list tree) : mem * list cell :=
                    match ts with [] => (m, []) | t :: ts' => let (m1, c) := build m t in let (m2, cs) := go m1 ts' in (m2, c :: cs) end) m ts in
        let (m', q) := alloc (fst r) (Block tag d (snd r)) in (m', Cell tag (SPtr (Some q)))
      else if tag =? tEmpty then (m, emptyCell) else (m, Cell tag (SScal d))
  end.
Inductive op :=
| OMake (a : list nat) (t : tree)            (* a = Value(...) *)
| OCopy (a b : list nat)                     (* a = b *)
| OMove (a b : list nat)                     (* a = std::move(b) *)
| OClear (a : list nat)                      (* a.clear(), or the end of a *)
| OSwap (a b : list nat)
| OTake (a b : list nat) (t : Z)             (* a = b.moveXxx() *)
| OSet (a b : list nat) (t : Z).             (* a.setXxx(b.getXxx()) *)
Definition at_ (m : mem) (a : list nat) : outcome addr := match a with [] => UB | i :: path => resolve m 0 i path end.
Definition exec (n : nat) (m : mem) (o : op) : outcome mem :=
  match o with
  | OMake a t => let* x := at_ m a in let (m1, c) := build m t in putCell n m1 x c
  | OCopy a b => let* x := at_ m a in let* y := at_ m b in assignCopy n m x y
  | OMove a b => let* x := at_ m a in let* y := at_ m b in assignMove n m x y
  | OClear a => let* x := at_ m a in clearA n m x
  | OSwap a b => let* x := at_ m a in let* y := at_ m b in swapA n m x y
  | OTake a b t => let* x := at_ m a in let* y := at_ m b in let* r := takeAs n m y t in putCell n (fst r) x (snd r)
  | OSet a b t => let* x := at_ m a in let* y := at_ m b in setFrom n m x y t
  end.
Fixpoint execAll (n : nat) (m : mem) (os : list op) : outcome mem :=
  match os with [] => Ret m | o :: os' => let* m' := exec n m o in execAll n m' os' end.
(** [k] variables, all EMPTY *)
Definition fresh (k : nat) : mem := Mem (fun q => if q =? 0 then Some (Block tList [] (repeat emptyCell k)) else None) 1.
(** what a Value is seen to be, to any depth: typeName() and the get functions *)
Fixpoint look (n : nat) (m : mem) (c : cell) : outcome tree :=
  match n with
  | O => Diverge
  | S n' =>
      if ctag c =? tEmpty then Ret (Node tEmpty [] [])
      else if scalarTag (ctag c) then match cslot c with SScal z => Ret (Node (ctag c) z []) | _ => UB end
      else if heapTag (ctag c) then
        match cslot c with
        | SPtr (Some p) =>
            match heap m p with
            | Some b => if bkind b =? ctag c then
                let* ts := (fix go cs := match cs with [] => Ret [] | c :: cs' => let* t := look n' m c in let* ts := go cs' in Ret (t :: ts) end) (bkids b) in
                Ret (Node (bkind b) (bdata b) ts) else UB
            | None => UB
            end
        | _ => UB
        end
      else UB
  end.
Definition lookAt (n : nat) (m : mem) (a : list nat) : outcome tree := let* x := at_ m a in let* c := readA m x in look n m c.
