(** Model of the block-chained string builders Cord and ICord.
    /repo/src/common/base/Cord.{h,cpp}, /repo/src/common/base/ICord.h

    Memory: a list of blocks, the address of a block is its position. A block holds the bytes written
    into its content area so far (a prefix of the area) and the link stored behind the content area.
    Reading bytes that were never written, or through a null pointer, is undefined. *)
From Verif Require Import Prelude.

Record block := mkBlock { bdata : list Z; bnext : option nat }.

(** memcpy(p + pt, value, n): [pt] is never beyond the bytes written before. The content area has
    [B] bytes; writing past it would overwrite the link (undefined here). *)
Definition blkWrite (B : nat) (b : block) (pt : nat) (bytes : list Z) : outcome block :=
  if ((pt <=? length (bdata b)) && (pt + length bytes <=? B))%nat
  then Ret (mkBlock (firstn pt (bdata b) ++ bytes ++ skipn (pt + length bytes) (bdata b)) (bnext b))
  else UB.

(** Reading the first [n] bytes of a block. *)
Definition blkRead (b : block) (n : nat) : outcome (list Z) :=
  if (n <=? length (bdata b))%nat then Ret (firstn n (bdata b)) else UB.

Fixpoint upd {A} (i : nat) (x : A) (l : list A) : list A :=
  match l, i with
  | [], _ => []
  | _ :: l', O => x :: l'
  | y :: l', S i' => y :: upd i' x l'
  end.

Definition oeqb (a b : option nat) : bool :=
  match a, b with
  | Some x, Some y => Nat.eqb x y
  | None, None => true
  | _, _ => false
  end.

(** * Cord *)

(** Members, Cord.h:61-71. [cB] is blockContentSize_. *)
Record cord := mkCord {
  cB : nat; cpt : nat; clen : nat; chead : option nat; ctail : option nat; cmem : list block }.

(** Cord(blockSize), Cord.cpp:12-16, for blockSize - sizeof(char-pointer) = B *)
Definition cordNew (B : nat) : cord := mkCord B B 0 None None [].

(** allocateBlock, Cord.cpp:24-39 *)
Definition cordAlloc (c : cord) : outcome cord :=
  let blk := length (cmem c) in
  let* mem := (match ctail c with
               | Some t => match nth_error (cmem c) t with
                           | Some b => Ret (upd t (mkBlock (bdata b) (Some blk)) (cmem c))
                           | None => UB
                           end
               | None => Ret (cmem c)
               end) in
  Ret (mkCord (cB c) 0 (clen c)
        (match chead c with Some h => Some h | None => Some blk end) (Some blk)
        (mem ++ [mkBlock [] None])).

(** write, Cord.cpp:130-151; the recursion is bounded by the number of bytes. *)
Fixpoint cordWrite (fuel : nat) (c : cord) (value : list Z) : outcome cord :=
  match fuel with
  | O => Diverge
  | S f =>
      match value with
      | [] => Ret c
      | _ =>
          let len := length value in
          let n := Nat.min len (cB c - cpt c) in
          let* cn := (if Nat.eqb n 0
                      then let* c := cordAlloc c in Ret (c, Nat.min len (cB c))
                      else Ret (c, n)) in
          let '(c, n) := cn in
          match ctail c with
          | None => UB
          | Some t =>
              match nth_error (cmem c) t with
              | None => UB
              | Some b =>
                  let* b' := blkWrite (cB c) b (cpt c) (firstn n value) in
                  let c := mkCord (cB c) (cpt c + n) (clen c + n) (chead c) (ctail c) (upd t b' (cmem c)) in
                  if (n <? len)%nat then cordWrite f c (skipn n value) else Ret c
              end
          end
      end
  end.
Definition cordPut (c : cord) (value : list Z) : outcome cord := cordWrite (S (length value)) c value.

(** clear, Cord.cpp:52-75 (all blocks are released) *)
Definition cordClear (c : cord) : cord := mkCord (cB c) (cB c) 0 None None [].

(** The block walk shared by applyTo (Cord.cpp:78-99), appendTo (102-119) and << (229-243):
    a full content area of [full] bytes for each block before [tail]. [k] consumes one chunk. *)
Fixpoint walk {S} (fuel : nat) (mem : list block) (full : nat) (next tail : option nat)
         (k : S -> list Z -> outcome (S * bool)) (s : S) : outcome (S * bool) :=
  match fuel with
  | O => Diverge
  | Datatypes.S f =>
      if oeqb next tail then Ret (s, true)
      else match next with
           | None => UB
           | Some a =>
               match nth_error mem a with
               | None => UB
               | Some b =>
                   let* chunk := blkRead b full in
                   let* r := k s chunk in
                   let '(s', go) := r in
                   if go then walk f mem full (bnext b) tail k s' else Ret (s', false)
               end
           end
  end.

Definition readTail (mem : list block) (tail : option nat) (n : nat) : outcome (list Z) :=
  match tail with
  | None => UB
  | Some t => match nth_error mem t with Some b => blkRead b n | None => UB end
  end.

(** applyTo: the visitor is a state transformer that also says whether to go on. *)
Definition cordApply {S} (c : cord) (visit : S -> list Z -> S * bool) (s : S) : outcome (S * bool) :=
  if Nat.eqb (clen c) 0 then Ret (s, true)
  else
    let* r := walk (Datatypes.S (length (cmem c))) (cmem c) (cB c) (chead c) (ctail c)
                   (fun s ch => Ret (visit s ch)) s in
    let '(s, go) := r in
    if go then let* ch := readTail (cmem c) (ctail c) (cpt c) in Ret (visit s ch) else Ret (s, false).

(** appendTo: the string is the accumulator; also the returned length. *)
Definition cordAppendTo (c : cord) (str : list Z) : outcome (list Z * nat) :=
  if Nat.eqb (clen c) 0 then Ret (str, 0%nat)
  else
    let* r := walk (S (length (cmem c))) (cmem c) (cB c) (chead c) (ctail c)
                   (fun s ch => Ret (s ++ ch, true)) str in
    let* ch := readTail (cmem c) (ctail c) (cpt c) in
    Ret (fst r ++ ch, clen c).
(** str, Cord.cpp:122-128 *)
Definition cordStr (c : cord) : outcome (list Z) := let* r := cordAppendTo c [] in Ret (fst r).

(** operator<<(const Cord&), Cord.cpp:229-243, for a [rhs] that is a different object. It walks the
    blocks of [rhs] with the content size of [this]; the size test of appendTo is missing. *)
Definition cordAppendCord (c rhs : cord) : outcome cord :=
  let* r := walk (S (length (cmem rhs))) (cmem rhs) (cB c) (chead rhs) (ctail rhs)
                 (fun c ch => let* c' := cordPut c ch in Ret (c', true)) c in
  let* ch := readTail (cmem rhs) (ctail rhs) (cpt rhs) in
  cordPut (fst r) ch.

(** * ICord *)

(** Members, ICord.h:245-248. Block 0 is the inline block. *)
Record icord := mkICord { iB : nat; ilen : nat; ihead : option nat; itail : option nat; imem : list block }.

(** Constructor, ICord.h:18 *)
Definition icordNew (B : nat) : icord := mkICord B 0 (Some 0%nat) (Some 0%nat) [mkBlock [] None].

(** lengthMod, ICord.h:207-209 *)
Definition lengthMod (c : icord) : nat := Nat.land (ilen c) (iB c - 1).

(** allocateBlock, ICord.h:225-239 *)
Definition icordAlloc (c : icord) : outcome icord :=
  let blk := length (imem c) in
  let* mem := (match itail c with
               | Some t => match nth_error (imem c) t with
                           | Some b => Ret (upd t (mkBlock (bdata b) (Some blk)) (imem c))
                           | None => UB
                           end
               | None => Ret (imem c)
               end) in
  Ret (mkICord (iB c) (ilen c)
        (match ihead c with Some h => Some h | None => Some blk end) (Some blk)
        (mem ++ [mkBlock [] None])).

(** write, ICord.h:103-124 *)
Fixpoint icordWrite (fuel : nat) (c : icord) (value : list Z) : outcome icord :=
  match fuel with
  | O => Diverge
  | S f =>
      match value with
      | [] => Ret c
      | _ =>
          let len := length value in
          let m := lengthMod c in
          let* cn := (if negb (Nat.eqb (ilen c) 0) && Nat.eqb m 0
                      then let* c := icordAlloc c in Ret (c, Nat.min len (iB c))
                      else Ret (c, Nat.min len (iB c - m))) in
          let '(c, n) := cn in
          match itail c with
          | None => UB
          | Some t =>
              match nth_error (imem c) t with
              | None => UB
              | Some b =>
                  let* b' := blkWrite (iB c) b m (firstn n value) in
                  let c := mkICord (iB c) (ilen c + n) (ihead c) (itail c) (upd t b' (imem c)) in
                  if (n <? len)%nat then icordWrite f c (skipn n value) else Ret c
              end
          end
      end
  end.
Definition icordPut (c : icord) (value : list Z) : outcome icord := icordWrite (S (length value)) c value.

(** clear, ICord.h:32-52: releases the blocks after the inline one and sets both pointers to null. *)
Definition icordClear (c : icord) : icord := mkICord (iB c) 0 None None [mkBlock [] None].

(** applyTo, ICord.h:56-75 *)
Definition icordApply {S} (c : icord) (visit : S -> list Z -> S * bool) (s : S) : outcome (S * bool) :=
  if Nat.eqb (ilen c) 0 then Ret (s, true)
  else
    let* r := walk (Datatypes.S (length (imem c))) (imem c) (iB c) (ihead c) (itail c)
                   (fun s ch => Ret (visit s ch)) s in
    let '(s, go) := r in
    if go then let* ch := readTail (imem c) (itail c) (lengthMod c) in Ret (visit s ch) else Ret (s, false).

(** appendTo, ICord.h:78-95 *)
Definition icordAppendTo (c : icord) (str : list Z) : outcome (list Z * nat) :=
  if Nat.eqb (ilen c) 0 then Ret (str, 0%nat)
  else
    let* r := walk (S (length (imem c))) (imem c) (iB c) (ihead c) (itail c)
                   (fun s ch => Ret (s ++ ch, true)) str in
    let m := lengthMod c in
    let* ch := readTail (imem c) (itail c) (if Nat.eqb m 0 then iB c else m) in
    Ret (fst r ++ ch, ilen c).
(** str, ICord.h:97-101 *)
Definition icordStr (c : icord) : outcome (list Z) := let* r := icordAppendTo c [] in Ret (fst r).

(** operator<<(const ICord&), ICord.h:183-195, for a different object [rhs]. *)
Definition icordAppendICord (c rhs : icord) : outcome icord :=
  let* r := walk (S (length (imem rhs))) (imem rhs) (iB c) (ihead rhs) (itail rhs)
                 (fun c ch => let* c' := icordPut c ch in Ret (c', true)) c in
  let* ch := readTail (imem rhs) (itail rhs) (lengthMod rhs) in
  icordPut (fst r) ch.

(** The typed << operators (Cord.cpp:154-221, ICord.h:127-181) write the object representation;
    on the little-endian targets that is the base-256 expansion, low byte first. *)
Fixpoint leBytes (n : nat) (v : Z) : list Z :=
  match n with
  | O => []
  | S n' => (v mod 256) :: leBytes n' (v / 256)
  end.
