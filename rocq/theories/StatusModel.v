(** Model of Status. /repo/src/common/base/Status.h, /repo/src/common/base/Status.cpp

    A Status object holds a unique_ptr to a heap buffer, or null for OK. Objects live in a store of
    pointers; the heap is a list of buffers, an address is a position. A freed buffer is simply no
    longer pointed to (address reuse is not modelled). *)
From Verif Require Import Prelude.

Definition byte_lo (v : Z) : Z := v mod 256.
Definition byte_hi (v : Z) : Z := (v / 256) mod 256.

(** Header layout, Status.h:229-239: size_ (2 bytes, little endian), code_ (2 bytes), then the text. *)
Definition rd16 (buf : list Z) (off : nat) : Z := nth off buf 0 + 256 * nth (S off) buf 0.

Definition kHeaderSize : nat := 4.

Record world := mkWorld { objs : list (option nat); sheap : list (list Z) }.

Definition obj (w : world) (i : nat) : option nat := nth i (objs w) None.

Fixpoint put {A} (i : nat) (x : A) (l : list A) : list A :=
  match l, i with
  | [], _ => []
  | _ :: l', O => x :: l'
  | y :: l', S i' => y :: put i' x l'
  end.

Definition setObj (w : world) (i : nat) (p : option nat) : world := mkWorld (put i p (objs w)) (sheap w).
Definition alloc (w : world) (buf : list Z) : world * nat := (mkWorld (objs w) (sheap w ++ [buf]), length (sheap w)).

(** Status(Code, StringPiece), Status.cpp:12-20: `const uint16_t size = msg.size()`. *)
Definition mkState (code : Z) (msg : list Z) : list Z :=
  let size := u16 (Z.of_nat (length msg)) in
  [byte_lo size; byte_hi size; byte_lo code; byte_hi code] ++ firstn (Z.to_nat size) msg.

(** copyState, Status.cpp:37-43: reads the size from the header and copies that many bytes. *)
Definition copyState (buf : list Z) : list Z := firstn (Z.to_nat (rd16 buf 0) + kHeaderSize) buf.

Definition buffer (w : world) (p : nat) : list Z := nth p (sheap w) [].

(** Assigning a freshly built temporary `Status(code, msg)` to object i (move from a temporary). *)
Definition construct (w : world) (i : nat) (code : Z) (msg : list Z) : world :=
  let '(w, p) := alloc w (mkState code msg) in setObj w i (Some p).

(** Status::OK() into object i *)
Definition constructOk (w : world) (i : nat) : world := setObj w i None.

Definition ptr_eqb (a b : option nat) : bool :=
  match a, b with
  | None, None => true
  | Some x, Some y => Nat.eqb x y
  | _, _ => false
  end.

(** Copy construction, Status.h:32-34 *)
Definition copyCtor (w : world) (i j : nat) : world :=
  match obj w j with
  | None => setObj w i None
  | Some p => let '(w, q) := alloc w (copyState (buffer w p)) in setObj w i (Some q)
  end.
(** Copy assignment, Status.h:36-43 *)
Definition copyAssign (w : world) (i j : nat) : world :=
  if ptr_eqb (obj w i) (obj w j) then w else copyCtor w i j.
(** Move construction, Status.h:45-47, of a new object i from an object j <> i *)
Definition moveCtor (w : world) (i j : nat) : world := setObj (setObj w i (obj w j)) j None.
(** Move assignment, Status.h:49-56 *)
Definition moveAssign (w : world) (i j : nat) : world :=
  if ptr_eqb (obj w i) (obj w j) then w else moveCtor w i j.

(** ok, Status.h:88-90; code, Status.h:209-214; message, Status.cpp:22-25; == , Status.h:72-79 *)
Definition isOk (w : world) (i : nat) : bool := match obj w i with None => true | Some _ => false end.
Definition codeOf (w : world) (i : nat) : Z :=
  match obj w i with None => 0 | Some p => rd16 (buffer w p) 2 end.
Definition messageOf (w : world) (i : nat) : list Z :=
  match obj w i with
  | None => []
  | Some p => firstn (Z.to_nat (rd16 (buffer w p) 0)) (skipn kHeaderSize (buffer w p))
  end.
Definition statusEq (w : world) (i j : nat) : bool :=
  ptr_eqb (obj w i) (obj w j) || Z.eqb (codeOf w i) (codeOf w j).

(** format, Status.cpp:46-50: vsnprintf into 256 bytes (255 characters and a NUL), and the conversion
    of the array to std::string stops at the first NUL. [expanded] is the text printf would produce. *)
Fixpoint upToNul (l : list Z) : list Z :=
  match l with [] => [] | b :: l' => if Z.eqb b 0 then [] else b :: upToNul l' end.
Definition formatMsg (expanded : list Z) : list Z := upToNul (firstn 255 expanded).

Inductive sop :=
| OpMake (i : nat) (code : Z) (msg : list Z)
| OpFormat (i : nat) (code : Z) (expanded : list Z)
| OpOk (i : nat)
| OpCopyCtor (i j : nat)
| OpCopy (i j : nat)
| OpMoveCtor (i j : nat)
| OpMove (i j : nat).

Definition sstep (w : world) (o : sop) : world :=
  match o with
  | OpMake i c m => construct w i c m
  | OpFormat i c e => construct w i c (formatMsg e)
  | OpOk i => constructOk w i
  | OpCopyCtor i j => copyCtor w i j
  | OpCopy i j => copyAssign w i j
  | OpMoveCtor i j => moveCtor w i j
  | OpMove i j => moveAssign w i j
  end.
Definition srun (w : world) (os : list sop) : world := fold_left sstep os w.
Definition sinit (n : nat) : world := mkWorld (repeat None n) [].
