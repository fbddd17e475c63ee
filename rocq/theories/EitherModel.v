(** Model of EitherOr and StatusOr. /repo/src/common/base/EitherOr.h, /repo/src/common/base/StatusOr.h

    An object has a state tag and a union; we track which member of the union is currently alive.
    Using or destroying a member that is not alive is undefined; constructing over a living member
    leaks it, which the constructor/destructor counters reveal. The type-directed overloads
    (TypeConverter, is_initializable_v) only choose between the left and the right operation and are
    resolved at compile time; they are represented by that choice. *)
From Verif Require Import Prelude StatusModel.

Section Either.
Context {L R : Type}.

Inductive alive := Dead | AliveL (l : L) | AliveR (r : R).
Record cell := mkCell { tag : Z; val : alive }.
Record eworld := mkEW { cells : list cell; ctors : Z; dtors : Z }.

Definition cellAt (w : eworld) (i : nat) : cell := nth i (cells w) (mkCell 0 Dead).
Definition setCell (w : eworld) (i : nat) (c : cell) : eworld := mkEW (put i c (cells w)) (ctors w) (dtors w).
Definition setTag (w : eworld) (i : nat) (t : Z) : eworld := setCell w i (mkCell t (val (cellAt w i))).

(** Placement new of a union member. *)
Definition place (w : eworld) (i : nat) (a : alive) : eworld :=
  let w := setCell w i (mkCell (tag (cellAt w i)) a) in mkEW (cells w) (ctors w + 1) (dtors w).
(** Explicit destructor call on the left / right member. *)
Definition killL (w : eworld) (i : nat) : outcome eworld :=
  match val (cellAt w i) with
  | AliveL _ => let w := setCell w i (mkCell (tag (cellAt w i)) Dead) in Ret (mkEW (cells w) (ctors w) (dtors w + 1))
  | _ => UB
  end.
Definition killR (w : eworld) (i : nat) : outcome eworld :=
  match val (cellAt w i) with
  | AliveR _ => let w := setCell w i (mkCell (tag (cellAt w i)) Dead) in Ret (mkEW (cells w) (ctors w) (dtors w + 1))
  | _ => UB
  end.
(** Reading the left / right member. *)
Definition readL (w : eworld) (i : nat) : outcome L := match val (cellAt w i) with AliveL l => Ret l | _ => UB end.
Definition readR (w : eworld) (i : nat) : outcome R := match val (cellAt w i) with AliveR r => Ret r | _ => UB end.

(** * EitherOr: 0 = VOID, 1 = LEFT_TYPE, 2 = RIGHT_TYPE *)

(** destruct, EitherOr.h:470-480 *)
Definition eDestruct (w : eworld) (i : nat) : outcome eworld :=
  if Z.eqb (tag (cellAt w i)) 0 then Ret w
  else if Z.eqb (tag (cellAt w i)) 1 then killL w i
  else if Z.eqb (tag (cellAt w i)) 2 then killR w i
  else Ret w.
(** reset, EitherOr.h:482-485 *)
Definition eReset (w : eworld) (i : nat) : outcome eworld := let* w := eDestruct w i in Ret (setTag w i 0).

(** left() &, left() const&, right() likewise, EitherOr.h:428-436, 446-454 *)
Definition eLeft (w : eworld) (i : nat) : outcome L := if Z.eqb (tag (cellAt w i)) 1 then readL w i else Fatal.
Definition eRight (w : eworld) (i : nat) : outcome R := if Z.eqb (tag (cellAt w i)) 2 then readR w i else Fatal.
(** left() && and right() &&, EitherOr.h:438-444, 456-462 *)
Definition eTakeLeft (w : eworld) (i : nat) : outcome (eworld * L) :=
  if Z.eqb (tag (cellAt w i)) 1
  then let* v := readL w i in let* w := killL w i in Ret (setTag w i 0, v) else Fatal.
Definition eTakeRight (w : eworld) (i : nat) : outcome (eworld * R) :=
  if Z.eqb (tag (cellAt w i)) 2
  then let* v := readR w i in let* w := killR w i in Ret (setTag w i 0, v) else Fatal.

(** A new object at place i: its tag is VOID and its union holds nothing. *)
Definition fresh (w : eworld) (i : nat) : eworld := setCell w i (mkCell 0 Dead).

Definition eSetLeft (w : eworld) (i : nat) (v : L) : eworld := setTag (place w i (AliveL v)) i 1.
Definition eSetRight (w : eworld) (i : nat) (v : R) : eworld := setTag (place w i (AliveR v)) i 2.

(** The switch of the copy constructor (EitherOr.h:127-140, reads the member directly) and of copy
    assignment (314-333, through left() / right()). *)
Definition eCopyInto (w : eworld) (i j : nat) : outcome eworld :=
  let t := tag (cellAt w j) in
  if Z.eqb t 1 then let* v := readL w j in Ret (eSetLeft w i v)
  else if Z.eqb t 2 then let* v := readR w j in Ret (eSetRight w i v)
  else Ret w.
(** The switch of the move constructor (142-155) and of move assignment (335-355). *)
Definition eMoveInto (w : eworld) (i j : nat) : outcome eworld :=
  let t := tag (cellAt w j) in
  if Z.eqb t 1 then let* wv := eTakeLeft w j in Ret (eSetLeft (fst wv) i (snd wv))
  else if Z.eqb t 2 then let* wv := eTakeRight w j in Ret (eSetRight (fst wv) i (snd wv))
  else Ret w.

(** Operations of a program. The constructors end the lifetime of the old object at place i first. *)
Inductive eop :=
| ECtorVoid (i : nat)
| ECtorLeft (i : nat) (v : L)
| ECtorRight (i : nat) (v : R)
| ECtorCopy (i j : nat)
| ECtorMove (i j : nat)
| EAssignLeft (i : nat) (v : L)
| EAssignRight (i : nat) (v : R)
| EAssignLeftOf (i j : nat)          (** x_i = x_j.left() *)
| EAssignRightOf (i j : nat)         (** x_i = x_j.right() *)
| ECopy (i j : nat)
| EMove (i j : nat)
| ETakeLeft (i : nat)
| ETakeRight (i : nat).

Definition estep (w : eworld) (o : eop) : outcome eworld :=
  match o with
  | ECtorVoid i => let* w := eDestruct w i in Ret (fresh w i)
  | ECtorLeft i v => let* w := eDestruct w i in Ret (eSetLeft (fresh w i) i v)
  | ECtorRight i v => let* w := eDestruct w i in Ret (eSetRight (fresh w i) i v)
  | ECtorCopy i j => let* w := eDestruct w i in eCopyInto (fresh w i) i j
  | ECtorMove i j => let* w := eDestruct w i in eMoveInto (fresh w i) i j
  (* 262-288: reset, construct, set the tag *)
  | EAssignLeft i v => let* w := eReset w i in Ret (eSetLeft w i v)
  | EAssignRight i v => let* w := eReset w i in Ret (eSetRight w i v)
  (* the argument is a reference, read after reset() *)
  | EAssignLeftOf i j =>
      if Z.eqb (tag (cellAt w j)) 1
      then let* w := eReset w i in let* v := readL w j in Ret (eSetLeft w i v) else Fatal
  | EAssignRightOf i j =>
      if Z.eqb (tag (cellAt w j)) 2
      then let* w := eReset w i in let* v := readR w j in Ret (eSetRight w i v) else Fatal
  | ECopy i j => if Nat.eqb i j then Ret w else let* w := eReset w i in eCopyInto w i j
  | EMove i j => if Nat.eqb i j then Ret w else let* w := eReset w i in eMoveInto w i j
  | ETakeLeft i => let* wv := eTakeLeft w i in Ret (fst wv)
  | ETakeRight i => let* wv := eTakeRight w i in Ret (fst wv)
  end.

(** * StatusOr: 0 = kVoid, 1 = kStatus (left), 2 = kValue (right) *)

(** destruct, StatusOr.h:293-302: anything that is neither void nor a value is a Status *)
Definition sDestruct (w : eworld) (i : nat) : outcome eworld :=
  if Z.eqb (tag (cellAt w i)) 0 then Ret w
  else if Z.eqb (tag (cellAt w i)) 2 then killR w i
  else killL w i.
Definition sReset (w : eworld) (i : nat) : outcome eworld := let* w := sDestruct w i in Ret (setTag w i 0).
(** resetValue / resetStatus, StatusOr.h:283-291 *)
Definition sResetValue (w : eworld) (i : nat) : outcome eworld := let* w := killR w i in Ret (setTag w i 0).
Definition sResetStatus (w : eworld) (i : nat) : outcome eworld := let* w := killL w i in Ret (setTag w i 0).

(** status() const& 232-235 and status() && 237-242: CHECK(hasStatus()) *)
Definition sStatus (w : eworld) (i : nat) : outcome L := if Z.eqb (tag (cellAt w i)) 1 then readL w i else Fatal.
Definition sTakeStatus (w : eworld) (i : nat) : outcome (eworld * L) :=
  if Z.eqb (tag (cellAt w i)) 1
  then let* v := readL w i in let* w := sResetStatus w i in Ret (w, v) else Fatal.
(** value() 246-264: only DCHECKed, so a release build reads the union whatever it holds *)
Definition sValue (w : eworld) (i : nat) : outcome R := readR w i.
Definition sTakeValue (w : eworld) (i : nat) : outcome (eworld * R) :=
  let* v := readR w i in let* w := sResetValue w i in Ret (w, v).

(** Copy and move constructors, StatusOr.h:98-104, 131-139 (the state is copied first) *)
Definition sCtorCopy (w : eworld) (i j : nat) : outcome eworld :=
  let w := setTag (fresh w i) i (tag (cellAt w j)) in
  if Z.eqb (tag (cellAt w i)) 2 then let* v := readR w j in Ret (place w i (AliveR v))
  else if Z.eqb (tag (cellAt w i)) 1 then let* v := readL w j in Ret (place w i (AliveL v))
  else Ret w.
Definition sCtorMove (w : eworld) (i j : nat) : outcome eworld :=
  let w := setTag (fresh w i) i (tag (cellAt w j)) in
  if Z.eqb (tag (cellAt w i)) 2 then let* v := readR w j in sResetValue (place w i (AliveR v)) j
  else if Z.eqb (tag (cellAt w j)) 1 then let* v := readL w j in sResetStatus (place w i (AliveL v)) j
  else Ret w.
(** Copy and move assignment, StatusOr.h:117-129, 155-172 *)
Definition sCopy (w : eworld) (i j : nat) : outcome eworld :=
  if Nat.eqb i j then Ret w
  else let* w := sReset w i in
       if Z.eqb (tag (cellAt w j)) 2 then let* v := readR w j in Ret (setTag (place w i (AliveR v)) i 2)
       else if Z.eqb (tag (cellAt w j)) 1 then let* v := readL w j in Ret (setTag (place w i (AliveL v)) i 1)
       else Ret w.
Definition sMove (w : eworld) (i j : nat) : outcome eworld :=
  if Nat.eqb i j then Ret w
  else let* w := sReset w i in
       if Z.eqb (tag (cellAt w j)) 2
       then let* v := readR w j in let* w := sResetValue (place w i (AliveR v)) j in Ret (setTag w i 2)
       else if Z.eqb (tag (cellAt w j)) 1
       then let* v := readL w j in let* w := sResetStatus (place w i (AliveL v)) j in Ret (setTag w i 1)
       else Ret w.

Definition sostep (w : eworld) (o : eop) : outcome eworld :=
  match o with
  | ECtorVoid i => let* w := sDestruct w i in Ret (fresh w i)
  | ECtorLeft i v => let* w := sDestruct w i in Ret (setTag (place (fresh w i) i (AliveL v)) i 1)
  | ECtorRight i v => let* w := sDestruct w i in Ret (setTag (place (fresh w i) i (AliveR v)) i 2)
  | ECtorCopy i j => let* w := sDestruct w i in sCtorCopy w i j
  | ECtorMove i j => let* w := sDestruct w i in sCtorMove w i j
  (* 199-216: destruct (not reset), construct, set the tag *)
  | EAssignLeft i v => let* w := sDestruct w i in Ret (setTag (place w i (AliveL v)) i 1)
  | EAssignRight i v => let* w := sDestruct w i in Ret (setTag (place w i (AliveR v)) i 2)
  (* status() returns a copy; value() returns a reference, read after destruct() *)
  | EAssignLeftOf i j =>
      let* v := sStatus w j in let* w := sDestruct w i in Ret (setTag (place w i (AliveL v)) i 1)
  | EAssignRightOf i j =>
      let* w := sDestruct w i in let* v := readR w j in Ret (setTag (place w i (AliveR v)) i 2)
  | ECopy i j => sCopy w i j
  | EMove i j => sMove w i j
  | ETakeLeft i => let* wv := sTakeStatus w i in Ret (fst wv)
  | ETakeRight i => let* wv := sTakeValue w i in Ret (fst wv)
  end.

Fixpoint runE (step : eworld -> eop -> outcome eworld) (w : eworld) (os : list eop) : outcome eworld :=
  match os with
  | [] => Ret w
  | o :: os' => let* w := step w o in runE step w os'
  end.

Definition einit (n : nat) : eworld := mkEW (repeat (mkCell 0 Dead) n) 0 0.
End Either.
Arguments alive : clear implicits.
Arguments cell : clear implicits.
Arguments eworld : clear implicits.
Arguments eop : clear implicits.
