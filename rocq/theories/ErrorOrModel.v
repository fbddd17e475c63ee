(** Model of ErrorOr, an EitherOr with an error code on the left. /repo/src/common/base/ErrorOr.h:25-74 *)
From Verif Require Import Prelude EitherModel.

Section ErrorOr.
Context {L R : Type}.
(** ok 36-39, hasValue 46-49 *)
Definition errOk (w : eworld L R) (i : nat) : bool := negb (tag (cellAt w i) =? 1).
Definition errHasValue (w : eworld L R) (i : nat) : bool := tag (cellAt w i) =? 2.
(** error 41-44, value 51-59 by reference, 61-64 moved out *)
Definition errError (w : eworld L R) (i : nat) : outcome L := eLeft w i.
Definition errValue (w : eworld L R) (i : nat) : outcome R := eRight w i.
Definition errTake (w : eworld L R) (i : nat) : outcome (eworld L R * R) := eTakeRight w i.
End ErrorOr.
