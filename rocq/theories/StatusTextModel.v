(** Model of the kinds of Status and of its text. /repo/src/common/base/Status.h, Status.cpp *)
From Coq Require Import String List.
From Verif Require Import Prelude ValueBase StatusModel.
Import ListNotations.
Local Open Scope Z_scope.
Local Open Scope list_scope.

(** The instances of STATUS_GENERATOR, Status.h:117-150, and the numbers of their codes, 177-206 *)
Inductive kind :=
| KInserted
| KError
| KNoSuchFile
| KNotSupported
| KSyntaxError
| KStatementEmpty
| KSemanticError
| KKeyNotFound
| KPartialSuccess
| KSpaceNotFound
| KHostNotFound
| KTagNotFound
| KEdgeNotFound
| KUserNotFound
| KLeaderChanged
| KBalanced
| KIndexNotFound
| KPartNotFound
| KGroupNotFound
| KZoneNotFound
| KListenerNotFound
| KPermissionError.
Definition kindCode (k : kind) : Z :=
  match k with
  | KInserted => 1
  | KError => 101
  | KNoSuchFile => 102
  | KNotSupported => 103
  | KSyntaxError => 201
  | KStatementEmpty => 202
  | KSemanticError => 203
  | KKeyNotFound => 301
  | KPartialSuccess => 302
  | KSpaceNotFound => 404
  | KHostNotFound => 405
  | KTagNotFound => 406
  | KEdgeNotFound => 407
  | KUserNotFound => 408
  | KLeaderChanged => 409
  | KBalanced => 410
  | KIndexNotFound => 411
  | KPartNotFound => 412
  | KGroupNotFound => 413
  | KZoneNotFound => 414
  | KListenerNotFound => 415
  | KPermissionError => 501
  end.
(** is##ERROR(), Status.h:113-115 *)
Definition isKind (w : world) (i : nat) (k : kind) : bool := codeOf w i =? kindCode k.
(** Status::toString(Code), Status.cpp:53-104.  Other codes cannot be made; for them a debug build stops, a release build gives the empty text. *)
Definition codeText (c : Z) : str :=
  if c =? 0 then B "OK" else
  if c =? 1 then B "Inserted: " else
  if c =? 101 then B "" else
  if c =? 102 then B "NoSuchFile: " else
  if c =? 103 then B "NotSupported: " else
  if c =? 201 then B "SyntaxError: " else
  if c =? 202 then B "StatementEmpty: " else
  if c =? 203 then B "SemanticError: " else
  if c =? 301 then B "KeyNotFound: " else
  if c =? 302 then B "PartialSuccess: " else
  if c =? 404 then B "SpaceNotFound: " else
  if c =? 405 then B "HostNotFound: " else
  if c =? 406 then B "TagNotFound: " else
  if c =? 407 then B "EdgeNotFound: " else
  if c =? 413 then B "GroupNotFound: " else
  if c =? 414 then B "ZoneNotFound: " else
  if c =? 408 then B "UserNotFound: " else
  if c =? 409 then B "LeaderChanged: " else
  if c =? 410 then B "Balanced: " else
  if c =? 411 then B "IndexNotFound: " else
  if c =? 412 then B "PartNotFound: " else
  if c =? 501 then B "PermissionError: " else
  if c =? 415 then B "ListenerNotFound" else
  [].
(** Status::toString(), Status.cpp:27-35 *)
Definition statusText (w : world) (i : nat) : str := if codeOf w i =? 0 then B "OK" else codeText (codeOf w i) ++ messageOf w i.
