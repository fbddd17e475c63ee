(** The key-value calls of the meta client, /repo/src/common/clients/meta/MetaClient.cpp:1296-1438 and 2757-2806, the check of segments,
    /repo/src/common/meta/Common.h:66-72, and the questions about spaces, MetaClient.cpp:1950-2009.
    Sending (getResponse) and the server are left out: a call gives the request it sends, or None where it answers
    Status::Error without sending. *)
From Coq Require Import String List.
From Verif Require Import Prelude ValueBase ValueModel AssocModel ClusterModel.
Import ListNotations.
Local Open Scope Z_scope.
Local Open Scope list_scope.

(** checkSegment: regex_match with ^[0-9a-zA-Z]+$ on the whole text; the depth of the recursion in std::regex on long texts is left out *)
Definition segChar (c : Z) : bool := ((48 <=? c) && (c <=? 57)) || ((97 <=? c) && (c <=? 122)) || ((65 <=? c) && (c <=? 90)).
Definition checkSegment (s : str) : bool := match s with [] => false | _ => forallb segChar s end.

(** what is sent: MultiPutReq, GetReq, MultiGetReq, ScanReq, RemoveReq, RemoveRangeReq *)
Inductive kvRequest :=
| RqMultiPut (segment : str) (pairs : list (str * str))
| RqGet (segment key : str)
| RqMultiGet (segment : str) (keys : list str)
| RqScan (segment start fin : str)
| RqRemove (segment key : str)
| RqRemoveRange (segment start fin : str).
Definition emptyL {A} (l : list A) : bool := match l with [] => true | _ => false end.
(** multiPut, 1296-1320; each pair becomes a KeyValue in the order of the call *)
Definition multiPut (segment : str) (pairs : list (str * str)) : option kvRequest :=
  if negb (checkSegment segment) || emptyL pairs then None else Some (RqMultiPut segment (map (fun p => (fst p, snd p)) pairs)).
(** get, 1324-1343 *)
Definition kvGet (segment key : str) : option kvRequest :=
  if negb (checkSegment segment) || emptyL key then None else Some (RqGet segment key).
(** multiGet, 1347-1366 *)
Definition multiGet (segment : str) (keys : list str) : option kvRequest :=
  if negb (checkSegment segment) || emptyL keys then None else Some (RqMultiGet segment keys).
(** scan, 1370-1390 *)
Definition kvScan (segment start fin : str) : option kvRequest :=
  if negb (checkSegment segment) || emptyL start || emptyL fin then None else Some (RqScan segment start fin).
(** remove, 1394-1413 *)
Definition kvRemove (segment key : str) : option kvRequest :=
  if negb (checkSegment segment) || emptyL key then None else Some (RqRemove segment key).
(** removeRange, 1417-1437 *)
Definition removeRange (segment start fin : str) : option kvRequest :=
  if negb (checkSegment segment) || emptyL start || emptyL fin then None else Some (RqRemoveRange segment start fin).

(** getTagDefaultValue 2757-2779 and getEdgeDefaultValue 2782-2806: the bytes of the two int32 on a little-endian machine and the field *)
Definition defaultSegment : str := B "__default__".
Definition defaultKey (space id : Z) (field : str) : str := leBytes 4 space ++ leBytes 4 id ++ field.
Definition tagDefault (space tag : Z) (field : str) : kvRequest := RqGet defaultSegment (defaultKey space tag field).
Definition edgeDefault (space edge : Z) (field : str) : kvRequest := RqGet defaultSegment (defaultKey space edge field).

(** ** Questions about a space *)
(** What of SpaceDesc is asked for (meta.thrift 118-133): the type and the optional length of vertex ids, the optional isolation level *)
Record spaceDesc := mkSD { sdType : Z; sdLen : option Z; sdIso : option Z }.
Definition tyINT64 : Z := 2.
Definition tyFIXED : Z := 7.
Definition isoDEFAULT : Z := 0.
Definition isoTOSS : Z := 1.
Definition spaces := list (Z * spaceDesc).
Section Space.
Context (ready : bool) (c : spaces).
(** getSpaceDesc, 1987-1998 *)
Definition getSpaceDesc (s : Z) : option spaceDesc := if ready then aget Z.eqb s c else None.
(** getSpaceVidLen, 1950-1966 *)
Definition getSpaceVidLen (s : Z) : option Z :=
  if negb ready then None else
  match aget Z.eqb s c with
  | None => None
  | Some d => let n := match sdLen d with Some n => n | None => 0 end in if n <=? 0 then None else Some n
  end.
(** getSpaceVidType, 1968-1985 *)
Definition getSpaceVidType (s : Z) : option Z :=
  if negb ready then None else
  match aget Z.eqb s c with
  | None => None
  | Some d => if negb (sdType d =? tyINT64) && negb (sdType d =? tyFIXED) then None else Some (sdType d)
  end.
(** getIsolationLevel, 2001-2009 *)
Definition getIsolationLevel (s : Z) : option Z :=
  match getSpaceDesc s with None => None | Some d => Some (match sdIso d with Some i => i | None => isoDEFAULT end) end.
End Space.
