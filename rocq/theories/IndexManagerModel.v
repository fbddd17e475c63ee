(** Model of the index manager of the servers, /repo/src/common/meta/ServerBasedIndexManager.cpp; create and init only keep the client. *)
From Coq Require Import String List.
From Verif Require Import Prelude ValueBase AssocModel MetaCacheModel.

Section Manager.
Context (c : client).
(** getTagIndex, getEdgeIndex, 30-38 *)
Definition imTagIndex (s id : Z) : option idxItem := tagIndexById c s id.
Definition imEdgeIndex (s id : Z) : option idxItem := edgeIndexById c s id.
(** getTagIndexes, getEdgeIndexes, 40-48 *)
Definition imTagIndexes (s : Z) : option (list idxItem) := indexesOf c enTagIdx s.
Definition imEdgeIndexes (s : Z) : option (list idxItem) := indexesOf c enEdgeIdx s.
(** toTagIndexID, toEdgeIndexID, 50-66 *)
Definition imTagIndexID (s : Z) (n : str) : option Z := match tagIndexByName c s n with Some it => Some (ixId it) | None => None end.
Definition imEdgeIndexID (s : Z) (n : str) : option Z := match edgeIndexByName c s n with Some it => Some (ixId it) | None => None end.
(** checkTagIndexed, checkEdgeIndexed, 68-74 *)
Definition imTagIndexed (s id : Z) : bool := indexed c enTagIdx s id.
Definition imEdgeIndexed (s id : Z) : bool := indexed c enEdgeIdx s id.
End Manager.
