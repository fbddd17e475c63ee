(** Model of further lookups in the metadata cache of clients/meta/MetaClient.cpp: the listeners of a host, and the
    tag or edge an index is on. *)
From Coq Require Import String List.
From Verif Require Import Prelude Trans ValueBase AssocModel LeaderModel DiffModel SchemaModel MetaCacheModel.
Import ListNotations.
Open Scope Z_scope.

Section Ask.
Context (c : client).
(** getListenersByHostFromCache, MetaClient.cpp:3027-3033 *)
Definition listenersByHost (h : host) : option listenersMap :=
  if clReady c then Some (doGetListenersMap h (infos (clCache c))) else None.
(** getRelatedTagIDByIndexNameFromCache, 2216-2230. The schema id of an index is a union of a tag id and an edge type;
    that the indexes listed as tag indexes hold a tag id is taken for granted. *)
Definition relatedTag (s : Z) (n : str) : option Z :=
  if clReady c then match tagIndexByName c s n with Some it => Some (ixSchema it) | None => None end else None.
(** getRelatedEdgeTypeByIndexNameFromCache, 2256-2270; likewise for edge types *)
Definition relatedEdge (s : Z) (n : str) : option Z :=
  if clReady c then match edgeIndexByName c s n with Some it => Some (ixSchema it) | None => None end else None.
End Ask.
