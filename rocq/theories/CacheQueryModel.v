(** Questions to the cached assignment of parts and to the cached schemas, /repo/src/common/clients/meta/MetaClient.cpp:1469-1503
    and 2067-2113, ServerBasedSchemaManager.cpp (getAllLatestVer... pass the question on). *)
From Verif Require Import Prelude ValueBase LeaderModel AssocModel DiffModel SchemaModel.
Open Scope Z_scope.

(** Status codes *)
Inductive partStatus := POk | PPartNotFound | PHostNotFound | PSpaceNotFound.
(** checkPartExistInCache, 1470-1489 *)
Definition checkPartExist (c : localCache) (h : host) (space part : Z) : partStatus :=
  match aget Z.eqb space c with
  | Some si =>
      match aget hostEqb h (partsOnHost si) with
      | Some ps => if existsb (fun p => p =? part) ps then POk else PPartNotFound
      | None => PHostNotFound
      end
  | None => PSpaceNotFound
  end.
(** checkSpaceExistInCache, 1492-1503 *)
Definition checkSpaceExist (c : localCache) (h : host) (space : Z) : partStatus :=
  match aget Z.eqb space c with
  | Some si =>
      match aget hostEqb h (partsOnHost si) with
      | Some (_ :: _) => POk
      | _ => PPartNotFound
      end
  | None => PSpaceNotFound
  end.
(** getAllLatestVerTagSchema and getAllLatestVerEdgeSchemaFromCache, 2067-2083, 2098-2113, once ready: back() of an empty vector is UB *)
Fixpoint latestOf (l : list (Z * schemaVec)) (acc : list (Z * option provider)) : outcome (list (Z * option provider)) :=
  match l with
  | [] => Ret acc
  | (id, v) :: r =>
      let* b := match rev v with x :: _ => Ret x | [] => UB end in
      latestOf r (aadd Z.eqb id b acc)
  end.
Definition allLatest (c : list (Z * schemas)) (space : Z) : outcome (option (list (Z * option provider))) :=
  match aget Z.eqb space c with
  | None => Ret None
  | Some m => let* l := latestOf m [] in Ret (Some l)
  end.
