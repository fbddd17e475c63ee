(** Who owns the default values of schemas: loadSchemas and loadData of clients/meta/MetaClient.cpp 191-300 and 305-434, SpaceInfoCache of
    MetaClient.h 60-72, the fields of meta/NebulaSchemaProvider.h 20-80, and base/ObjectPool.h (see PoolModel).
    Only what is allocated and deleted is modelled: a default value is the address of the root of an expression. Addresses are not used again
    after a deletion, so that reading a deleted expression can be told; ids, versions and names are keys (SchemaModel, LoadModel have the rest). *)
From Verif Require Import Prelude ValueBase AssocModel.
Local Open Scope Z_scope.

(** the default value in a ColumnDef as Expression::decode takes it, Expression.cpp 191-536 with the make and resetFrom of each class: the root is
    made first and [n] more nodes follow, all in the pool; or decoding gives nullptr after [n] nodes *)
Inductive encoded := Decodes (n : nat) | Garbled (n : nat).
Record column := mkColumn { coName : str; coDefault : option encoded }.
(** a schema's fields: the name and defaultValue(), if not nullptr *)
Definition schema := list (str * option Z).
(** a tag or an edge, its id and the version *)
Definition skey : Type := bool * Z * Z.
Definition skeyEqb (a b : skey) : bool := Bool.eqb (fst (fst a)) (fst (fst b)) && (snd (fst a) =? snd (fst b)) && (snd a =? snd b).
(** pool_ and the two maps of schemas of a SpaceInfoCache *)
Record spaceCache := mkSpace { scPool : list Z; scSchemas : list (skey * schema) }.
(** expressions that exist, and the next address *)
Record heap := mkHeap { hLive : list Z; hNext : Z }.

(** [n] expressions made in a pool *)
Fixpoint make (h : heap) (pool : list Z) (n : nat) : heap * list Z :=
  match n with
  | O => (h, pool)
  | S n' => make (mkHeap (hNext h :: hLive h) (hNext h + 1)) (pool ++ [hNext h]) n'
  end.
(** addSchemaField, 332-355 *)
Definition addField (h : heap) (pool : list Z) (s : schema) (c : column) : heap * list Z * schema :=
  match coDefault c with
  | None => (h, pool, s ++ [(coName c, None)])
  | Some (Decodes n) => let '(h', pool') := make h pool (S n) in (h', pool', s ++ [(coName c, Some (hNext h))])
  | Some (Garbled n) => let '(h', pool') := make h pool n in (h', pool', s ++ [(coName c, None)])
  end.
Fixpoint addFields (h : heap) (pool : list Z) (s : schema) (cs : list column) : heap * list Z * schema :=
  match cs with
  | [] => (h, pool, s)
  | c :: r => let '(h', pool', s') := addField h pool s c in addFields h' pool' s' r
  end.
(** loadSchemas, 357-434: the schemas of a space *)
Fixpoint loadSchemas (h : heap) (sc : spaceCache) (items : list (skey * list column)) : heap * spaceCache :=
  match items with
  | [] => (h, sc)
  | (k, cs) :: r =>
      let '(h', pool', s) := addFields h (scPool sc) [] cs in
      loadSchemas h' (mkSpace pool' (aset skeyEqb k s (scSchemas sc))) r
  end.
(** a SpaceInfoCache goes: its pool deletes what it owns *)
Definition free (pool : list Z) (h : heap) : heap := mkHeap (filter (fun a => negb (existsb (Z.eqb a) pool)) (hLive h)) (hNext h).
Definition cache := list (Z * spaceCache).
Definition freeAll (c : cache) (h : heap) : heap := fold_left (fun h e => free (scPool (snd e)) h) c h.
(** the loop over the spaces, 207-261; cache.emplace keeps an entry that is there, and the other goes *)
Fixpoint loadSpaces (h : heap) (c : cache) (resp : list (Z * list (skey * list column))) : heap * cache :=
  match resp with
  | [] => (h, c)
  | (space, items) :: r =>
      let '(h', sc) := loadSchemas h (mkSpace [] []) items in
      match aget Z.eqb space c with
      | Some _ => loadSpaces (free (scPool sc) h') c r
      | None => loadSpaces h' (c ++ [(space, sc)]) r
      end
  end.
(** the cache of a MetaClient *)
Record state := mkState { stHeap : heap; stCache : cache }.
(** What happens: a load of what the server told, that is completed or given up after that (191-300; the cache that is not, or no longer, the
    local one goes when loadData returns); the end of the MetaClient. *)
Inductive event := ELoad (resp : list (Z * list (skey * list column))) (complete : bool) | EEnd.
Definition happen (s : state) (e : event) : state :=
  match e with
  | ELoad resp complete =>
      let '(h, c) := loadSpaces (stHeap s) [] resp in
      if complete then mkState (freeAll (stCache s) h) c else mkState (freeAll c h) (stCache s)
  | EEnd => mkState (freeAll (stCache s) (stHeap s)) []
  end.
Definition initial : state := mkState (mkHeap [] 0) [].
(** getTagSchemaFromCache, getEdgeSchemaFromCache, 2013-2052: a shared pointer to the schema, if there is one *)
Definition getSchema (s : state) (space : Z) (k : skey) : option schema :=
  match aget Z.eqb space (stCache s) with Some sc => aget skeyEqb k (scSchemas sc) | None => None end.
(** using the default value of a field of a schema that is held; NebulaSchemaProvider.h 56-58. None: there is none *)
Definition readDefault (s : state) (sch : schema) (col : str) : outcome (option Z) :=
  match aget strEqb col sch with
  | Some (Some a) => if existsb (Z.eqb a) (hLive (stHeap s)) then Ret (Some a) else UB
  | _ => Ret None
  end.
