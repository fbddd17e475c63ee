(** Specification of the calls of the meta client: the interface they must keep to, transcribed from /repo/src/common/interface/meta.thrift,
    and how a server that keeps to it understands a request. *)
From Coq Require Import String List.
From Verif Require Import Prelude ValueBase AssocModel LeaderModel AdminModel.
Import ListNotations.
Local Open Scope Z_scope.
Local Open Scope list_scope.

(** * Types *)
Inductive typ := YI32 | YI64 | YBool | YBin | YAddr | YEnum (n : string) | YStruct (n : string) | YList (t : typ) | YSet (t : typ) | YMap (k v : typ).
Fixpoint hasTy (t : typ) (v : tv) : bool :=
  match t, v with
  | YI32, TI32 _ | YI64, TI64 _ | YBool, TBool _ | YBin, TBin _ | YAddr, TAddr _ => true
  | YEnum n, TEnum m _ => String.eqb n m
  | YStruct n, TStruct m _ | YStruct n, TRec m _ | YStruct n, TUnion m _ => String.eqb n m
  | YList t, TList l | YSet t, TSet l => forallb (hasTy t) l
  | YMap k x, TMap l => forallb (fun p => hasTy k (fst p) && hasTy x (snd p)) l
  | _, _ => false
  end.
(** a field: name, type, whether it is optional *)
Definition decl : Type := string * typ * bool.
Definition req (f : string) (t : typ) : decl := (f, t, false).
Definition opt (f : string) (t : typ) : decl := (f, t, true).
(** a request has fields of the struct only, each once and of its type, and all those that are not optional *)
Definition conforms (d : list decl) (fs : fields) : Prop :=
  NoDup (map fst fs) /\ (forall f v, In (f, v) fs -> exists t o, In (f, t, o) d /\ hasTy t v = true) /\
  (forall f t, In (f, t, false) d -> In f (map fst fs)).

(** * The service, meta.thrift:1172-1280 *)
(** remote function, fields of its request, fields of its response beside code and leader *)
Definition execResp : list decl := [req "id" (YStruct "ID")].
Definition service : list (string * (list decl * list decl)) :=
  [
   (* 331 *) ("createSpace"%string, ([req "properties" (YStruct "SpaceDesc"); req "if_not_exists" YBool], execResp));
   (* 336 *) ("dropSpace"%string, ([req "space_name" YBin; req "if_exists" YBool], execResp));
   (* 351 *) ("getSpace"%string, ([req "space_name" YBin], [req "item" (YStruct "SpaceItem")]));
   (* 341 *) ("listSpaces"%string, ([], [req "spaces" (YList (YStruct "IdName"))]));
   (* 362 *) ("createTag"%string, ([req "space_id" YI32; req "tag_name" YBin; req "schema" (YStruct "Schema"); req "if_not_exists" YBool], execResp));
   (* 369 *) ("alterTag"%string, ([req "space_id" YI32; req "tag_name" YBin; req "tag_items" (YList (YStruct "AlterSchemaItem")); req "schema_prop" (YStruct "SchemaProp")], execResp));
   (* 376 *) ("dropTag"%string, ([req "space_id" YI32; req "tag_name" YBin; req "if_exists" YBool], execResp));
   (* 393 *) ("getTag"%string, ([req "space_id" YI32; req "tag_name" YBin; req "version" YI64], [req "schema" (YStruct "Schema")]));
   (* 382 *) ("listTags"%string, ([req "space_id" YI32], [req "tags" (YList (YStruct "TagItem"))]));
   (* 406 *) ("createEdge"%string, ([req "space_id" YI32; req "edge_name" YBin; req "schema" (YStruct "Schema"); req "if_not_exists" YBool], execResp));
   (* 413 *) ("alterEdge"%string, ([req "space_id" YI32; req "edge_name" YBin; req "edge_items" (YList (YStruct "AlterSchemaItem")); req "schema_prop" (YStruct "SchemaProp")], execResp));
   (* 432 *) ("dropEdge"%string, ([req "space_id" YI32; req "edge_name" YBin; req "if_exists" YBool], execResp));
   (* 420 *) ("getEdge"%string, ([req "space_id" YI32; req "edge_name" YBin; req "version" YI64], [req "schema" (YStruct "Schema")]));
   (* 438 *) ("listEdges"%string, ([req "space_id" YI32], [req "edges" (YList (YStruct "EdgeItem"))]));
   (* 457 *) ("listHosts"%string, ([req "type" (YEnum "ListHostType")], [req "hosts" (YList (YStruct "HostItem"))]));
   (* 486 *) ("getPartsAlloc"%string, ([req "space_id" YI32], [req "parts" (YMap YI32 (YList YAddr)); opt "terms" (YMap YI32 YI64)]));
   (* 475 *) ("listParts"%string, ([req "space_id" YI32; req "part_ids" (YList YI32)], [req "parts" (YList (YStruct "PartItem"))]));
   (* 587 *) ("createTagIndex"%string, ([req "space_id" YI32; req "index_name" YBin; req "tag_name" YBin; req "fields" (YList (YStruct "IndexFieldDef")); req "if_not_exists" YBool; opt "comment" YBin], execResp));
   (* 596 *) ("dropTagIndex"%string, ([req "space_id" YI32; req "index_name" YBin; req "if_exists" YBool], execResp));
   (* 602 *) ("getTagIndex"%string, ([req "space_id" YI32; req "index_name" YBin], [req "item" (YStruct "IndexItem")]));
   (* 613 *) ("listTagIndexes"%string, ([req "space_id" YI32], [req "items" (YList (YStruct "IndexItem"))]));
   (* 659 *) ("rebuildTagIndex"%string, ([req "space_id" YI32; req "index_name" YBin], execResp));
   (* 827 *) ("listTagIndexStatus"%string, ([req "space_id" YI32], [req "statuses" (YList (YStruct "IndexStatus"))]));
   (* 623 *) ("createEdgeIndex"%string, ([req "space_id" YI32; req "index_name" YBin; req "edge_name" YBin; req "fields" (YList (YStruct "IndexFieldDef")); req "if_not_exists" YBool; opt "comment" YBin], execResp));
   (* 632 *) ("dropEdgeIndex"%string, ([req "space_id" YI32; req "index_name" YBin; req "if_exists" YBool], execResp));
   (* 638 *) ("getEdgeIndex"%string, ([req "space_id" YI32; req "index_name" YBin], [req "item" (YStruct "IndexItem")]));
   (* 649 *) ("listEdgeIndexes"%string, ([req "space_id" YI32], [req "items" (YList (YStruct "IndexItem"))]));
   (* 659 *) ("rebuildEdgeIndex"%string, ([req "space_id" YI32; req "index_name" YBin], execResp));
   (* 827 *) ("listEdgeIndexStatus"%string, ([req "space_id" YI32], [req "statuses" (YList (YStruct "IndexStatus"))]));
   (* 664 *) ("createUser"%string, ([req "account" YBin; req "encoded_pwd" YBin; req "if_not_exists" YBool], execResp));
   (* 670 *) ("dropUser"%string, ([req "account" YBin; req "if_exists" YBool], execResp));
   (* 675 *) ("alterUser"%string, ([req "account" YBin; req "encoded_pwd" YBin], execResp));
   (* 680 *) ("grantRole"%string, ([req "role_item" (YStruct "RoleItem")], execResp));
   (* 684 *) ("revokeRole"%string, ([req "role_item" (YStruct "RoleItem")], execResp));
   (* 688 *) ("listUsers"%string, ([], [req "users" (YMap YBin YBin)]));
   (* 699 *) ("listRoles"%string, ([req "space_id" YI32], [req "roles" (YList (YStruct "RoleItem"))]));
   (* 710 *) ("getUserRoles"%string, ([req "account" YBin], [req "roles" (YList (YStruct "RoleItem"))]));
   (* 714 *) ("changePassword"%string, ([req "account" YBin; req "new_encoded_pwd" YBin; req "old_encoded_pwd" YBin], execResp));
   (* 720 *) ("balance"%string, ([opt "space_id" YI32; opt "id" YI64; opt "host_del" (YList YAddr); opt "stop" YBool; opt "reset" YBool], [req "id" YI64; req "tasks" (YList (YStruct "BalanceTask"))]));
   (* 750 *) ("leaderBalance"%string, ([], execResp));
   (* 775 *) ("regConfig"%string, ([req "items" (YList (YStruct "ConfigItem"))], execResp));
   (* 779 *) ("getConfig"%string, ([req "item" (YStruct "ConfigItem")], [req "items" (YList (YStruct "ConfigItem"))]));
   (* 789 *) ("setConfig"%string, ([req "item" (YStruct "ConfigItem")], execResp));
   (* 793 *) ("listConfigs"%string, ([req "space" YBin; req "module" (YEnum "ConfigModule")], [req "items" (YList (YStruct "ConfigItem"))]));
   (* 804 *) ("createSnapshot"%string, ([], execResp));
   (* 807 *) ("dropSnapshot"%string, ([req "name" YBin], execResp));
   (* 811 *) ("listSnapshots"%string, ([], [req "snapshots" (YList (YStruct "Snapshot"))]));
   (* 235 *) ("runAdminJob"%string, ([req "op" (YEnum "AdminJobOp"); req "cmd" (YEnum "AdminCmd"); req "paras" (YList YBin)], [req "result" (YStruct "AdminJobResult")]));
   (* 843 *) ("addZone"%string, ([req "zone_name" YBin; req "nodes" (YList YAddr)], execResp));
   (* 848 *) ("dropZone"%string, ([req "zone_name" YBin], execResp));
   (* 852 *) ("addHostIntoZone"%string, ([req "node" YAddr; req "zone_name" YBin], execResp));
   (* 857 *) ("dropHostFromZone"%string, ([req "node" YAddr; req "zone_name" YBin], execResp));
   (* 862 *) ("getZone"%string, ([req "zone_name" YBin], [req "hosts" (YList YAddr)]));
   (* 872 *) ("listZones"%string, ([], [req "zones" (YList (YStruct "Zone"))]));
   (* 886 *) ("addGroup"%string, ([req "group_name" YBin; req "zone_names" (YList YBin)], execResp));
   (* 891 *) ("dropGroup"%string, ([req "group_name" YBin], execResp));
   (* 895 *) ("addZoneIntoGroup"%string, ([req "zone_name" YBin; req "group_name" YBin], execResp));
   (* 900 *) ("dropZoneFromGroup"%string, ([req "zone_name" YBin; req "group_name" YBin], execResp));
   (* 905 *) ("getGroup"%string, ([req "group_name" YBin], [req "zone_names" (YList YBin)]));
   (* 915 *) ("listGroups"%string, ([], [req "groups" (YList (YStruct "Group"))]));
   (* 934 *) ("addListener"%string, ([req "space_id" YI32; req "type" (YEnum "ListenerType"); req "hosts" (YList YAddr)], execResp));
   (* 940 *) ("removeListener"%string, ([req "space_id" YI32; req "type" (YEnum "ListenerType")], execResp));
   (* 945 *) ("listListener"%string, ([req "space_id" YI32], [req "listeners" (YList (YStruct "ListenerInfo"))]));
   (* 962 *) ("getStatis"%string, ([req "space_id" YI32], [req "statis" (YStruct "StatisItem")]));
   (* 1026 *) ("signInFTService"%string, ([req "type" (YEnum "FTServiceType"); req "clients" (YList (YStruct "FTClient"))], execResp));
   (* 1031 *) ("signOutFTService"%string, ([], execResp));
   (* 1034 *) ("listFTClients"%string, ([], [req "clients" (YList (YStruct "FTClient"))]));
   (* 1049 *) ("createFTIndex"%string, ([req "fulltext_index_name" YBin; req "index" (YStruct "FTIndex")], execResp));
   (* 1054 *) ("dropFTIndex"%string, ([req "space_id" YI32; req "fulltext_index_name" YBin], execResp));
   (* 1059 *) ("listFTIndexes"%string, ([], [req "indexes" (YMap YBin (YStruct "FTIndex"))]));
   (* 1096 *) ("createSession"%string, ([req "user" YBin; req "graph_addr" YAddr; req "client_ip" YBin], [req "session" (YStruct "Session")]));
   (* 1108 *) ("updateSessions"%string, ([req "sessions" (YList (YStruct "Session"))], [req "killed_queries" (YMap YI64 (YMap YI64 (YStruct "QueryDesc")))]));
   (* 1119 *) ("listSessions"%string, ([], [req "sessions" (YList (YStruct "Session"))]));
   (* 1128 *) ("getSession"%string, ([req "session_id" YI64], [req "session" (YStruct "Session")]));
   (* 1138 *) ("removeSession"%string, ([req "session_id" YI64], execResp));
   (* 1142 *) ("killQuery"%string, ([req "kill_queries" (YMap YI64 (YSet YI64))], execResp));
   (* 1147 *) ("reportTaskFinish"%string, ([req "code" (YEnum "ErrorCode"); req "job_id" YI32; req "task_id" YI32; opt "statis" (YStruct "StatisItem")], execResp))
  ].
Fixpoint find {A} (f : string) (l : list (string * A)) : option A :=
  match l with [] => None | (g, x) :: l' => if String.eqb f g then Some x else find f l' end.
Definition requestDecl (rpc : string) : option (list decl) := match find rpc service with Some (d, _) => Some d | None => None end.
Definition responseDecl (rpc : string) : option (list decl) := match find rpc service with Some (_, d) => Some d | None => None end.

(** * What a request asks for *)
Definition unI32 v := match v with TI32 z => Some z | _ => None end.
Definition unI64 v := match v with TI64 z => Some z | _ => None end.
Definition unBool v := match v with TBool b => Some b | _ => None end.
Definition unBin v := match v with TBin s => Some s | _ => None end.
Definition unAddr v := match v with TAddr h => Some h | _ => None end.
Definition unEnum v := match v with TEnum _ z => Some z | _ => None end.
Definition unObj v := match v with TStruct _ o => Some o | _ => None end.
Fixpoint each {A} (u : tv -> option A) (l : list tv) : option (list A) :=
  match l with [] => Some [] | v :: l' => match u v, each u l' with Some x, Some xs => Some (x :: xs) | _, _ => None end end.
Definition unList {A} (u : tv -> option A) v := match v with TList l => each u l | _ => None end.
Definition unKills v : option (list (Z * list Z)) :=
  match v with
  | TMap l => (fix go l := match l with
                           | [] => Some []
                           | (TI64 s, TSet ps) :: l' => match each unI64 ps, go l' with Some xs, Some r => Some ((s, xs) :: r) | _, _ => None end
                           | _ => None
                           end) l
  | _ => None
  end.
Section Reader.
Context (fs : fields).
(** the value of a field that must be there *)
Definition the {A} (u : tv -> option A) (f : string) : option A := match find f fs with Some v => u v | None => None end.
(** the value of an optional field *)
Definition maybe {A} (u : tv -> option A) (f : string) : option (option A) :=
  match find f fs with Some v => match u v with Some x => Some (Some x) | None => None end | None => Some None end.
End Reader.
Notation "'let?' x := e 'in' k" := (match e with Some x => k | None => None end) (at level 200, x pattern, k at level 200).
(** a flag that is not sent is off, hosts that are not sent are none *)
Definition orElse {A} (d : A) (o : option A) : A := match o with Some x => x | None => d end.

(** What each remote function with its fields asks for, by the meaning of the fields' names: for every call of the client the request that stands for it *)
Definition readers : list (string * (fields -> option call)) :=
  [
   ("runAdminJob"%string, fun fs => let? a := the fs unEnum "op" in let? b := the fs unEnum "cmd" in let? c := the fs (unList unBin) "paras" in Some (CSubmitJob a b c));
   ("createSpace"%string, fun fs => let? a := the fs unObj "properties" in let? b := the fs unBool "if_not_exists" in Some (CCreateSpace a b));
   ("listSpaces"%string, fun _ => Some CListSpaces);
   ("getSpace"%string, fun fs => let? a := the fs unBin "space_name" in Some (CGetSpace a));
   ("dropSpace"%string, fun fs => let? a := the fs unBin "space_name" in let? b := the fs unBool "if_exists" in Some (CDropSpace a b));
   ("listHosts"%string, fun fs => let? a := the fs unEnum "type" in Some (CListHosts a));
   ("listParts"%string, fun fs => let? a := the fs unI32 "space_id" in let? b := the fs (unList unI32) "part_ids" in Some (CListParts a b));
   ("getPartsAlloc"%string, fun fs => let? a := the fs unI32 "space_id" in Some (CGetPartsAlloc a));
   ("createTag"%string, fun fs => let? a := the fs unI32 "space_id" in let? b := the fs unBin "tag_name" in let? c := the fs unObj "schema" in let? d := the fs unBool "if_not_exists" in Some (CCreateTagSchema a b c d));
   ("alterTag"%string, fun fs => let? a := the fs unI32 "space_id" in let? b := the fs unBin "tag_name" in let? c := the fs (unList unObj) "tag_items" in let? d := the fs unObj "schema_prop" in Some (CAlterTagSchema a b c d));
   ("listTags"%string, fun fs => let? a := the fs unI32 "space_id" in Some (CListTagSchemas a));
   ("dropTag"%string, fun fs => let? a := the fs unI32 "space_id" in let? b := the fs unBin "tag_name" in let? c := the fs unBool "if_exists" in Some (CDropTagSchema a b c));
   ("getTag"%string, fun fs => let? a := the fs unI32 "space_id" in let? b := the fs unBin "tag_name" in let? c := the fs unI64 "version" in Some (CGetTagSchema a b c));
   ("createTagIndex"%string, fun fs => let? a := the fs unI32 "space_id" in let? b := the fs unBin "index_name" in let? c := the fs unBin "tag_name" in let? d := the fs (unList unObj) "fields" in let? e := the fs unBool "if_not_exists" in let? f := maybe fs unBin "comment" in Some (CCreateTagIndex a b c d e f));
   ("dropTagIndex"%string, fun fs => let? a := the fs unI32 "space_id" in let? b := the fs unBin "index_name" in let? c := the fs unBool "if_exists" in Some (CDropTagIndex a b c));
   ("getTagIndex"%string, fun fs => let? a := the fs unI32 "space_id" in let? b := the fs unBin "index_name" in Some (CGetTagIndex a b));
   ("listTagIndexes"%string, fun fs => let? a := the fs unI32 "space_id" in Some (CListTagIndexes a));
   ("rebuildTagIndex"%string, fun fs => let? a := the fs unI32 "space_id" in let? b := the fs unBin "index_name" in Some (CRebuildTagIndex a b));
   ("listTagIndexStatus"%string, fun fs => let? a := the fs unI32 "space_id" in Some (CListTagIndexStatus a));
   ("createEdge"%string, fun fs => let? a := the fs unI32 "space_id" in let? b := the fs unBin "edge_name" in let? c := the fs unObj "schema" in let? d := the fs unBool "if_not_exists" in Some (CCreateEdgeSchema a b c d));
   ("alterEdge"%string, fun fs => let? a := the fs unI32 "space_id" in let? b := the fs unBin "edge_name" in let? c := the fs (unList unObj) "edge_items" in let? d := the fs unObj "schema_prop" in Some (CAlterEdgeSchema a b c d));
   ("listEdges"%string, fun fs => let? a := the fs unI32 "space_id" in Some (CListEdgeSchemas a));
   ("dropEdge"%string, fun fs => let? a := the fs unI32 "space_id" in let? b := the fs unBin "edge_name" in let? c := the fs unBool "if_exists" in Some (CDropEdgeSchema a b c));
   ("getEdge"%string, fun fs => let? a := the fs unI32 "space_id" in let? b := the fs unBin "edge_name" in let? c := the fs unI64 "version" in Some (CGetEdgeSchema a b c));
   ("createEdgeIndex"%string, fun fs => let? a := the fs unI32 "space_id" in let? b := the fs unBin "index_name" in let? c := the fs unBin "edge_name" in let? d := the fs (unList unObj) "fields" in let? e := the fs unBool "if_not_exists" in let? f := maybe fs unBin "comment" in Some (CCreateEdgeIndex a b c d e f));
   ("dropEdgeIndex"%string, fun fs => let? a := the fs unI32 "space_id" in let? b := the fs unBin "index_name" in let? c := the fs unBool "if_exists" in Some (CDropEdgeIndex a b c));
   ("getEdgeIndex"%string, fun fs => let? a := the fs unI32 "space_id" in let? b := the fs unBin "index_name" in Some (CGetEdgeIndex a b));
   ("listEdgeIndexes"%string, fun fs => let? a := the fs unI32 "space_id" in Some (CListEdgeIndexes a));
   ("rebuildEdgeIndex"%string, fun fs => let? a := the fs unI32 "space_id" in let? b := the fs unBin "index_name" in Some (CRebuildEdgeIndex a b));
   ("listEdgeIndexStatus"%string, fun fs => let? a := the fs unI32 "space_id" in Some (CListEdgeIndexStatus a));
   ("createUser"%string, fun fs => let? a := the fs unBin "account" in let? b := the fs unBin "encoded_pwd" in let? c := the fs unBool "if_not_exists" in Some (CCreateUser a b c));
   ("dropUser"%string, fun fs => let? a := the fs unBin "account" in let? b := the fs unBool "if_exists" in Some (CDropUser a b));
   ("alterUser"%string, fun fs => let? a := the fs unBin "account" in let? b := the fs unBin "encoded_pwd" in Some (CAlterUser a b));
   ("grantRole"%string, fun fs => let? a := the fs unObj "role_item" in Some (CGrantToUser a));
   ("revokeRole"%string, fun fs => let? a := the fs unObj "role_item" in Some (CRevokeFromUser a));
   ("listUsers"%string, fun _ => Some CListUsers);
   ("listRoles"%string, fun fs => let? a := the fs unI32 "space_id" in Some (CListRoles a));
   ("changePassword"%string, fun fs => let? a := the fs unBin "account" in let? b := the fs unBin "new_encoded_pwd" in let? c := the fs unBin "old_encoded_pwd" in Some (CChangePassword a b c));
   ("getUserRoles"%string, fun fs => let? a := the fs unBin "account" in Some (CGetUserRoles a));
   ("balance"%string, fun fs => let? i := maybe fs unI64 "id" in match i with Some i => Some (CShowBalance i) | None =>
      let? h := maybe fs (unList unAddr) "host_del" in let? s := maybe fs unBool "stop" in let? r := maybe fs unBool "reset" in
      Some (CBalance (orElse [] h) (orElse false s) (orElse false r)) end);
   ("leaderBalance"%string, fun _ => Some CBalanceLeader);
   ("regConfig"%string, fun fs => let? a := the fs (unList unObj) "items" in Some (CRegConfig a));
   ("getConfig"%string, fun fs => let? item := find "item" fs in match item with TRec _ fs => let? m := the fs unEnum "module" in let? n := the fs unBin "name" in Some (CGetConfig m n) | _ => None end);
   ("setConfig"%string, fun fs => let? item := find "item" fs in match item with TRec _ fs => let? m := the fs unEnum "module" in let? n := the fs unBin "name" in let? v := the fs unObj "value" in Some (CSetConfig m n v) | _ => None end);
   ("listConfigs"%string, fun fs => let? a := the fs unEnum "module" in Some (CListConfigs a));
   ("createSnapshot"%string, fun _ => Some CCreateSnapshot);
   ("dropSnapshot"%string, fun fs => let? a := the fs unBin "name" in Some (CDropSnapshot a));
   ("listSnapshots"%string, fun _ => Some CListSnapshots);
   ("addListener"%string, fun fs => let? a := the fs unI32 "space_id" in let? b := the fs unEnum "type" in let? c := the fs (unList unAddr) "hosts" in Some (CAddListener a b c));
   ("removeListener"%string, fun fs => let? a := the fs unI32 "space_id" in let? b := the fs unEnum "type" in Some (CRemoveListener a b));
   ("listListener"%string, fun fs => let? a := the fs unI32 "space_id" in Some (CListListener a));
   ("addZone"%string, fun fs => let? a := the fs unBin "zone_name" in let? b := the fs (unList unAddr) "nodes" in Some (CAddZone a b));
   ("dropZone"%string, fun fs => let? a := the fs unBin "zone_name" in Some (CDropZone a));
   ("addHostIntoZone"%string, fun fs => let? a := the fs unAddr "node" in let? b := the fs unBin "zone_name" in Some (CAddHostIntoZone a b));
   ("dropHostFromZone"%string, fun fs => let? a := the fs unAddr "node" in let? b := the fs unBin "zone_name" in Some (CDropHostFromZone a b));
   ("getZone"%string, fun fs => let? a := the fs unBin "zone_name" in Some (CGetZone a));
   ("listZones"%string, fun _ => Some CListZones);
   ("addGroup"%string, fun fs => let? a := the fs unBin "group_name" in let? b := the fs (unList unBin) "zone_names" in Some (CAddGroup a b));
   ("dropGroup"%string, fun fs => let? a := the fs unBin "group_name" in Some (CDropGroup a));
   ("addZoneIntoGroup"%string, fun fs => let? a := the fs unBin "zone_name" in let? b := the fs unBin "group_name" in Some (CAddZoneIntoGroup a b));
   ("dropZoneFromGroup"%string, fun fs => let? a := the fs unBin "zone_name" in let? b := the fs unBin "group_name" in Some (CDropZoneFromGroup a b));
   ("getGroup"%string, fun fs => let? a := the fs unBin "group_name" in Some (CGetGroup a));
   ("listGroups"%string, fun _ => Some CListGroups);
   ("getStatis"%string, fun fs => let? a := the fs unI32 "space_id" in Some (CGetStatis a));
   ("reportTaskFinish"%string, fun fs => let? a := the fs unI32 "job_id" in let? b := the fs unI32 "task_id" in let? c := the fs unEnum "code" in let? d := maybe fs unObj "statis" in Some (CReportTaskFinish a b c d));
   ("signInFTService"%string, fun fs => let? a := the fs unEnum "type" in let? b := the fs (unList unObj) "clients" in Some (CSignInFTService a b));
   ("signOutFTService"%string, fun _ => Some CSignOutFTService);
   ("listFTClients"%string, fun _ => Some CListFTClients);
   ("createFTIndex"%string, fun fs => let? a := the fs unBin "fulltext_index_name" in let? b := the fs unObj "index" in Some (CCreateFTIndex a b));
   ("dropFTIndex"%string, fun fs => let? a := the fs unI32 "space_id" in let? b := the fs unBin "fulltext_index_name" in Some (CDropFTIndex a b));
   ("listFTIndexes"%string, fun _ => Some CListFTIndexes);
   ("createSession"%string, fun fs => let? a := the fs unBin "user" in let? b := the fs unAddr "graph_addr" in let? c := the fs unBin "client_ip" in Some (CCreateSession a b c));
   ("updateSessions"%string, fun fs => let? a := the fs (unList unObj) "sessions" in Some (CUpdateSessions a));
   ("listSessions"%string, fun _ => Some CListSessions);
   ("getSession"%string, fun fs => let? a := the fs unI64 "session_id" in Some (CGetSession a));
   ("removeSession"%string, fun fs => let? a := the fs unI64 "session_id" in Some (CRemoveSession a));
   ("killQuery"%string, fun fs => let? a := the fs unKills "kill_queries" in Some (CKillQuery a))
  ].
Definition serverReads (rq : request) : option call := match find (fst rq) readers with Some r => r (snd rq) | None => None end.

(** * What a response tells *)
(** the remote functions that make something, with the member of the union ID that names it *)
Definition makes : list (string * string) :=
  [("createSpace"%string, "space_id"%string); ("createTag"%string, "tag_id"%string); ("createEdge"%string, "edge_type"%string);
   ("createTagIndex"%string, "index_id"%string); ("createEdgeIndex"%string, "index_id"%string)].
(** the functions of the client that hand out the whole response, that list the spaces, and that report the end of a task *)
Definition wholeAnswer (c : call) : bool :=
  match c with CCreateSession _ _ _ | CUpdateSessions _ | CListSessions | CGetSession _ | CRemoveSession _ | CKillQuery _ => true | _ => false end.
Definition isReport (c : call) : bool := match c with CReportTaskFinish _ _ _ _ => true | _ => false end.
(** the fields of a response are those of its struct, of their types *)
Definition shaped (d : list decl) (fs : fields) : Prop :=
  NoDup (map fst fs) /\ (forall f v, In (f, v) fs -> exists t o, In (f, t, o) d /\ hasTy t v = true) /\
  (forall f t, In (f, t, false) d -> In f (map fst fs)).
(** what the caller may be told, given the response [r] with the fields of its struct: the whole response; the code; one field of two; the id of
    what was made if the union holds the right member, and a failure otherwise; that it is done; or what the response holds beside code and leader *)
Definition created (m : string) (r : resp) (a : option answer) : Prop :=
  forall u, In ("id"%string, u) (rsFields r) ->
    (forall x, u = TUnion "ID" (Some (m, x)) -> a = Some (AValue x)) /\
    (forall k x, u = TUnion "ID" (Some (k, x)) -> k <> m -> a = None) /\ (u = TUnion "ID" None -> a = None).
Definition tellsField (f : string) (r : resp) (a : option answer) : Prop := forall v, In (f, v) (rsFields r) -> a = Some (AValue v).
Definition told (c : call) (d : list decl) (r : resp) (a : option answer) : Prop :=
  if wholeAnswer c then a = Some (AResp r)
  else if isReport c then a = Some (AValue (TEnum "ErrorCode" (rsCode r)))
  else match c with
       | CListSpaces => forall l, In ("spaces"%string, TList (map (fun p => TRec "IdName" [("id"%string, TUnion "ID" (Some ("space_id"%string, TI32 (fst p)))); ("name"%string, TBin (snd p))]) l)) (rsFields r) ->
                          a = Some (AValue (TList (map (fun p => TRec "pair" [("first"%string, TI32 (fst p)); ("second"%string, TBin (snd p))]) l)))
       | CBalance _ _ _ => tellsField "id" r a
       | CShowBalance _ => tellsField "tasks" r a
       | _ => match find (fst (requestOf c)) makes with
              | Some m => created m r a
              | None => match d with
                        | [("id"%string, YStruct "ID"%string, false)] => a = Some (AValue (TBool true))
                        | _ => exists f t, (forall g u, In (g, u, false) d <-> (g, u) = (f, t)) /\ (exists v, In (f, v) (rsFields r)) /\ tellsField f r a
                        end
              end
       end.

(** * The parameters of a URL: what is behind the first ?, cut at every &, each piece at its first = *)
Fixpoint upTo (c : Z) (s : str) : str * option str :=
  match s with
  | [] => ([], None)
  | x :: r => if x =? c then ([], Some r) else let (a, b) := upTo c r in (x :: a, b)
  end.
Fixpoint pieces (c : Z) (s : str) : str * list str :=
  match s with
  | [] => ([], [])
  | x :: r => let (p, ps) := pieces c r in if x =? c then ([], p :: ps) else (x :: p, ps)
  end.
Definition param (p : str) : str * str := match upTo 61 p with (k, Some v) => (k, v) | (k, None) => (k, []) end.
Definition query (url : str) : list (str * str) :=
  match upTo 63 url with (_, Some q) => let (p, ps) := pieces 38 q in map param (p :: ps) | (_, None) => [] end.
