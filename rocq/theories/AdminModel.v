(** The calls of the meta client that send one request and give its answer, /repo/src/common/clients/meta/MetaClient.cpp:1049-3760, as far as
    they are not in KvModel; MetaClient::download and ingest, 3762-3800.
    A call becomes the name of the remote function and the fields set in its request; fields that are not set are sent with their default
    unless they are optional in meta.thrift.  The sending, the retries and the leader are in RetryModel: every call here goes to the leader
    (the default of toLeader, MetaClient.h:720).
    Structs of the caller's making (SpaceDesc, Schema, RoleItem, Session, ...) are passed through by every function and are opaque here. *)
From Coq Require Import String List.
From Verif Require Import Prelude ValueBase ValueModel AssocModel LeaderModel ProcModel.
Import ListNotations.
Local Open Scope Z_scope.
Local Open Scope list_scope.

(** * What is sent *)
(** an opaque struct *)
Definition obj : Type := str.
(** the values of thrift fields: numbers, text, a HostAddr, an enum or a struct with its name, a struct of which the fields given are set,
    a union with its member if it has one, collections *)
Inductive tv :=
| TI32 (z : Z) | TI64 (z : Z) | TBool (b : bool) | TBin (s : str) | TAddr (h : host) | TEnum (n : string) (z : Z)
| TStruct (n : string) (o : obj) | TRec (n : string) (fs : list (string * tv)) | TUnion (n : string) (m : option (string * tv))
| TList (l : list tv) | TSet (l : list tv) | TMap (l : list (tv * tv)).
Definition fields : Type := list (string * tv).
(** the remote function and the fields set *)
Definition request : Type := string * fields.

(** One constructor for each function; the arguments are those of the function. getPartsAlloc has another argument for its answer, see below. *)
Inductive call :=
| CSubmitJob (op : Z) (cmd : Z) (paras : list str)
| CCreateSpace (desc : obj) (ifNot : bool)
| CListSpaces
| CGetSpace (name : str)
| CDropSpace (name : str) (ifExists : bool)
| CListHosts (tp : Z)
| CListParts (space : Z) (parts : list Z)
| CGetPartsAlloc (space : Z)
| CCreateTagSchema (space : Z) (name : str) (schema : obj) (ifNot : bool)
| CAlterTagSchema (space : Z) (name : str) (items : list obj) (prop : obj)
| CListTagSchemas (space : Z)
| CDropTagSchema (space : Z) (name : str) (ifExists : bool)
| CGetTagSchema (space : Z) (name : str) (ver : Z)
| CCreateTagIndex (space : Z) (index : str) (name : str) (fields : list obj) (ifNot : bool) (comment : option str)
| CDropTagIndex (space : Z) (index : str) (ifExists : bool)
| CGetTagIndex (space : Z) (index : str)
| CListTagIndexes (space : Z)
| CRebuildTagIndex (space : Z) (index : str)
| CListTagIndexStatus (space : Z)
| CCreateEdgeSchema (space : Z) (name : str) (schema : obj) (ifNot : bool)
| CAlterEdgeSchema (space : Z) (name : str) (items : list obj) (prop : obj)
| CListEdgeSchemas (space : Z)
| CDropEdgeSchema (space : Z) (name : str) (ifExists : bool)
| CGetEdgeSchema (space : Z) (name : str) (ver : Z)
| CCreateEdgeIndex (space : Z) (index : str) (name : str) (fields : list obj) (ifNot : bool) (comment : option str)
| CDropEdgeIndex (space : Z) (index : str) (ifExists : bool)
| CGetEdgeIndex (space : Z) (index : str)
| CListEdgeIndexes (space : Z)
| CRebuildEdgeIndex (space : Z) (index : str)
| CListEdgeIndexStatus (space : Z)
| CCreateUser (account : str) (password : str) (ifNot : bool)
| CDropUser (account : str) (ifExists : bool)
| CAlterUser (account : str) (password : str)
| CGrantToUser (role : obj)
| CRevokeFromUser (role : obj)
| CListUsers
| CListRoles (space : Z)
| CChangePassword (account : str) (newPwd : str) (oldPwd : str)
| CGetUserRoles (account : str)
| CBalance (hostDel : list host) (isStop : bool) (isReset : bool)
| CShowBalance (id : Z)
| CBalanceLeader
| CRegConfig (items : list obj)
| CGetConfig (module : Z) (name : str)
| CSetConfig (module : Z) (name : str) (value : obj)
| CListConfigs (module : Z)
| CCreateSnapshot
| CDropSnapshot (name : str)
| CListSnapshots
| CAddListener (space : Z) (type : Z) (hosts : list host)
| CRemoveListener (space : Z) (type : Z)
| CListListener (space : Z)
| CAddZone (zone : str) (nodes : list host)
| CDropZone (zone : str)
| CAddHostIntoZone (node : host) (zone : str)
| CDropHostFromZone (node : host) (zone : str)
| CGetZone (zone : str)
| CListZones
| CAddGroup (group : str) (zones : list str)
| CDropGroup (group : str)
| CAddZoneIntoGroup (zone : str) (group : str)
| CDropZoneFromGroup (zone : str) (group : str)
| CGetGroup (group : str)
| CListGroups
| CGetStatis (space : Z)
| CReportTaskFinish (job : Z) (task : Z) (code : Z) (statis : option obj)
| CSignInFTService (type : Z) (clients : list obj)
| CSignOutFTService
| CListFTClients
| CCreateFTIndex (name : str) (index : obj)
| CDropFTIndex (space : Z) (name : str)
| CListFTIndexes
| CCreateSession (user : str) (graph : host) (ip : str)
| CUpdateSessions (sessions : list obj)
| CListSessions
| CGetSession (id : Z)
| CRemoveSession (id : Z)
| CKillQuery (kills : list (Z * list Z)).

(** if (comment != nullptr) set, if (statisticItem) set, if (x) set *)
Definition given {A} (f : string) (w : A -> tv) (o : option A) : fields := match o with Some x => [(f, w x)] | None => [] end.
Definition whenSet (f : string) (b : bool) (v : tv) : fields := if b then [(f, v)] else [].
Definition nonempty {A} (l : list A) : bool := match l with [] => false | _ => true end.
(** the set_... calls of every function in their order, and the future_... that is called *)
Definition requestOf (c : call) : request :=
  match c with
  (* submitJob, 1049-1065 *)
  | CSubmitJob op cmd paras => ("runAdminJob"%string, [("op"%string, TEnum "AdminJobOp" op); ("cmd"%string, TEnum "AdminCmd" cmd); ("paras"%string, TList (map TBin paras))])
  (* createSpace, 1067-1083 *)
  | CCreateSpace desc ifNot => ("createSpace"%string, [("properties"%string, TStruct "SpaceDesc" desc); ("if_not_exists"%string, TBool ifNot)])
  (* listSpaces, 1085-1098 *)
  | CListSpaces => ("listSpaces"%string, [])
  (* getSpace, 1101-1114 *)
  | CGetSpace name => ("getSpace"%string, [("space_name"%string, TBin name)])
  (* dropSpace, 1117-1133 *)
  | CDropSpace name ifExists => ("dropSpace"%string, [("space_name"%string, TBin name); ("if_exists"%string, TBool ifExists)])
  (* listHosts, 1136-1152 *)
  | CListHosts tp => ("listHosts"%string, [("type"%string, TEnum "ListHostType" tp)])
  (* listParts, 1154-1170 *)
  | CListParts space parts => ("listParts"%string, [("space_id"%string, TI32 space); ("part_ids"%string, TList (map TI32 parts))])
  (* getPartsAlloc, 1173-1197 *)
  | CGetPartsAlloc space => ("getPartsAlloc"%string, [("space_id"%string, TI32 space)])
  (* createTagSchema, 1517-1537 *)
  | CCreateTagSchema space name schema ifNot => ("createTag"%string, [("space_id"%string, TI32 space); ("tag_name"%string, TBin name); ("schema"%string, TStruct "Schema" schema); ("if_not_exists"%string, TBool ifNot)])
  (* alterTagSchema, 1540-1561 *)
  | CAlterTagSchema space name items prop => ("alterTag"%string, [("space_id"%string, TI32 space); ("tag_name"%string, TBin name); ("tag_items"%string, TList (map (TStruct "AlterSchemaItem") items)); ("schema_prop"%string, TStruct "SchemaProp" prop)])
  (* listTagSchemas, 1564-1579 *)
  | CListTagSchemas space => ("listTags"%string, [("space_id"%string, TI32 space)])
  (* dropTagSchema, 1582-1599 *)
  | CDropTagSchema space name ifExists => ("dropTag"%string, [("space_id"%string, TI32 space); ("tag_name"%string, TBin name); ("if_exists"%string, TBool ifExists)])
  (* getTagSchema, 1602-1619 *)
  | CGetTagSchema space name ver => ("getTag"%string, [("space_id"%string, TI32 space); ("tag_name"%string, TBin name); ("version"%string, TI64 ver)])
  (* createTagIndex, 1728-1756 *)
  | CCreateTagIndex space index name fields ifNot comment => ("createTagIndex"%string, [("space_id"%string, TI32 space); ("index_name"%string, TBin index); ("tag_name"%string, TBin name); ("fields"%string, TList (map (TStruct "IndexFieldDef") fields)); ("if_not_exists"%string, TBool ifNot)] ++ given "comment" TBin comment)
  (* dropTagIndex, 1759-1777 *)
  | CDropTagIndex space index ifExists => ("dropTagIndex"%string, [("space_id"%string, TI32 space); ("index_name"%string, TBin index); ("if_exists"%string, TBool ifExists)])
  (* getTagIndex, 1780-1797 *)
  | CGetTagIndex space index => ("getTagIndex"%string, [("space_id"%string, TI32 space); ("index_name"%string, TBin index)])
  (* listTagIndexes, 1800-1816 *)
  | CListTagIndexes space => ("listTagIndexes"%string, [("space_id"%string, TI32 space)])
  (* rebuildTagIndex, 1819-1837 *)
  | CRebuildTagIndex space index => ("rebuildTagIndex"%string, [("space_id"%string, TI32 space); ("index_name"%string, TBin index)])
  (* listTagIndexStatus, 1840-1856 *)
  | CListTagIndexStatus space => ("listTagIndexStatus"%string, [("space_id"%string, TI32 space)])
  (* createEdgeSchema, 1622-1643 *)
  | CCreateEdgeSchema space name schema ifNot => ("createEdge"%string, [("space_id"%string, TI32 space); ("edge_name"%string, TBin name); ("schema"%string, TStruct "Schema" schema); ("if_not_exists"%string, TBool ifNot)])
  (* alterEdgeSchema, 1646-1667 *)
  | CAlterEdgeSchema space name items prop => ("alterEdge"%string, [("space_id"%string, TI32 space); ("edge_name"%string, TBin name); ("edge_items"%string, TList (map (TStruct "AlterSchemaItem") items)); ("schema_prop"%string, TStruct "SchemaProp" prop)])
  (* listEdgeSchemas, 1670-1685 *)
  | CListEdgeSchemas space => ("listEdges"%string, [("space_id"%string, TI32 space)])
  (* dropEdgeSchema, 1708-1725 *)
  | CDropEdgeSchema space name ifExists => ("dropEdge"%string, [("space_id"%string, TI32 space); ("edge_name"%string, TBin name); ("if_exists"%string, TBool ifExists)])
  (* getEdgeSchema, 1688-1705 *)
  | CGetEdgeSchema space name ver => ("getEdge"%string, [("space_id"%string, TI32 space); ("edge_name"%string, TBin name); ("version"%string, TI64 ver)])
  (* createEdgeIndex, 1859-1888 *)
  | CCreateEdgeIndex space index name fields ifNot comment => ("createEdgeIndex"%string, [("space_id"%string, TI32 space); ("index_name"%string, TBin index); ("edge_name"%string, TBin name); ("fields"%string, TList (map (TStruct "IndexFieldDef") fields)); ("if_not_exists"%string, TBool ifNot)] ++ given "comment" TBin comment)
  (* dropEdgeIndex, 1891-1909 *)
  | CDropEdgeIndex space index ifExists => ("dropEdgeIndex"%string, [("space_id"%string, TI32 space); ("index_name"%string, TBin index); ("if_exists"%string, TBool ifExists)])
  (* getEdgeIndex, 1912-1929 *)
  | CGetEdgeIndex space index => ("getEdgeIndex"%string, [("space_id"%string, TI32 space); ("index_name"%string, TBin index)])
  (* listEdgeIndexes, 1932-1948 *)
  | CListEdgeIndexes space => ("listEdgeIndexes"%string, [("space_id"%string, TI32 space)])
  (* rebuildEdgeIndex, 2116-2134 *)
  | CRebuildEdgeIndex space index => ("rebuildEdgeIndex"%string, [("space_id"%string, TI32 space); ("index_name"%string, TBin index)])
  (* listEdgeIndexStatus, 2137-2153 *)
  | CListEdgeIndexStatus space => ("listEdgeIndexStatus"%string, [("space_id"%string, TI32 space)])
  (* createUser, 2526-2543 *)
  | CCreateUser account password ifNot => ("createUser"%string, [("account"%string, TBin account); ("encoded_pwd"%string, TBin password); ("if_not_exists"%string, TBool ifNot)])
  (* dropUser, 2546-2562 *)
  | CDropUser account ifExists => ("dropUser"%string, [("account"%string, TBin account); ("if_exists"%string, TBool ifExists)])
  (* alterUser, 2565-2581 *)
  | CAlterUser account password => ("alterUser"%string, [("account"%string, TBin account); ("encoded_pwd"%string, TBin password)])
  (* grantToUser, 2584-2599 *)
  | CGrantToUser role => ("grantRole"%string, [("role_item"%string, TStruct "RoleItem" role)])
  (* revokeFromUser, 2602-2617 *)
  | CRevokeFromUser role => ("revokeRole"%string, [("role_item"%string, TStruct "RoleItem" role)])
  (* listUsers, 2620-2634 *)
  | CListUsers => ("listUsers"%string, [])
  (* listRoles, 2637-2652 *)
  | CListRoles space => ("listRoles"%string, [("space_id"%string, TI32 space)])
  (* changePassword, 2655-2674 *)
  | CChangePassword account newPwd oldPwd => ("changePassword"%string, [("account"%string, TBin account); ("new_encoded_pwd"%string, TBin newPwd); ("old_encoded_pwd"%string, TBin oldPwd)])
  (* getUserRoles, 2677-2692 *)
  | CGetUserRoles account => ("getUserRoles"%string, [("account"%string, TBin account)])
  (* balance, 2695-2720 *)
  | CBalance hostDel isStop isReset => ("balance"%string, whenSet "host_del" (nonempty hostDel) (TList (map TAddr hostDel)) ++ whenSet "stop" isStop (TBool isStop) ++ whenSet "reset" isReset (TBool isReset))
  (* showBalance, 2723-2738 *)
  | CShowBalance id => ("balance"%string, [("id"%string, TI64 id)])
  (* balanceLeader, 2741-2754 *)
  | CBalanceLeader => ("leaderBalance"%string, [])
  (* regConfig, 2810-2825 *)
  | CRegConfig items => ("regConfig"%string, [("items"%string, TList (map (TStruct "ConfigItem") items))])
  (* getConfig, 2828-2849 *)
  | CGetConfig module name => ("getConfig"%string, [("item"%string, TRec "ConfigItem" [("module"%string, TEnum "ConfigModule" module); ("name"%string, TBin name)])])
  (* setConfig, 2852-2874 *)
  | CSetConfig module name value => ("setConfig"%string, [("item"%string, TRec "ConfigItem" [("module"%string, TEnum "ConfigModule" module); ("name"%string, TBin name); ("value"%string, TStruct "Value" value)])])
  (* listConfigs, 2877-2892 *)
  | CListConfigs module => ("listConfigs"%string, [("module"%string, TEnum "ConfigModule" module)])
  (* createSnapshot, 2895-2908 *)
  | CCreateSnapshot => ("createSnapshot"%string, [])
  (* dropSnapshot, 2911-2925 *)
  | CDropSnapshot name => ("dropSnapshot"%string, [("name"%string, TBin name)])
  (* listSnapshots, 2928-2941 *)
  | CListSnapshots => ("listSnapshots"%string, [])
  (* addListener, 2943-2961 *)
  | CAddListener space type hosts => ("addListener"%string, [("space_id"%string, TI32 space); ("type"%string, TEnum "ListenerType" type); ("hosts"%string, TList (map TAddr hosts))])
  (* removeListener, 2963-2979 *)
  | CRemoveListener space type => ("removeListener"%string, [("space_id"%string, TI32 space); ("type"%string, TEnum "ListenerType" type)])
  (* listListener, 2981-2996 *)
  | CListListener space => ("listListener"%string, [("space_id"%string, TI32 space)])
  (* addZone, 3229-3246 *)
  | CAddZone zone nodes => ("addZone"%string, [("zone_name"%string, TBin zone); ("nodes"%string, TList (map TAddr nodes))])
  (* dropZone, 3248-3264 *)
  | CDropZone zone => ("dropZone"%string, [("zone_name"%string, TBin zone)])
  (* addHostIntoZone, 3266-3283 *)
  | CAddHostIntoZone node zone => ("addHostIntoZone"%string, [("node"%string, TAddr node); ("zone_name"%string, TBin zone)])
  (* dropHostFromZone, 3285-3302 *)
  | CDropHostFromZone node zone => ("dropHostFromZone"%string, [("node"%string, TAddr node); ("zone_name"%string, TBin zone)])
  (* getZone, 3304-3320 *)
  | CGetZone zone => ("getZone"%string, [("zone_name"%string, TBin zone)])
  (* listZones, 3322-3336 *)
  | CListZones => ("listZones"%string, [])
  (* addGroup, 3338-3355 *)
  | CAddGroup group zones => ("addGroup"%string, [("group_name"%string, TBin group); ("zone_names"%string, TList (map TBin zones))])
  (* dropGroup, 3357-3373 *)
  | CDropGroup group => ("dropGroup"%string, [("group_name"%string, TBin group)])
  (* addZoneIntoGroup, 3375-3392 *)
  | CAddZoneIntoGroup zone group => ("addZoneIntoGroup"%string, [("zone_name"%string, TBin zone); ("group_name"%string, TBin group)])
  (* dropZoneFromGroup, 3394-3411 *)
  | CDropZoneFromGroup zone group => ("dropZoneFromGroup"%string, [("zone_name"%string, TBin zone); ("group_name"%string, TBin group)])
  (* getGroup, 3413-3429 *)
  | CGetGroup group => ("getGroup"%string, [("group_name"%string, TBin group)])
  (* listGroups, 3431-3445 *)
  | CListGroups => ("listGroups"%string, [])
  (* getStatis, 3447-3463 *)
  | CGetStatis space => ("getStatis"%string, [("space_id"%string, TI32 space)])
  (* reportTaskFinish, 3465-3486 *)
  | CReportTaskFinish job task code statis => ("reportTaskFinish"%string, [("code"%string, TEnum "ErrorCode" code); ("job_id"%string, TI32 job); ("task_id"%string, TI32 task)] ++ given "statis" (TStruct "StatisItem") statis)
  (* signInFTService, 3488-3505 *)
  | CSignInFTService type clients => ("signInFTService"%string, [("type"%string, TEnum "FTServiceType" type); ("clients"%string, TList (map (TStruct "FTClient") clients))])
  (* signOutFTService, 3508-3522 *)
  | CSignOutFTService => ("signOutFTService"%string, [])
  (* listFTClients, 3525-3539 *)
  | CListFTClients => ("listFTClients"%string, [])
  (* createFTIndex, 3548-3565 *)
  | CCreateFTIndex name index => ("createFTIndex"%string, [("fulltext_index_name"%string, TBin name); ("index"%string, TStruct "FTIndex" index)])
  (* dropFTIndex, 3567-3584 *)
  | CDropFTIndex space name => ("dropFTIndex"%string, [("fulltext_index_name"%string, TBin name); ("space_id"%string, TI32 space)])
  (* listFTIndexes, 3586-3600 *)
  | CListFTIndexes => ("listFTIndexes"%string, [])
  (* createSession, 3656-3676 *)
  | CCreateSession user graph ip => ("createSession"%string, [("user"%string, TBin user); ("graph_addr"%string, TAddr graph); ("client_ip"%string, TBin ip)])
  (* updateSessions, 3678-3694 *)
  | CUpdateSessions sessions => ("updateSessions"%string, [("sessions"%string, TList (map (TStruct "Session") sessions))])
  (* listSessions, 3696-3709 *)
  | CListSessions => ("listSessions"%string, [])
  (* getSession, 3711-3725 *)
  | CGetSession id => ("getSession"%string, [("session_id"%string, TI64 id)])
  (* removeSession, 3727-3742 *)
  | CRemoveSession id => ("removeSession"%string, [("session_id"%string, TI64 id)])
  (* killQuery, 3744-3760 *)
  | CKillQuery kills => ("killQuery"%string, [("kill_queries"%string, TMap (map (fun p => (TI64 (fst p), TSet (map TI64 (snd p)))) kills))])
  end.
(** getConfig answers Status::Error without sending before the configuration is ready, 2830-2832 *)
Definition send (configReady : bool) (c : call) : option request :=
  match c with CGetConfig _ _ => if configReady then Some (requestOf c) else None | _ => Some (requestOf c) end.

(** * What comes back *)
(** a response: its code, its leader and its other fields; fields that were not sent hold their default, optional ones are absent *)
Record resp := mkResp { rsCode : Z; rsLeader : host; rsFields : fields }.
Inductive answer := AValue (v : tv) | AResp (r : resp).
Fixpoint field (f : string) (l : fields) : option tv :=
  match l with [] => None | (g, v) :: l' => if String.eqb f g then Some v else field f l' end.
(** resp.get_...() *)
Definition get (f : string) (r : resp) : option answer := match field f (rsFields r) with Some v => Some (AValue v) | None => None end.
(** get_...() of a union: an exception if it holds another member (in older versions of thrift an assert); None: it throws, the promise is dropped and the caller's future fails *)
Definition member (m : string) (v : tv) : option tv :=
  match v with TUnion _ (Some (n, x)) => if String.eqb n m then Some x else None | _ => None end.
Definition idOf (m : string) (r : resp) : option answer :=
  match field "id" (rsFields r) with Some v => match member m v with Some x => Some (AValue x) | None => None end | None => None end.
(** resp.get_code() == SUCCEEDED *)
Definition succeeded (r : resp) : option answer := Some (AValue (TBool (rsCode r =? 0))).
(** toSpaceIdName, 670-678: pairs of the id and the name *)
Definition spacePair (v : tv) : option tv :=
  match v with
  | TRec _ fs => match field "id" fs, field "name" fs with
                 | Some u, Some n => match member "space_id" u with Some i => Some (TRec "pair" [("first"%string, i); ("second"%string, n)]) | None => None end
                 | _, _ => None
                 end
  | _ => None
  end.
Fixpoint allSome {A C} (f : A -> option C) (l : list A) : option (list C) :=
  match l with
  | [] => Some []
  | x :: l' => match f x, allSome f l' with Some y, Some ys => Some (y :: ys) | _, _ => None end
  end.
Definition toSpaceIdName (r : resp) : option answer :=
  match field "spaces" (rsFields r) with
  | Some (TList l) => match allSome spacePair l with Some ps => Some (AValue (TList ps)) | None => None end
  | _ => None
  end.
(** the last function given to getResponse by each call *)
Definition answerOf (c : call) (r : resp) : option answer :=
  match c with
  | CSubmitJob _ _ _ => get "result" r
  | CCreateSpace _ _ => idOf "space_id" r
  | CListSpaces => toSpaceIdName r
  | CGetSpace _ => get "item" r
  | CDropSpace _ _ => succeeded r
  | CListHosts _ => get "hosts" r
  | CListParts _ _ => get "parts" r
  | CGetPartsAlloc _ => get "parts" r
  | CCreateTagSchema _ _ _ _ => idOf "tag_id" r
  | CAlterTagSchema _ _ _ _ => succeeded r
  | CListTagSchemas _ => get "tags" r
  | CDropTagSchema _ _ _ => succeeded r
  | CGetTagSchema _ _ _ => get "schema" r
  | CCreateTagIndex _ _ _ _ _ _ => idOf "index_id" r
  | CDropTagIndex _ _ _ => succeeded r
  | CGetTagIndex _ _ => get "item" r
  | CListTagIndexes _ => get "items" r
  | CRebuildTagIndex _ _ => succeeded r
  | CListTagIndexStatus _ => get "statuses" r
  | CCreateEdgeSchema _ _ _ _ => idOf "edge_type" r
  | CAlterEdgeSchema _ _ _ _ => succeeded r
  | CListEdgeSchemas _ => get "edges" r
  | CDropEdgeSchema _ _ _ => succeeded r
  | CGetEdgeSchema _ _ _ => get "schema" r
  | CCreateEdgeIndex _ _ _ _ _ _ => idOf "index_id" r
  | CDropEdgeIndex _ _ _ => succeeded r
  | CGetEdgeIndex _ _ => get "item" r
  | CListEdgeIndexes _ => get "items" r
  | CRebuildEdgeIndex _ _ => succeeded r
  | CListEdgeIndexStatus _ => get "statuses" r
  | CCreateUser _ _ _ => succeeded r
  | CDropUser _ _ => succeeded r
  | CAlterUser _ _ => succeeded r
  | CGrantToUser _ => succeeded r
  | CRevokeFromUser _ => succeeded r
  | CListUsers => get "users" r
  | CListRoles _ => get "roles" r
  | CChangePassword _ _ _ => succeeded r
  | CGetUserRoles _ => get "roles" r
  | CBalance _ _ _ => get "id" r
  | CShowBalance _ => get "tasks" r
  | CBalanceLeader => succeeded r
  | CRegConfig _ => succeeded r
  | CGetConfig _ _ => get "items" r
  | CSetConfig _ _ _ => succeeded r
  | CListConfigs _ => get "items" r
  | CCreateSnapshot => succeeded r
  | CDropSnapshot _ => succeeded r
  | CListSnapshots => get "snapshots" r
  | CAddListener _ _ _ => succeeded r
  | CRemoveListener _ _ => succeeded r
  | CListListener _ => get "listeners" r
  | CAddZone _ _ => succeeded r
  | CDropZone _ => succeeded r
  | CAddHostIntoZone _ _ => succeeded r
  | CDropHostFromZone _ _ => succeeded r
  | CGetZone _ => get "hosts" r
  | CListZones => get "zones" r
  | CAddGroup _ _ => succeeded r
  | CDropGroup _ => succeeded r
  | CAddZoneIntoGroup _ _ => succeeded r
  | CDropZoneFromGroup _ _ => succeeded r
  | CGetGroup _ => get "zone_names" r
  | CListGroups => get "groups" r
  | CGetStatis _ => get "statis" r
  | CReportTaskFinish _ _ _ _ => Some (AValue (TEnum "ErrorCode" (rsCode r)))
  | CSignInFTService _ _ => succeeded r
  | CSignOutFTService => succeeded r
  | CListFTClients => get "clients" r
  | CCreateFTIndex _ _ => succeeded r
  | CDropFTIndex _ _ => succeeded r
  | CListFTIndexes => get "indexes" r
  | CCreateSession _ _ _ => Some (AResp r)
  | CUpdateSessions _ => Some (AResp r)
  | CListSessions => Some (AResp r)
  | CGetSession _ => Some (AResp r)
  | CRemoveSession _ => Some (AResp r)
  | CKillQuery _ => Some (AResp r)
  end.
(** getPartsAlloc, 1183-1194: the map of parts is copied; partTerms, unless it is null, is written for the parts in the terms of the response, if there are any *)
Definition termsAfter (partTerms : option (list (Z * Z))) (terms : option (list (Z * Z))) : option (list (Z * Z)) :=
  match partTerms, terms with
  | Some m, Some ts => Some (fold_left (fun m p => aset Z.eqb (fst p) (snd p) m) ts m)
  | m, _ => m
  end.
Definition copyParts (parts : list (Z * list host)) : list (Z * list host) := fold_left (fun m p => aadd Z.eqb (fst p) (snd p) m) parts [].

(** * Loading data: requests over HTTP *)
(** folly::stringPrintf with the C texts of the arguments, 3766-3769 and 3784-3785; leader_ is read without its lock *)
Definition downloadUrl (leaderHost : str) (wsPort : Z) (hdfsHost : str) (hdfsPort : Z) (hdfsPath : str) (space : Z) : str :=
  B "http://" ++ cstr leaderHost ++ B ":" ++ decZ wsPort ++ B "/download-dispatch?host=" ++ cstr hdfsHost ++ B "&port=" ++ decZ hdfsPort
  ++ B "&path=" ++ cstr hdfsPath ++ B "&space=" ++ decZ space.
Definition ingestUrl (leaderHost : str) (wsPort : Z) (space : Z) : str :=
  B "http://" ++ cstr leaderHost ++ B ":" ++ decZ wsPort ++ B "/ingest-dispatch?space=" ++ decZ space.
Section Http.
(** the shell that popen starts, see ProcModel *)
Context (sh : str -> option run) (fuel : nat).
(** download, 3770-3779: the text of a result that is not ok is used for the log message (StatusOr::value with DCHECK(ok()), StatusOr.h:246-249) *)
Definition download (leaderHost : str) (wsPort : Z) (hdfsHost : str) (hdfsPort : Z) (hdfsPath : str) (space : Z) : outcome bool :=
  let* r := httpGet sh fuel (downloadUrl leaderHost wsPort hdfsHost hdfsPort hdfsPath space) [] in
  match r with
  | Some body => Ret (strEqb body (B "SSTFile dispatch successfully"))
  | None => UB
  end.
(** ingest, 3786-3795 *)
Definition ingest (leaderHost : str) (wsPort : Z) (space : Z) : outcome bool :=
  let* r := httpGet sh fuel (ingestUrl leaderHost wsPort space) [] in
  match r with
  | Some body => Ret (strEqb body (B "SSTFile ingest successfully"))
  | None => Ret false
  end.
End Http.
