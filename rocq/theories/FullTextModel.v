(** The full-text plugin: the commands it hands to the shell and its reading of the answers.
    Source: src/common/plugin/fulltext/FTUtils.h, elasticsearch/ESGraphAdapter.cpp, elasticsearch/ESStorageAdapter.cpp,
    src/common/process/ProcessUtils.cpp (runCommand), src/common/encryption/Base64.cpp and MD5Utils.cpp.
    Not modelled: doubles inside folly::dynamic, logging, the reading of the pipe (runCommand 150-166). *)
From Coq Require Import String List.
From Verif Require Import Prelude ValueBase NetModel.
Import ListNotations.
Local Open Scope Z_scope.
Local Open Scope list_scope.

(** folly::dynamic without doubles; an object is a list of members in the order its hash map yields them *)
Inductive json : Type :=
| JNull
| JBool (b : bool)
| JInt (z : Z)
| JStr (s : str)
| JArr (l : list json)
| JObj (m : list (str * json)).

(** What the process finds outside this repository: proxygen::md5Encode (MD5Utils.cpp 12-16), the order in which
    the hash map of a folly::dynamic object yields its members, and folly::parseJson (None: it throws). *)
Record ftWorld := mkFtWorld {
  wMd5 : str -> str;
  wOrder : list (str * json) -> list (str * json);
  wParse : str -> option json
}.

(** folly::toJson with default options: no blanks; the double quote, the backslash and the control characters escaped, other bytes as they are *)
Definition hexDigit (n : Z) : Z := if n <? 10 then 48 + n else 87 + n.
Definition escByte (c : Z) : str :=
  if (c =? 34) || (c =? 92) then [92; c]
  else if c <? 32 then
    (if c =? 8 then [92; 98] else if c =? 12 then [92; 102] else if c =? 10 then [92; 110]
     else if c =? 13 then [92; 114] else if c =? 9 then [92; 116]
     else [92; 117; 48; 48; hexDigit (c / 16); hexDigit (c mod 16)])
  else [c].
Definition jsonQuote (s : str) : str := [34] ++ flat_map escByte s ++ [34].
Section Printing.
  Variable W : ftWorld.
  Fixpoint arrange (j : json) : json :=
    match j with
    | JArr l => JArr (map arrange l)
    | JObj m => JObj (wOrder W (map (fun p => (fst p, arrange (snd p))) m))
    | _ => j
    end.
End Printing.
Fixpoint printJson (j : json) : str :=
  match j with
  | JNull => B "null"
  | JBool true => B "true"
  | JBool false => B "false"
  | JInt z => decZ z
  | JStr s => jsonQuote s
  | JArr l => [91] ++ joinStr [44] (map printJson l) ++ [93]
  | JObj m => [123] ++ joinStr [44] (map (fun p => jsonQuote (fst p) ++ [58] ++ printJson (snd p)) m) ++ [125]
  end.
Definition toJson (W : ftWorld) (j : json) : str := printJson (arrange W j).

(** Base64::encode, Base64.cpp 12-16 (proxygen::base64Encode: the standard alphabet, padded with `=`) *)
Definition b64Char (i : Z) : Z :=
  if i <? 26 then 65 + i else if i <? 52 then 71 + i else if i <? 62 then i - 4 else if i =? 62 then 43 else 47.
Fixpoint base64 (s : str) : str :=
  match s with
  | a :: b :: c :: r =>
      b64Char (a / 4) :: b64Char (a mod 4 * 16 + b / 16) :: b64Char (b mod 16 * 4 + c / 64) :: b64Char (c mod 64) :: base64 r
  | [a; b] => [b64Char (a / 4); b64Char (a mod 4 * 16 + b / 16); b64Char (b mod 16 * 4); 61]
  | [a] => [b64Char (a / 4); b64Char (a mod 4 * 16); 61; 61]
  | [] => []
  end.

(** HttpClient, FTUtils.h 37-92 *)
Record httpClient := mkHttpClient { hcHost : hostAddr; hcUser : str; hcPassword : str }.
(** DocItem, FTUtils.h 94-145. The constructors without a part (114-126) leave it indeterminate: here any number. *)
Record docItem := mkDocItem { diIndex : str; diColumn : str; diPart : Z; diVal : str }.
(** LimitItem, FTUtils.h 147-156 *)
Record limitItem := mkLimitItem { liTimeout : Z; liMaxRows : Z }.

(** HttpClient::toString, FTUtils.h 81-91 *)
Definition clientText (c : httpClient) : str :=
  (match hcUser c with
   | [] => []
   | u => B " -u " ++ u ++ (match hcPassword c with [] => [] | p => B ":" ++ p end)
   end) ++ B " ""http://" ++ haHost (hcHost c) ++ B ":" ++ decZ (haPort (hcHost c)) ++ B "/".

(** DocIDTraits::id, FTUtils.h 159-165: setw(10) with fill '0', adjusted to the right, the sign included *)
Definition docPart (z : Z) : str := repeat 48 (10 - List.length (decZ z)) ++ decZ z.
(** MAX_INDEX_TYPE_LENGTH, base/CommonMacro.h 15 *)
Definition maxIndexType : nat := 256.
(** DocIDTraits::val, FTUtils.h 172-174 *)
Definition docVal (v : str) : str := if (maxIndexType <? List.length v)%nat then firstn maxIndexType v else v.
(** DocIDTraits::normalizedJson, FTUtils.h 176-178: every `'` becomes `'\''` *)
Definition normalizedJson (s : str) : str := flat_map (fun c => if c =? 39 then [39; 92; 39; 39] else [c]) s.
(** DocIDTraits::docId, FTUtils.h 180-193 *)
Definition docId (W : ftWorld) (it : docItem) : str :=
  let encoded := base64 (if (maxIndexType <? List.length (diVal it))%nat then firstn maxIndexType (diVal it) else diVal it) in
  docPart (diPart it) ++ wMd5 W (diColumn it) ++ map (fun c => if c =? 47 then 95 else c) encoded.

(** CURL, CURL_CONTENT_JSON, CURL_CONTENT_NDJSON, FTUtils.h 18-24 *)
Definition curlJson : str := B "/usr/bin/curl -H ""Content-Type: application/json; charset=utf-8""".
Definition curlNdjson : str := B "/usr/bin/curl -H ""Content-Type: application/x-ndjson; charset=utf-8""".

(** ** ESGraphAdapter *)
(** header, ESGraphAdapter.cpp 80-89 *)
Definition searchHeader (c : httpClient) (it : docItem) (l : limitItem) : str :=
  curlJson ++ B " -XGET" ++ clientText c ++ diIndex it ++ B "/_search?timeout=" ++ decZ (liTimeout l) ++ B "ms" ++ B """".
(** FT_SEARCH_OP with the arguments of each operation, FTUtils.h 30-35 and ESGraphAdapter.cpp 16-72 *)
Inductive searchOp := OpPrefix | OpWildcard | OpRegexp | OpFuzzy (fuzziness : json) (op : str).
(** columnBody 91-95, prefixBody .. fuzzyBody 132-159 *)
Definition obj1 (k : string) (j : json) : json := JObj [(B k, j)].
Definition columnBody (W : ftWorld) (col : str) : json := obj1 "term" (obj1 "column_id" (JStr (wMd5 W col))).
Definition opBody (o : searchOp) (v : str) : json :=
  match o with
  | OpPrefix => obj1 "prefix" (obj1 "value" (JStr v))
  | OpWildcard => obj1 "wildcard" (obj1 "value" (JStr v))
  | OpRegexp => obj1 "regexp" (obj1 "value" (JStr v))
  | OpFuzzy f op => obj1 "match" (obj1 "value" (JObj [(B "query", JStr v); (B "fuzziness", f); (B "operator", JStr op)]))
  end.
(** body, 97-130 *)
Definition searchQuery (W : ftWorld) (it : docItem) (maxRows : Z) (o : searchOp) : json :=
  let itemArray := JArr [columnBody W (diColumn it); opBody o (diVal it)] in
  JObj [(B "query", obj1 "bool" (obj1 "must" itemArray)); (B "_source", JStr (B "value")); (B "size", JInt maxRows); (B "from", JInt 0)].
Definition searchBody (W : ftWorld) (it : docItem) (maxRows : Z) (o : searchOp) : str :=
  B " -d'" ++ normalizedJson (toJson W (searchQuery W it maxRows o)) ++ B "'".
(** the command of prefix 20-21, wildcard 34-35, regexp 48-49 and fuzzy 64-65 *)
Definition searchCmd (W : ftWorld) (c : httpClient) (it : docItem) (l : limitItem) (o : searchOp) : str :=
  searchHeader c it l ++ searchBody W it (liMaxRows l) o.
(** createIndexCmd 176-181, dropIndexCmd 196-201, indexExistsCmd 216-222 *)
Definition createIndexCmd (c : httpClient) (index : str) : str := curlJson ++ B " -XPUT" ++ clientText c ++ index ++ B """".
Definition dropIndexCmd (c : httpClient) (index : str) : str := curlJson ++ B " -XDELETE" ++ clientText c ++ index ++ B """".
Definition indexExistsCmd (c : httpClient) (index : str) : str :=
  curlJson ++ B " -XGET" ++ clientText c ++ B "_cat/indices/" ++ index ++ B "?format=json" ++ B """".

(** ** ESStorageAdapter *)
(** putHeader, ESStorageAdapter.cpp 146-154; putBody 156-163; putCmd 165-170 *)
Definition putHeader (W : ftWorld) (c : httpClient) (it : docItem) : str :=
  curlJson ++ B " -XPUT" ++ clientText c ++ diIndex it ++ B "/_doc/" ++ docId W it ++ B """".
Definition putDoc (W : ftWorld) (it : docItem) : json :=
  JObj [(B "column_id", JStr (wMd5 W (diColumn it))); (B "value", JStr (docVal (diVal it)))].
Definition putBody (W : ftWorld) (it : docItem) : str := B " -d'" ++ normalizedJson (toJson W (putDoc W it)) ++ B "'".
Definition putCmd (W : ftWorld) (c : httpClient) (it : docItem) : str := putHeader W c it ++ putBody W it.
(** bulkHeader 172-178 *)
Definition bulkHeader (c : httpClient) : str := curlNdjson ++ B " -XPOST" ++ clientText c ++ B "_bulk""".
(** bulkBody 180-202. The line with the document's data is escaped for the shell, the line with its place is not. *)
Definition bulkMeta (W : ftWorld) (it : docItem) : json :=
  obj1 "index" (JObj [(B "_id", JStr (docId W it)); (B "_index", JStr (diIndex it))]).
Definition bulkData (W : ftWorld) (it : docItem) : json :=
  JObj [(B "value", JStr (docVal (diVal it))); (B "column_id", JStr (wMd5 W (diColumn it)))].
Definition bulkItem (W : ftWorld) (it : docItem) : str :=
  toJson W (bulkMeta W it) ++ [10] ++ normalizedJson (toJson W (bulkData W it)) ++ [10].
Definition bulkBody (W : ftWorld) (items : list docItem) : str :=
  match items with
  | [] => []
  | _ => B " -d '" ++ [10] ++ flat_map (bulkItem W) items ++ B "'"
  end.
(** bulkCmd 204-213 *)
Definition bulkCmd (W : ftWorld) (c : httpClient) (items : list docItem) : str :=
  match bulkBody W items with [] => [] | b => bulkHeader c ++ b end.

(** ** Answers *)
(** dynamic::find: None when the value is not an object (TypeError) *)
Fixpoint member (k : str) (m : list (str * json)) : option json :=
  match m with [] => None | (k', j) :: m' => if strEqb k' k then Some j else member k m' end.
Definition jfind (k : string) (j : json) : option (option json) :=
  match j with JObj m => Some (member (B k) m) | _ => None end.

(** checkPut, ESStorageAdapter.cpp 16-53 *)
Definition checkPut (W : ftWorld) (ret : str) : bool :=
  match wParse W ret with
  | None => false
  | Some root =>
      match jfind "result" root with
      | Some (Some (JStr s)) => strEqb s (B "created") || strEqb s (B "updated")
      | _ => false
      end
  end.
(** checkBulk, 55-119 *)
Definition checkBulk (W : ftWorld) (ret : str) : bool :=
  match wParse W ret with
  | None => false
  | Some root => match jfind "errors" root with Some (Some (JBool b)) => negb b | _ => false end
  end.
(** statusCheck, ESGraphAdapter.cpp 254-270 *)
Definition statusCheck (W : ftWorld) (ret : str) : bool :=
  match wParse W ret with
  | None => false
  | Some root => match jfind "acknowledged" root with Some (Some (JBool b)) => b | _ => false end
  end.
(** indexCheck, 272-289 *)
Fixpoint indexLoop (l : list json) : bool :=
  match l with
  | [] => false
  | e :: l' => match jfind "index" e with None => false | Some (Some _) => true | Some None => indexLoop l' end
  end.
Definition indexCheck (W : ftWorld) (ret : str) : bool :=
  match wParse W ret with Some (JArr l) => indexLoop l | _ => false end.
(** result, 224-252: the rows appended so far stay when an exception ends the loop *)
Fixpoint resultLoop (l : list json) (rows : list str) : bool * list str :=
  match l with
  | [] => (true, rows)
  | item :: l' =>
      match jfind "_source" item with
      | None => (false, rows)
      | Some None => resultLoop l' rows
      | Some (Some s) =>
          match jfind "value" s with
          | None => (false, rows)
          | Some None => resultLoop l' rows
          | Some (Some (JStr v)) => resultLoop l' (rows ++ [v])
          | Some (Some _) => (false, rows)
          end
      end
  end.
Definition result (W : ftWorld) (ret : str) (rows : list str) : bool * list str :=
  match wParse W ret with
  | None => (false, rows)
  | Some root =>
      match jfind "hits" root with
      | Some (Some h) =>
          match jfind "hits" h with
          | None => (false, rows)
          | Some None => (true, rows)
          | Some (Some (JArr l)) => resultLoop l rows
          | Some (Some _) => (false, rows)
          end
      | _ => (false, rows)
      end
  end.

(** ** Operations *)
(** ProcessUtils::runCommand, ProcessUtils.cpp 144-168: popen of the C string gives an error (None) or what the
    command wrote; [run] is the shell with everything outside. *)
Inductive ftReply (A : Type) := FtError | FtReply (a : A).
Arguments FtError {A}.
Arguments FtReply {A}.
Definition runCheck {A} (run : str -> option str) (cmd : str) (check : str -> A) : ftReply A :=
  match run (cstr cmd) with None => FtError | Some [] => FtError | Some out => FtReply (check out) end.
(** ESGraphAdapter::prefix .. fuzzy 16-72; [rows] is the vector of the caller *)
Definition search (run : str -> option str) (W : ftWorld) (c : httpClient) (it : docItem) (l : limitItem) (o : searchOp) (rows : list str)
  : ftReply (bool * list str) := runCheck run (searchCmd W c it l o) (fun out => result W out rows).
(** createIndex 162-174, dropIndex 183-194, indexExists 203-214 *)
Definition createIndex (run : str -> option str) (W : ftWorld) (c : httpClient) (index : str) : ftReply bool := runCheck run (createIndexCmd c index) (statusCheck W).
Definition dropIndex (run : str -> option str) (W : ftWorld) (c : httpClient) (index : str) : ftReply bool := runCheck run (dropIndexCmd c index) (statusCheck W).
Definition indexExists (run : str -> option str) (W : ftWorld) (c : httpClient) (index : str) : ftReply bool := runCheck run (indexExistsCmd c index) (indexCheck W).
(** ESStorageAdapter::put 121-129, bulk 131-144 *)
Definition put (run : str -> option str) (W : ftWorld) (c : httpClient) (it : docItem) : ftReply bool := runCheck run (putCmd W c it) (checkPut W).
Definition bulk (run : str -> option str) (W : ftWorld) (c : httpClient) (items : list docItem) : ftReply bool :=
  match bulkCmd W c items with [] => FtReply true | cmd => runCheck run cmd (checkBulk W) end.
