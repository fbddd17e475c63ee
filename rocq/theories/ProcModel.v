(** Files read line by line or entry by entry, listing a directory, pid files, and the commands that are run.
    /repo/src/common/fs/FileUtils.cpp:394-569, FileUtils.h:250-267, process/ProcessUtils.cpp:15-168, http/HttpClient.cpp,
    hdfs/HdfsCommandHelper.cpp. Texts of statuses are left out (C19 is about them). *)
From Coq Require Import String.
From Coq Require Import List.
From Verif Require Import Prelude ValueBase PathModel FullTextModel.
Import ListNotations.
Local Open Scope Z_scope.
Local Open Scope list_scope.

(** * Iterators *)
(** FileType, FileUtils.h:20-30 *)
Inductive fileTy := FUnknown | FNotExist | FRegular | FDirectory | FLink | FChar | FBlock | FFifo | FSocket.
Definition fileTyEqb (a b : fileTy) : bool :=
  match a, b with
  | FUnknown, FUnknown | FNotExist, FNotExist | FRegular, FRegular | FDirectory, FDirectory | FLink, FLink | FChar, FChar | FBlock, FBlock
  | FFifo, FFifo | FSocket, FSocket => true
  | _, _ => false
  end.
(** The file system while an iterator is in use: fileType (lstat), realpath, what an opened file holds, and the names readdir
    gives (None: it cannot be opened). Errors while reading count as the end, which is what getline and readdir make of them. *)
Record fsys := mkFs { fsType : str -> fileTy; fsReal : str -> option str; fsFile : str -> option str; fsDir : str -> option (list str) }.

(** std::getline on what is left of a file, until it fails: a line feed ends a line, at the end of the file there is one more line if anything is left *)
Fixpoint linesGo (cur : str) (s : str) : list str :=
  match s with
  | [] => match cur with [] => [] | _ => [cur] end
  | c :: r => if c =? 10 then cur :: linesGo [] r else linesGo (cur ++ [c]) r
  end.
Definition linesOf (s : str) : list str := linesGo [] s.

(** Iterator, FileUtils.h:163-250. [itLines], [itDir] : what is left to read, None for a null pointer or a stream that is not open.
    A pattern is what regex_search finds: the text of the first group *)
Record iter := mkIter { itType : fileTy; itLines : option (list str); itDir : option (list str); itEntry : str; itMatched : str; itOk : bool }.
(** openFileOrDirectory, 530-561; [fuel] for links to links (realpath gives none) *)
Fixpoint openIt (fs : fsys) (fuel : nat) (path : str) : outcome iter :=
  match fuel with
  | O => Diverge
  | S f =>
      let t := fsType fs path in
      match t with
      | FDirectory => match fsDir fs path with Some names => Ret (mkIter t None (Some names) [] [] true) | None => Ret (mkIter t None None [] [] false) end
      | FRegular => match fsFile fs path with Some s => Ret (mkIter t (Some (linesOf s)) None [] [] true) | None => Ret (mkIter t None None [] [] false) end
      | FLink =>
          match fsReal fs path with
          | None => Ret (mkIter t None None [] [] false)
          | Some p =>
              let* i := openIt fs f p in
              Ret (mkIter (itType i) (itLines i) (itDir i) (itEntry i) (itMatched i) true)
          end
      | _ => Ret (mkIter t None None [] [] false)
      end
  end.
(** the loop of next, 480-500, over the entries: what is left behind the one found *)
Fixpoint findEntry (pat : option (str -> option str)) (l : list str) : option (str * str * list str) :=
  match l with
  | [] => None
  | e :: r => match pat with
              | None => Some (e, [], r)
              | Some p => match p e with Some m => Some (e, m, r) | None => findEntry pat r end
              end
  end.
(** dirNext skips the names that begin with a dot, 503-518 *)
Definition notDot (n : str) : bool := match n with c :: _ => negb (c =? 46) | [] => true end.
(** next, with fileNext 521-527 *)
Definition nextIt (pat : option (str -> option str)) (it : iter) : outcome iter :=
  if negb (itOk it) then Fatal
  else match itType it with
       | FUnknown => Fatal
       | FDirectory =>
           match itDir it with
           | None => Fatal
           | Some l => match findEntry pat (filter notDot l) with
                       | Some (e, m, r) => Ret (mkIter FDirectory (itLines it) (Some r) e m true)
                       | None => Ret (mkIter FDirectory (itLines it) (Some []) (itEntry it) (itMatched it) false)
                       end
           end
       | FRegular =>
           match findEntry pat (match itLines it with Some l => l | None => [] end) with
           | Some (e, m, r) => Ret (mkIter FRegular (Some r) (itDir it) e m true)
           | None => Ret (mkIter FRegular (Some []) (itDir it) (itEntry it) (itMatched it) false)
           end
       | _ => Fatal
       end.
(** Iterator::Iterator, 460-467 *)
Definition newIter (fs : fsys) (pat : option (str -> option str)) (path : str) : outcome iter :=
  let* it := openIt fs 40 path in
  if itOk it then nextIt pat it else Ret it.
(** for (Iterator it(path, pattern); it.valid(); ++it) : the entries with what the pattern found in them *)
Fixpoint collect (fuel : nat) (pat : option (str -> option str)) (it : iter) : outcome (list (str * str)) :=
  if negb (itOk it) then Ret []
  else match fuel with
       | O => Diverge
       | S f => let* it' := nextIt pat it in let* r := collect f pat it' in Ret ((itEntry it, itMatched it) :: r)
       end.
Definition entriesOf (fs : fsys) (pat : option (str -> option str)) (fuel : nat) (path : str) : outcome (list (str * str)) :=
  let* it := newIter fs pat path in collect fuel pat it.

(** * Listing a directory *)
(** CHECK_TYPE, FileUtils.h:255-263: the type in the entry, or that of the file if the file system does not tell *)
Definition isType (fs : fsys) (ty : fileTy) (dir name : str) (dtype : option fileTy) : bool :=
  match dtype with Some t => fileTyEqb t ty | None => fileTyEqb (fsType fs (joinPath dir name)) ty end.
(** listAllTypedEntitiesInDir, FileUtils.cpp:394-434. [entries] : readdir's, with their types (None: DT_UNKNOWN); [glob] : fnmatch of a
    pattern. UNKNOWN and NOTEXIST are compared with nothing. *)
Definition listDir (fs : fsys) (entries : list (str * option fileTy)) (ty : fileTy) (full : bool) (glob : option (str -> bool)) (dir : str) : list str :=
  flat_map (fun e =>
    let '(name, dt) := e in
    if (match ty with FUnknown | FNotExist => false | _ => isType fs ty dir name dt end) then
      if strEqb name (B ".") || strEqb name (B "..") then []
      else if (match glob with Some g => negb (g name) | None => false end) then []
      else [if full then joinPath dir name else name]
    else []) entries.

(** * Pid files *)
(** kill(pid, 0) *)
Inductive killed := KillOk | KillPerm | KillNone | KillOther.
(** isPidAvailable, ProcessUtils.cpp:15-31 *)
Definition isPidFree (kill : Z -> killed) (me pid : Z) : bool :=
  if pid =? me then true
  else match kill pid with KillOk => false | KillPerm => false | KillOther => false | KillNone => true end.
(** std::regex [([0-9]+)]: the first run of digits *)
Definition isDig (c : Z) : bool := (48 <=? c) && (c <=? 57).
Fixpoint digitRun (s : str) : str := match s with c :: r => if isDig c then c :: digitRun r else [] | [] => [] end.
Fixpoint firstNumber (s : str) : option str :=
  match s with [] => None | c :: r => if isDig c then Some (digitRun s) else firstNumber r end.
(** folly::to<uint32_t> of digits; None: it throws *)
Definition valueGo (s : str) (acc : Z) : Z := fold_left (fun a c => 10 * a + (c - 48)) s acc.
Definition toUint32 (s : str) : option Z := let v := valueGo s 0 in if v <=? 4294967295 then Some v else None.
(** access(path, R_OK) *)
Inductive accessed := AccessOk | AccessNoEnt | AccessOther.
(** isPidAvailable, 34-52: the status, or None if an exception is thrown. The number is passed as pid_t. *)
Definition isPidFileFree (fs : fsys) (acc : str -> accessed) (kill : Z -> killed) (me : Z) (path : str) : outcome (option bool) :=
  match acc path with
  | AccessNoEnt => Ret (Some true)
  | AccessOther => Ret (Some false)
  | AccessOk =>
      let* it := newIter fs (Some firstNumber) path in
      if negb (itOk it) then Ret (Some true)
      else match toUint32 (itMatched it) with
           | None => Ret None
           | Some v => Ret (Some (isPidFree kill me (wrap32 v)))
           end
  end.
(** makePidFile, 55-79, with the results of makeDir and fopen, and what reaches the file of what is written: the status and
    what the file then holds (None: unchanged) *)
Definition makePidFile (mkdir fopen : bool) (disk : str -> str) (me : Z) (path : str) (pid : Z) : bool * option str :=
  match path with
  | [] => (false, None)
  | _ => if negb mkdir then (false, None)
         else if negb fopen then (false, None)
         else (true, Some (disk (decZ (if pid =? 0 then me else pid) ++ [10])))
  end.

(** * Commands *)
(** runCommand, 144-168. [buf] : the size of the buffer; [out] : what the command writes; [fail] : the bytes after which reading fails, if it does. Its exit status is not looked at. *)
Fixpoint readLoop (buf fuel : nat) (fail : option nat) (out acc : str) : outcome (option str) :=
  match fuel with
  | O => Diverge
  | S f =>
      let len := match fail with Some k => Nat.min k (Nat.min buf (List.length out)) | None => Nat.min buf (List.length out) end in
      let acc' := acc ++ firstn len out in
      if Nat.eqb len buf then readLoop buf f (match fail with Some k => Some (k - len)%nat | None => None end) (skipn len out) acc'
      else match fail with Some k => if Nat.leb k len then Ret None else Ret (Some acc') | None => Ret (Some acc') end
  end.
(** what a command does: its output, its exit status, where reading from it fails *)
Record run := mkRun { rnOut : str; rnExit : Z; rnFail : option nat }.
(** [sh] : popen and what comes of it, None if it fails *)
Definition runCommand (sh : str -> option run) (fuel : nat) (cmd : str) : outcome (option str) :=
  match sh (cstr cmd) with None => Ret None | Some r => readLoop 1024 fuel (rnFail r) (rnOut r) [] end.
(** HttpClient::get 13-22, post 24-34, put 60-70 with a text; sendRequest 76-101 with JSON (data.empty(): an object without members; other kinds of JSON are not sent), HttpClient.cpp *)
Definition httpGetCmd (path options : str) : str := B "/usr/bin/curl " ++ cstr options ++ B " """ ++ cstr path ++ B """".
Definition httpPostCmd (path header : str) : str := B "/usr/bin/curl -X POST " ++ cstr header ++ B " """ ++ cstr path ++ B """".
Definition httpPutCmd (path header : str) : str := B "/usr/bin/curl -X PUT " ++ cstr header ++ B " """ ++ cstr path ++ B """".
Definition httpSendCmd (W : ftWorld) (req path : str) (data : json) : str :=
  match data with
  | JObj [] => B "curl -X " ++ cstr req ++ B " -s """ ++ cstr path ++ B """"
  | _ => B "curl -X " ++ cstr req ++ B " -H ""Content-Type: application/json"" -d'" ++ cstr (toJson W data) ++ B "' -s """ ++ cstr path ++ B """"
  end.
Definition httpGet (sh : str -> option run) (fuel : nat) (path options : str) : outcome (option str) := runCommand sh fuel (httpGetCmd path options).
(** HdfsCommandHelper::ls 13-25, copyToLocal 27-41, HdfsCommandHelper.cpp *)
Definition hdfsLsCmd (host : str) (port : Z) (path : str) : str := B "hdfs dfs -ls hdfs://" ++ cstr host ++ B ":" ++ decZ port ++ cstr path.
Definition hdfsCopyCmd (host : str) (port : Z) (path local : str) : str :=
  B "hdfs dfs -copyToLocal hdfs://" ++ cstr host ++ B ":" ++ decZ port ++ cstr path ++ B " " ++ cstr local.
