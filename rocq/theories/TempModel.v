(** Temporary files and directories: fs/TempFile.h 17-43, TempFile.cpp 12-36, fs/TempDir.h 16-48, TempDir.cpp 12-39, on the tree of files of FsModel. *)
From Coq Require Import String List.
From Verif Require Import Prelude ValueBase AssocModel PathModel FsModel.
Import ListNotations.
Open Scope Z_scope.

(** * The system calls *)
(** open(O_CREAT | O_EXCL) and mkdir: the parent has to be a directory and the name free. Links on the way are not followed. *)
Inductive created := CMade (t : node) | CExists | CFailed.
Fixpoint putAt (x n : node) (cs : list str) : created :=
  match cs with
  | [] => CExists
  | c :: cs' =>
      match n with
      | NDir f es =>
          match aget strEqb c es with
          | Some m => match putAt x m cs' with CMade m' => CMade (NDir f (aset strEqb c m' es)) | r => r end
          | None => match cs' with [] => CMade (NDir f (aset strEqb c x es)) | _ => CFailed end
          end
      | _ => CFailed
      end
  end.
Fixpoint nodeAt (n : node) (cs : list str) : option node :=
  match cs with
  | [] => Some n
  | c :: cs' => match n with NDir _ es => match aget strEqb c es with Some m => nodeAt m cs' | None => None end | _ => None end
  end.
(** what [f] leaves of the node at a path takes its place; the names in a directory are different *)
Definition dropName (c : str) (es : list (str * node)) : list (str * node) := filter (fun e => negb (strEqb (fst e) c)) es.
Fixpoint changeAt (f : node -> option node) (n : node) (cs : list str) : option node :=
  match cs with
  | [] => f n
  | c :: cs' =>
      match n with
      | NDir g es =>
          match aget strEqb c es with
          | Some m => match changeAt f m cs' with Some m' => Some (NDir g (aset strEqb c m' es)) | None => Some (NDir g (dropName c es)) end
          | None => Some n
          end
      | _ => Some n
      end
  end.
(** unlink: not for directories *)
Definition unlinkNode (n : node) : option node :=
  match n with NFile true | NLink true | NDir _ _ => Some n | _ => None end.

(** mkstemp and mkdtemp: the template ends in six X, which are replaced by letters and digits until the name is free. [draws] are the six characters of
    the attempts (glibc makes 62^3 of them at most). [may] tells where files can be made. *)
Definition sixX : str := B "XXXXXX".
Definition stem (tpl : str) : option str :=
  let k := (List.length tpl - 6)%nat in
  if strEqb (skipn k tpl) sixX then Some (firstn k tpl) else None.
Section Make.
Context (may : list str -> bool) (x : node).
Fixpoint attempts (draws : list str) (cwd : list str) (t : node) (pre : str) : node * option str :=
  match draws with
  | [] => (t, None)
  | d :: draws' =>
      let cs := resolve cwd (pre ++ d) in
      match putAt x t cs with
      | CExists => attempts draws' cwd t pre
      | CFailed => (t, None)
      | CMade t' => if may cs then (t', Some (pre ++ d)) else (t, None)
      end
  end.
Definition mktemp (draws : list str) (cwd : list str) (t : node) (tpl : str) : node * option str :=
  match stem tpl with Some pre => attempts draws cwd t pre | None => (t, None) end.
End Make.

(** * The classes *)
(** TempFile::TempFile, TempFile.cpp 12-23: None stands for the exception *)
Record tempFile := mkTempFile { fPath : str; fAuto : bool }.
Definition newTempFile (may : list str -> bool) (draws : list str) (cwd : list str) (t : node) (path : str) (auto : bool) : node * option tempFile :=
  let (t', r) := mktemp may (NFile false) draws cwd t (cstr path) in
  (t', match r with Some p => Some (mkTempFile p auto) | None => None end).
(** ~TempFile, 25-29 *)
Definition endTempFile (cwd : list str) (t : node) (o : tempFile) : node :=
  if fAuto o then match changeAt unlinkNode t (resolve cwd (fPath o)) with Some t' => t' | None => t end else t.
(** TempDir::TempDir, TempDir.cpp 12-30: dirPath_ stays nullptr if the directory cannot be made; path() (TempDir.h 36-38) is dirPath_ *)
Record tempDir := mkTempDir { dPath : option str; dAuto : bool }.
Definition newTempDir (may : list str -> bool) (draws : list str) (cwd : list str) (t : node) (tpl : str) (auto : bool) : node * tempDir :=
  let (t', r) := mktemp may (NDir false []) draws cwd t (cstr tpl) in (t', mkTempDir r auto).
(** TempDir.h 28-32 *)
Definition newTempDirIn (may : list str -> bool) (draws : list str) (cwd : list str) (t : node) (parent name : str) (auto : bool) : node * tempDir :=
  newTempDir may draws cwd t (joinPath parent name) auto.
(** ~TempDir, TempDir.cpp 33-37 *)
Definition endTempDir (cwd : list str) (t : node) (o : tempDir) : node :=
  match dAuto o, dPath o with
  | true, Some p => match changeAt (fun n => fst (remove true n)) t (resolve cwd p) with Some t' => t' | None => t end
  | _, _ => t
  end.
