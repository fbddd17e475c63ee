(** Model of FileUtils::remove and FileUtils::makeDir on a tree of files. *)
From Coq Require Import String List.
From Verif Require Import Prelude ValueBase AssocModel PathModel.
Import ListNotations.
Open Scope Z_scope.

(** What can be at a path: [fixed] means that unlink or rmdir of it fails (permissions, a mount point).
    Special covers character and block devices, fifos and sockets. A directory has its entries in the order readdir
    returns them, without "." and "..". Hard links, a directory changed by somebody else meanwhile and errors of
    opendir, readdir and closedir are left out. *)
Inductive node :=
| NFile (fixed : bool) | NLink (fixed : bool) | NSpecial
| NDir (fixed : bool) (entries : list (str * node)).
Inductive kind := KFile | KLink | KSpecial | KDir.
Definition kindOf (n : node) : kind := match n with NFile _ => KFile | NLink _ => KLink | NSpecial => KSpecial | NDir _ _ => KDir end.
Definition isDirNode (n : node) : bool := match n with NDir _ _ => true | _ => false end.

(** FileUtils::remove of something that exists, FileUtils.cpp:295-325, and detail::removeDir, 22-86: what is left,
    and the result. (Of something that does not exist: true, 318-320.) *)
Fixpoint remove (recursively : bool) (n : node) : option node * bool :=
  match n with
  | NFile fixed | NLink fixed => if fixed then (Some n, false) else (None, true)
  | NSpecial => (Some n, false)
  | NDir fixed entries =>
      let fix loop (es : list (str * node)) : list (str * node) * bool :=
        match es with
        | [] => ([], true)
        | (nm, c) :: es' =>
            if isDirNode c && negb recursively then (es, false)
            else
              let (left, ok) := remove recursively c in
              if ok then loop es'
              else (match left with Some c' => (nm, c') :: es' | None => es' end, false)
        end in
      let (left, ok) := loop entries in
      if ok then (if fixed then (Some (NDir fixed left), false) else (None, true)) else (Some (NDir fixed left), false)
  end.

(** * Paths in the tree *)
(** How the system takes a path apart: at the slashes; empty names and "." stand for the directory itself. ".." is
    taken as any other name here and excluded in the theorems. A relative path starts at the directory [cwd]. *)
Fixpoint pieces (s cur : str) : list str :=
  match s with [] => [cur] | c :: s' => if c =? slash then cur :: pieces s' [] else pieces s' (cur ++ [c]) end.
Definition names (s : str) : list str := filter (fun p => negb (strEqb p [] || strEqb p (B "."))) (pieces s []).
Definition resolve (cwd : list str) (path : str) : list str :=
  match path with c :: _ => if c =? slash then names path else cwd ++ names path | [] => cwd end.

(** The kind of the file with these names below a node. A link is not followed. *)
Fixpoint kindAt (n : node) (cs : list str) : option kind :=
  match cs with
  | [] => Some (kindOf n)
  | c :: cs' => match n with NDir _ es => match aget strEqb c es with Some m => kindAt m cs' | None => None end | _ => None end
  end.
(** whether the way to it ends at something that is not a directory (ENOTDIR rather than ENOENT) *)
Fixpoint blocked (n : node) (cs : list str) : bool :=
  match cs with
  | [] => false
  | c :: cs' => match n with NDir _ es => match aget strEqb c es with Some m => blocked m cs' | None => false end | _ => true end
  end.

Inductive fileTy := TNotExist | TUnknown | TKind (k : kind).
(** FileUtils::fileType, 169-201: lstat; a slash at the end asks for a directory *)
Definition fileType (cwd : list str) (t : node) (path : str) : fileTy :=
  let cs := resolve cwd path in
  if blocked t cs then TUnknown
  else match kindAt t cs with
       | None => TNotExist
       | Some KDir => TKind KDir
       | Some k => match rev path with c :: _ => if c =? slash then TUnknown else TKind k | [] => TKind k end
       end.

(** mkdir(2): the parent has to be a directory and the name free *)
Fixpoint insertDir (n : node) (cs : list str) : option node :=
  match cs with
  | [] => None
  | c :: cs' =>
      match n with
      | NDir f es =>
          match aget strEqb c es with
          | Some m => match insertDir m cs' with Some m' => Some (NDir f (aset strEqb c m' es)) | None => None end
          | None => match cs' with [] => Some (NDir f (aset strEqb c (NDir false []) es)) | _ => None end
          end
      | _ => None
      end
  end.

(** FileUtils::makeDir, 327-357. [may] tells where mkdir is permitted. [fuel] bounds the recursion. *)
Fixpoint makeDir (fuel : nat) (may : list str -> bool) (cwd : list str) (t : node) (dir : str) : outcome (node * bool) :=
  match fuel with
  | O => Diverge
  | S f =>
      match dir with
      | [] => Ret (t, false)
      | _ =>
          match fileType cwd t dir with
          | TKind KDir | TKind KLink => Ret (t, true)
          | TKind _ | TUnknown => Ret (t, false)
          | TNotExist =>
              let '(parent, _) := dividePath dir in
              let* (t1, ok) := match parent with [] => Ret (t, true) | _ => makeDir f may cwd t parent end in
              if negb ok then Ret (t1, false)
              else
                match (if may (resolve cwd dir) then insertDir t1 (resolve cwd dir) else None) with
                | Some t2 => Ret (t2, true)
                | None => Ret (t1, match fileType cwd t1 dir with TKind KDir => true | _ => false end)
                end
          end
      end
  end.
