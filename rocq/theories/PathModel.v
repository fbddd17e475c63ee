(** Model of the path functions of src/common/fs/FileUtils.cpp. *)
From Coq Require Import String List.
From Verif Require Import Prelude ValueBase.
Import ListNotations.
Open Scope Z_scope.

Definition slash : Z := 47.

(** strncpy(dst, s.data(), s.size()): stops at a NUL and fills up with NULs *)
Definition ncpy (s : str) : str := cstr s ++ repeat 0 (List.length s - List.length (cstr s)).

(** FileUtils::joinPath, FileUtils.cpp:235-259 *)
Definition joinPath (dir file : str) : str :=
  match rev dir with
  | [] => B "./" ++ ncpy file
  | c :: _ => if c =? slash then ncpy dir ++ ncpy file else ncpy dir ++ [slash] ++ ncpy file
  end.

(** StringPiece::rfind('/') as the parts before and behind the slash found *)
Fixpoint splitLast (s : str) : option (str * str) :=
  match s with
  | [] => None
  | c :: s' =>
      match splitLast s' with
      | Some (a, b) => Some (c :: a, b)
      | None => if c =? slash then Some ([], s') else None
      end
  end.
(** path.back() == '/' ? path without it : path, for a non-empty path *)
Definition stripSlash (s : str) : str :=
  match rev s with c :: r => if c =? slash then rev r else s | [] => s end.
(** FileUtils::dividePath, 262-292: the parent and the child *)
Definition dividePath (path : str) : str * str :=
  if strEqb path [] || strEqb path [slash] then ([], path)
  else
    let look := stripSlash path in
    match splitLast look with
    | None => ([], look)
    | Some (a, b) => (if (List.length a =? 0)%nat then [slash] else a, b)
    end.

(** FileUtils::dirname, 110-124. The regular expression "(.*)/([^/]+)/?" has to match the whole path: an
    optional slash at the end, before it a non-empty part without slashes, a slash, and the first group, which may
    be anything without a line feed or carriage return ('.' in ECMAScript). This determines the groups. The
    argument is a C string: no NUL. *)
Definition noLineEnd (s : str) : bool := forallb (fun c => negb ((c =? 10) || (c =? 13))) s.
Definition dirname (path : str) : str :=
  if strEqb path [slash] then [slash]
  else
    match splitLast (stripSlash path) with
    | Some (a, b) =>
        if negb (List.length b =? 0)%nat && noLineEnd a then (if (List.length a =? 0)%nat then [slash] else a)
        else B "."
    | None => B "."
    end.
(** FileUtils::basename, 127-136. "(/*([^/]+/+)*)([^/]+)/?": an optional slash at the end, before it a non-empty
    part without slashes, and before that nothing or anything ending with a slash. An unmatched group is empty. *)
Definition basename (path : str) : str :=
  if strEqb path [slash] then []
  else match splitLast (stripSlash path) with Some (_, b) => b | None => stripSlash path end.
