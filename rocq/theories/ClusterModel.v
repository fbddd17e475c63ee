(** Model of FileBasedClusterIdMan: a cluster id kept in a file. *)
From Coq Require Import List.
From Verif Require Import Prelude.
Import ListNotations.
Open Scope Z_scope.

(** What is at the path: nothing, or a regular file with these bytes. Directories, links and permissions are
    left out; a failing system call is an input (below). *)
Definition file : Type := option (list Z).

(** The bytes of an int64 in memory on a little-endian machine *)
Fixpoint leBytes (n : nat) (z : Z) : list Z := match n with O => [] | S k => z mod 256 :: leBytes k (z / 256) end.
Fixpoint leUnsigned (l : list Z) : Z := match l with [] => 0 | b :: l' => b + 256 * leUnsigned l' end.
Definition idBytes (id : Z) : list Z := leBytes 8 id.
Definition idOfBytes (l : list Z) : Z := wrap64 (leUnsigned l).

(** How the system answers: whether the directory can be made, whether unlink and open succeed, and what write
    returns (-1, or the number of bytes it wrote, which may be fewer than asked) *)
Record sys := mkSys { dirOk : bool; unlinkOk : bool; openOk : bool; wrote : Z }.

(** persistInFile, FileBasedClusterIdMan.cpp:15-39: the states of the file after each step, the last one being
    the state after it returns, and the result. fs::FileUtils::remove answers true for a missing file. *)
Definition persistSteps (e : sys) (id : Z) (f : file) : list file * bool :=
  if negb (dirOk e) then ([f], false)
  else
    let f1 := match f with Some c => if unlinkOk e then None else Some c | None => None end in
    if negb (openOk e) then ([f; f1], false)
    else
      let f2 := Some [] in   (* O_CREAT | O_TRUNC *)
      let f3 := if wrote e <? 0 then f2 else Some (firstn (Z.to_nat (wrote e)) (idBytes id)) in
      ([f; f1; f2; f3], wrote e =? 8).
Definition persistInFile (e : sys) (id : Z) (f : file) : file * bool :=
  let (st, r) := persistSteps e id f in (last st f, r).

(** getClusterIdFromFile, 43-59; open and read succeed on an existing file, 0 stands for no id *)
Definition getClusterIdFromFile (f : file) : Z :=
  match f with
  | None => 0
  | Some c => let r := firstn 8 c in if (List.length r =? 8)%nat then idOfBytes r else 0
  end.

(** A crash during persistInFile leaves the file as it was after one of the steps, or with a part of what was
    being written. *)
Definition crashStates (e : sys) (id : Z) (f : file) : list file :=
  fst (persistSteps e id f) ++
  (if dirOk e && openOk e then map (fun n => Some (firstn n (idBytes id))) (seq 0 9) else []).
