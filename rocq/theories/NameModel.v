(** The names and the ids of threads: thread/NamedThread.h 21-75 and NamedThread.cpp 11-38, as a transition system.
    Any number of threads run; each has a list of things to do. The kernel has a name of at most 15 bytes for each thread.
    Nominators are known by numbers, so that they can be destroyed in any order. Thread ids are not used again.
    Left out: join and detach, exceptions, the end of the thread. *)
From Verif Require Import Prelude ValueBase CloneModel Trans AssocModel.
Local Open Scope Z_scope.

(** PR_SET_NAME copies a C string of at most 15 bytes *)
Fixpoint cutAt (n : nat) (s : str) : str :=
  match n, s with
  | S n', c :: s' => if c =? 0 then [] else c :: cutAt n' s'
  | _, _ => []
  end.
Definition kernelName (s : str) : str := cutAt 15 s.

(** what threads do: set (46-48), get (50-54), make a Nominator (36-39), destroy one (41-43), gettid (NamedThread.cpp 35-38), start a NamedThread
    (69-73), fork *)
Inductive op :=
| OSet (n : str) | OGet | OOpen (i : nat) (n : str) | OClose (i : nat) | OTid
| OSpawn (n : str) (p : list op) | OFork (p : list op).
Inductive event := ERead (n : str) | ETid (t : nat).
(** a thread: its id and name in the kernel; the prevName_ of its Nominators; the thread-local TLSThreadID, made at the first use; what it has still
    to do; and as history what get and gettid gave *)
Record th := mkTh { tId : nat; tName : str; tObjs : list (nat * str); tCached : option nat; tProg : list op; tLog : list event }.

(** one step of a thread by itself, and the thread it makes, if any. A new thread has the name of the one that made it; hook (60-66) sets the
    name if it is not empty. A forked process has a copy of everything, thread-local storage included, but another id. *)
Definition hook (n : str) (p : list op) : list op := match n with [] => p | _ => OSet n :: p end.
Definition exec (t : th) (o : op) (fresh : nat) : th * option th :=
  let r := tl (tProg t) in
  match o with
  | OSet n => (mkTh (tId t) (kernelName n) (tObjs t) (tCached t) r (tLog t), None)
  | OGet => (mkTh (tId t) (tName t) (tObjs t) (tCached t) r (tLog t ++ [ERead (tName t)]), None)
  | OOpen i n => (mkTh (tId t) (kernelName n) (aset Nat.eqb i (tName t) (tObjs t)) (tCached t) r (tLog t), None)
  | OClose i =>
      (match aget Nat.eqb i (tObjs t) with
       | Some prev => mkTh (tId t) (kernelName prev) (adel Nat.eqb i (tObjs t)) (tCached t) r (tLog t)
       | None => mkTh (tId t) (tName t) (tObjs t) (tCached t) r (tLog t)
       end, None)
  | OTid =>
      let c := match tCached t with Some c => c | None => tId t end in
      (mkTh (tId t) (tName t) (tObjs t) (Some c) r (tLog t ++ [ETid c]), None)
  | OSpawn n p => (mkTh (tId t) (tName t) (tObjs t) (tCached t) r (tLog t), Some (mkTh fresh (tName t) [] None (hook n p) []))
  | OFork p => (mkTh (tId t) (tName t) (tObjs t) (tCached t) r (tLog t), Some (mkTh fresh (tName t) (tObjs t) (tCached t) p []))
  end.
Definition sys := list th.
(** any thread that has something to do may do it *)
Inductive tstep : sys -> sys -> Prop :=
| tstep_one s i t o r t' c : nth_error s i = Some t -> tProg t = o :: r -> exec t o (length s) = (t', c) ->
    tstep s (supd i t' s ++ match c with Some u => [u] | None => [] end).
(** the first thread of a process *)
Definition first (name : str) (p : list op) : sys := [mkTh 0 name [] None p []].
