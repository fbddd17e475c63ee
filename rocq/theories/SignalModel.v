(** Signal handling, /repo/src/common/base/SignalHandler.cpp and SignalHandler.h. *)
From Verif Require Import Prelude.

(** Signal numbers of Linux on x86_64 *)
Definition SIGHUP := 1.
Definition SIGILL := 4.
Definition SIGABRT := 6.
Definition SIGBUS := 7.
Definition SIGFPE := 8.
Definition SIGKILL := 9.
Definition SIGSEGV := 11.
Definition SIGPIPE := 13.
Definition SIGCHLD := 17.
Definition SIGSTOP := 19.

(** What the system does with a signal: its default, nothing, or handlerHook (SA_SIGINFO, so the signal is blocked while the hook runs) *)
Inductive disp := DefaultAct | IgnoreAct | HookAct.
(** A call of a handler: which handler, whether it was given a FatalSignalInfo, and the number, the sender and the user in it
    (GeneralSignalInfo, SignalHandler.cpp:132-136) *)
Record call := mkCall { cHandler : Z; cFatal : bool; cSig : Z; cPid : Z; cUid : Z }.
(** Whether the process runs, was killed by a signal, or ended in std::terminate (a CHECK, or the exception of an empty std::function) *)
Inductive fate := Running | Killed (sig : Z) | Terminated.
(** The process: the static [init_] of install (44), handlers_ (SignalHandler.h:96; None is an empty std::function), the dispositions,
    and the calls made so far. A handler is its name; handlers return (one that ends the process is not modelled) *)
Record proc := mkProc { pInit : bool; pHandlers : Z -> option Z; pDisp : Z -> disp; pCalls : list call; pFate : fate }.
Definition init : proc := mkProc false (fun _ => None) (fun _ => DefaultAct) [] Running.
Definition set {A} (f : Z -> A) (k : Z) (v : A) : Z -> A := fun x => if x =? k then v else f x.
Definition setDisp (s : proc) (sig : Z) (d : disp) : proc := mkProc (pInit s) (pHandlers s) (set (pDisp s) sig d) (pCalls s) (pFate s).
Definition setFate (s : proc) (f : fate) : proc := mkProc (pInit s) (pHandlers s) (pDisp s) (pCalls s) f.

(** What a signal does by default: SIGCHLD, SIGCONT, SIGURG, SIGWINCH nothing; SIGSTOP, SIGTSTP, SIGTTIN, SIGTTOU stop the process
    until it is continued; the others kill it *)
Definition defaultKills (sig : Z) : bool := negb (existsb (Z.eqb sig) [17; 18; 23; 28; 19; 20; 21; 22]).
Definition defaultAction (s : proc) (sig : Z) : proc := if defaultKills sig then setFate s (Killed sig) else s.

(** sigaction of the C library: EINVAL outside 1..64, for SIGKILL and SIGSTOP, and for the two signals it keeps for itself *)
Definition sigactionOk (sig : Z) : bool :=
  (1 <=? sig) && (sig <=? 64) && negb (existsb (Z.eqb sig) [SIGKILL; SIGSTOP; 32; 33]).

(** One call of handlers_[sig - 1]; an empty one throws std::bad_function_call, which nobody catches *)
Definition callHandler (s : proc) (fatal : bool) (sig pid uid : Z) : proc :=
  match pFate s with
  | Running =>
      match pHandlers s (sig - 1) with
      | Some h => mkProc (pInit s) (pHandlers s) (pDisp s) (pCalls s ++ [mkCall h fatal sig pid uid]) Running
      | None => setFate s Terminated
      end
  | _ => s
  end.
(** doHandle, 96-112, with handleGeneralSignal (115-119) and handleFatalSignal (122-129): the bool says that the signal was raised
    again; it is blocked until the hook returns *)
Definition doHandle (s : proc) (sig pid uid : Z) : proc * bool :=
  if existsb (Z.eqb sig) [SIGSEGV; SIGABRT; SIGILL; SIGFPE; SIGBUS] then
    let s1 := callHandler s true sig pid uid in
    match pFate s1 with
    | Running => (callHandler (setDisp s1 sig DefaultAct) false sig pid uid, true)
    | _ => (s1, false)
    end
  else if sig =? SIGCHLD then
    (callHandler (callHandler s false sig pid uid) false sig pid uid, false)
  else (callHandler s false sig pid uid, false).
(** A signal arrives (one at a time; a second signal that interrupts a handler is not modelled). A signal raised again in the hook is
    delivered when the hook has returned, by then with the default action *)
Definition deliver (s : proc) (sig pid uid : Z) : proc :=
  match pFate s with
  | Running =>
      match pDisp s sig with
      | DefaultAct => defaultAction s sig
      | IgnoreAct => s
      | HookAct =>
          let '(s1, again) := doHandle s sig pid uid in
          match pFate s1 with
          | Running => if again then defaultAction s1 sig else s1
          | _ => s1
          end
      end
  | _ => s
  end.
(** A signal, who sent it, and as which user *)
Definition sigInfo := (Z * Z * Z)%type.
Definition deliverAll (s : proc) (l : list sigInfo) : proc := fold_left (fun s '(sig, pid, uid) => deliver s sig pid uid) l s.

(** init, 16-28: sigaction never fails for these two *)
Definition initSignals (s : proc) : proc := setDisp (setDisp s SIGPIPE IgnoreAct) SIGHUP IgnoreAct.
(** installInternal, 73-87. [during] : the signals that arrive between the call of sigaction (78) and the assignment (85);
    a signal that arrives in the middle of the assignment is not modelled *)
Definition installInternal (s : proc) (sig : Z) (h : option Z) (during : list sigInfo) : proc * bool :=
  if sigactionOk sig then
    let s1 := deliverAll (setDisp s sig HookAct) during in
    match pFate s1 with
    | Running => (mkProc (pInit s1) (set (pHandlers s1) (sig - 1) h) (pDisp s1) (pCalls s1) Running, true)
    | _ => (s1, false)
    end
  else (s, false).
(** install, 38-53; the bool is status.ok() (of no meaning when the process has ended) *)
Definition install (s : proc) (sig : Z) (h : option Z) (during : list sigInfo) : proc * bool :=
  let s1 := if pInit s then s else let s' := initSignals s in mkProc true (pHandlers s') (pDisp s') (pCalls s') (pFate s') in
  if (1 <=? sig) && (sig <=? 64) && negb (sig =? SIGKILL) && negb (sig =? SIGSTOP) then installInternal s1 sig h during
  else (setFate s1 Terminated, false).
(** install of several signals, 57-66 *)
Fixpoint installList (s : proc) (sigs : list (Z * list sigInfo)) (h : option Z) : proc * bool :=
  match sigs with
  | [] => (s, true)
  | (sig, during) :: r =>
      let '(s1, ok) := install s sig h during in
      match pFate s1 with
      | Running => if ok then installList s1 r h else (s1, false)
      | _ => (s1, false)
      end
  end.

(** What happens to the process, one after the other: an install with the signals that arrive inside it, or a signal *)
Inductive happening := Install (sigs : list (Z * list sigInfo)) (h : option Z) | Arrives (sig pid uid : Z).
Definition hstep (s : proc) (e : happening) : proc :=
  match pFate s with
  | Running => match e with Install sigs h => fst (installList s sigs h) | Arrives sig pid uid => deliver s sig pid uid end
  | _ => s
  end.
Definition hrun (es : list happening) : proc := fold_left hstep es init.
