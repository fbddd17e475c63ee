(** Model of nebula::thread::GenericWorker and GenericThreadPool.
    A worker is a transition system: client threads push under lock_ and afterwards write to the eventfd,
    the worker thread runs onNotify step by step.  Simplifications: sequential consistency of the one
    atomic flag and of the mutex; times are dropped (an active timer may fire whenever the event loop is
    idle); task bodies are labels; start() has already returned. *)
From Verif Require Import Prelude Trans.

(** struct Timer, GenericWorker.h:121-130; only the id and whether intervalMSec_ is 0. *)
Record timer := mkTimer { tid : Z; tshot : bool }.

(** Where the worker thread is, in the event loop or in onNotify, GenericWorker.cpp:102-155 *)
Inductive wpcs :=
| Idle                          (* in event_base_dispatch *)
| Check                         (* 103: about to load stopped_ *)
| SwapTasks                     (* 110-112 *)
| RunTasks (l : list Z)         (* 114-116 *)
| SwapTimers                    (* 121-123 *)
| Activate (l : list timer)     (* 133-144 *)
| SwapPurge                     (* 148-151 *)
| PurgeAll (l : list Z)         (* 152-154 *)
| Exited.                       (* loop() returned *)

(** Members of GenericWorker, GenericWorker.h:139-160, and history variables (w-added: every task pushed, in order of
    acquiring lock_; w-exec: tasks run; w-mark: number of tasks pushed when stopped_ was first set; w-fired). *)
Record worker := mkWorker {
  wstopped : bool;              (* stopped_ *)
  wexit : bool;                 (* event_base_loopexit was requested *)
  wtasks : list Z;              (* pendingTasks_ *)
  wtimers : list timer;         (* pendingTimers_ *)
  wpurging : list Z;            (* purgingingTimers_ *)
  wactive : list timer;         (* activeTimers_, at most one entry per id *)
  wnext : Z;                    (* nextTimerId_ *)
  wev : Z;                      (* eventfd counter *)
  wowed : Z;                    (* clients between their push and their write to the eventfd *)
  wstopping : Z;                (* clients in stop() between load and store *)
  wpc : wpcs;
  wadded : list Z; wexec : list Z; wmark : option nat; wfired : list timer }.

Definition workerInit : worker :=
  mkWorker false false [] [] [] [] 0 0 0 0 Idle [] [] None [].

(** TIMER_ID_MASK and nextTimerId, GenericWorker.h:132-142 *)
Definition timerMask : Z := 281474976710655.
Definition timerIdOf (next : Z) : Z := Z.land next timerMask.

(** activeTimers_.erase(id) *)
Definition eraseTimer (id : Z) (l : list timer) : list timer :=
  filter (fun t => negb (Z.eqb (tid t) id)) l.
(** activeTimers_[id] = std::move(timer) *)
Definition setTimer (t : timer) (l : list timer) : list timer := t :: eraseTimer (tid t) l.

(** One event of a client thread. *)
Inductive cevent := CPush (t : Z) | CNotify | CStopLoad | CStopStore | CTimer (shot : bool) | CPurge (id : Z).

(** addTask (GenericWorker.h:195-232), notify (GenericWorker.cpp:91-99), stop (69-76), addTimerTask
    (GenericWorker.h:274-292), purgeTimerTask (GenericWorker.cpp:167-173) *)
Definition cstep (s : worker) (e : cevent) : option worker :=
  match e with
  | CPush t => Some (mkWorker (wstopped s) (wexit s) (wtasks s ++ [t]) (wtimers s) (wpurging s) (wactive s) (wnext s)
      (wev s) (wowed s + 1) (wstopping s) (wpc s) (wadded s ++ [t]) (wexec s) (wmark s) (wfired s))
  | CNotify => if 0 <? wowed s then Some (mkWorker (wstopped s) (wexit s) (wtasks s) (wtimers s) (wpurging s) (wactive s)
      (wnext s) (wev s + 1) (wowed s - 1) (wstopping s) (wpc s) (wadded s) (wexec s) (wmark s) (wfired s)) else None
  | CStopLoad => if wstopped s then None else Some (mkWorker (wstopped s) (wexit s) (wtasks s) (wtimers s) (wpurging s)
      (wactive s) (wnext s) (wev s) (wowed s) (wstopping s + 1) (wpc s) (wadded s) (wexec s) (wmark s) (wfired s))
  | CStopStore => if 0 <? wstopping s then Some (mkWorker true (wexit s) (wtasks s) (wtimers s) (wpurging s)
      (wactive s) (wnext s) (wev s) (wowed s + 1) (wstopping s - 1) (wpc s) (wadded s) (wexec s)
      (match wmark s with None => Some (length (wadded s)) | m => m end) (wfired s)) else None
  | CTimer shot => Some (mkWorker (wstopped s) (wexit s) (wtasks s)
      (wtimers s ++ [mkTimer (timerIdOf (wnext s)) shot]) (wpurging s) (wactive s) (u64 (wnext s + 1))
      (wev s) (wowed s + 1) (wstopping s) (wpc s) (wadded s) (wexec s) (wmark s) (wfired s))
  | CPurge id => Some (mkWorker (wstopped s) (wexit s) (wtasks s) (wtimers s) (wpurging s ++ [id]) (wactive s) (wnext s)
      (wev s) (wowed s + 1) (wstopping s) (wpc s) (wadded s) (wexec s) (wmark s) (wfired s))
  end.

Definition setPc (s : worker) (p : wpcs) : worker :=
  mkWorker (wstopped s) (wexit s) (wtasks s) (wtimers s) (wpurging s) (wactive s) (wnext s) (wev s) (wowed s)
    (wstopping s) p (wadded s) (wexec s) (wmark s) (wfired s).
Definition setActive (s : worker) (p : wpcs) (a : list timer) : worker :=
  mkWorker (wstopped s) (wexit s) (wtasks s) (wtimers s) (wpurging s) a (wnext s) (wev s) (wowed s)
    (wstopping s) p (wadded s) (wexec s) (wmark s) (wfired s).

(** The next step of the worker thread inside onNotify; None in the event loop. *)
Definition onNotifyStep (s : worker) : option worker :=
  match wpc s with
  | Check => Some (mkWorker (wstopped s) (wexit s || wstopped s) (wtasks s) (wtimers s) (wpurging s) (wactive s)
      (wnext s) (wev s) (wowed s) (wstopping s) SwapTasks (wadded s) (wexec s) (wmark s) (wfired s))
  | SwapTasks => Some (mkWorker (wstopped s) (wexit s) [] (wtimers s) (wpurging s) (wactive s)
      (wnext s) (wev s) (wowed s) (wstopping s) (RunTasks (wtasks s)) (wadded s) (wexec s) (wmark s) (wfired s))
  | RunTasks [] => Some (setPc s SwapTimers)
  | RunTasks (t :: l) => Some (mkWorker (wstopped s) (wexit s) (wtasks s) (wtimers s) (wpurging s) (wactive s)
      (wnext s) (wev s) (wowed s) (wstopping s) (RunTasks l) (wadded s) (wexec s ++ [t]) (wmark s) (wfired s))
  | SwapTimers => Some (mkWorker (wstopped s) (wexit s) (wtasks s) [] (wpurging s) (wactive s)
      (wnext s) (wev s) (wowed s) (wstopping s) (Activate (wtimers s)) (wadded s) (wexec s) (wmark s) (wfired s))
  | Activate [] => Some (setPc s SwapPurge)
  | Activate (t :: l) => Some (setActive s (Activate l) (setTimer t (wactive s)))
  | SwapPurge => Some (mkWorker (wstopped s) (wexit s) (wtasks s) (wtimers s) [] (wactive s)
      (wnext s) (wev s) (wowed s) (wstopping s) (PurgeAll (wpurging s)) (wadded s) (wexec s) (wmark s) (wfired s))
  | PurgeAll [] => Some (setPc s Idle)
  | PurgeAll (i :: l) => Some (setActive s (PurgeAll l) (eraseTimer i (wactive s)))
  | Idle | Exited => None
  end.

Inductive wstep : worker -> worker -> Prop :=
| wstep_client s e s' : cstep s e = Some s' -> wstep s s'
| wstep_notify s s' : onNotifyStep s = Some s' -> wstep s s'
  (* the event callback reads the eventfd, GenericWorker.cpp:48-53; also possible in the last loop iteration
     after event_base_loopexit *)
| wstep_wake s : wpc s = Idle -> 0 < wev s ->
    wstep s (mkWorker (wstopped s) (wexit s) (wtasks s) (wtimers s) (wpurging s) (wactive s) (wnext s) 0 (wowed s)
      (wstopping s) Check (wadded s) (wexec s) (wmark s) (wfired s))
  (* an active timer fires, GenericWorker.cpp:124-132 *)
| wstep_fire s t : wpc s = Idle -> In t (wactive s) ->
    wstep s (mkWorker (wstopped s) (wexit s) (wtasks s) (wtimers s) (wpurging s)
      (if tshot t then eraseTimer (tid t) (wactive s) else wactive s) (wnext s) (wev s) (wowed s)
      (wstopping s) Idle (wadded s) (wexec s) (wmark s) (wfired s ++ [t]))
  (* event_base_dispatch returns, GenericWorker.cpp:87-89 *)
| wstep_exit s : wpc s = Idle -> wexit s = true -> wstep s (setPc s Exited).

(** GenericThreadPool: nextThread_ is taken atomically, afterwards the chosen worker's timer counter is
    advanced under its lock; both parts of concurrent calls interleave.  Kinds: addTask does not take a timer id,
    addDelayTask and addRepeatTask do. *)
Inductive pkind := PTask | PDelay | PRepeat.
Record issue := mkIssue { iworker : Z; ilocal : Z; ireturned : option Z }.
Record pool := mkPool { pnr : Z; pnext : Z; pflight : list (pkind * Z); pcounters : list Z; pissued : list issue }.

(** ((idx << TIMER_ID_BITS) | id), GenericThreadPool.h:199 *)
Definition poolId (idx id : Z) : Z := Z.lor (u64 (Z.shiftl idx 48)) id.
(** GenericThreadPool::purgeTimerTask, GenericThreadPool.cpp:52-56 *)
Definition poolRoute (id : Z) : Z * Z := (Z.shiftr id 48, Z.land id timerMask).

Inductive pstep : pool -> pool -> Prop :=
| pstep_take s k : pstep s (mkPool (pnr s) (u64 (pnext s + 1)) (pflight s ++ [(k, pnext s mod pnr s)])
                              (pcounters s) (pissued s))
| pstep_finish s j k idx c : nth_error (pflight s) j = Some (k, idx) -> nth_error (pcounters s) (Z.to_nat idx) = Some c ->
    pstep s (mkPool (pnr s) (pnext s) (firstn j (pflight s) ++ skipn (S j) (pflight s))
      (match k with PTask => pcounters s | _ => supd (Z.to_nat idx) (u64 (c + 1)) (pcounters s) end)
      (match k with
       | PTask => pissued s
       | PDelay => pissued s ++ [mkIssue idx (timerIdOf c) None]
       | PRepeat => pissued s ++ [mkIssue idx (timerIdOf c) (Some (poolId idx (timerIdOf c)))]
       end)).

(** start(nr), GenericThreadPool.cpp:21-32 *)
Definition poolStart (nr : Z) : pool := mkPool nr 0 [] (repeat 0 (Z.to_nat nr)) [].
