(** WebService::start and the destructor (src/common/webservice/WebService.cpp 59-170): the calling thread starts the thread of the server and waits on
    a condition variable of its own stack until the server has started or failed.
    Simplified: memory is sequentially consistent; the routes are WebModel's; the server of proxygen either starts on two ports or fails. *)
From Verif Require Import Prelude Trans ValueBase.
From Coq Require Import List.
Import ListNotations.
Open Scope Z_scope.

(** what HTTPServer::start does: it listens to these ports and calls the first function (122-139), or calls the second one with an exception (140-152) *)
Inductive served := Serves (http h2 : Z) | Throws (what : str).
(** Status: OK, or an error with a text *)
Definition status : Type := option str.
(** the thread that calls start, from 155 on: about to take the mutex, holding it, asleep on the condition variable, returned *)
Inductive mpc := MLock | MCheck | MSleep | MRet (s : status).
(** the thread of the server: before start, about to take the mutex, holding it, about to notify, in or after the main loop *)
Inductive lpc := LRun | LLock | LSet | LNotify | LEnd.
Inductive thr := Main | Listener.
(** [vLock]: who holds mut; [vAlive]: cv, mut, status and serverStartedDone, variables of the calling function, exist; [vPorts]: FLAGS_ws_http_port
    and FLAGS_ws_h2_port; [vBad]: a variable was used after its end *)
Record wst := mkW { vM : mpc; vL : lpc; vDone : bool; vStatus : status; vLock : option thr; vAlive : bool; vPorts : Z * Z; vBad : bool }.
Definition wInit (ports : Z * Z) : wst := mkW MLock LRun false None None true ports false.
(** 125-130: a flag that is 0 is set to the port *)
Definition setPorts (flags : Z * Z) (a b : Z) : Z * Z := (if fst flags =? 0 then a else fst flags, if snd flags =? 0 then b else snd flags).

(** the thread of the server, 118-153 *)
Definition lnext (o : served) (s : wst) : option wst :=
  match vL s with
  | LRun => Some (match o with
                  | Serves a b => mkW (vM s) LLock (vDone s) (vStatus s) (vLock s) (vAlive s) (setPorts (vPorts s) a b) (vBad s)
                  | Throws e => mkW (vM s) LLock (vDone s) (Some e) (vLock s) (vAlive s) (vPorts s) (vBad s || negb (vAlive s))
                  end)
  | LLock => match vLock s with
             | None => Some (mkW (vM s) LSet (vDone s) (vStatus s) (Some Listener) (vAlive s) (vPorts s) (vBad s || negb (vAlive s)))
             | Some _ => None
             end
  | LSet => Some (mkW (vM s) LNotify true (vStatus s) None (vAlive s) (vPorts s) (vBad s || negb (vAlive s)))      (* 134-137, 147-150 *)
  | LNotify => Some (mkW (match vM s with MSleep => MLock | p => p end) LEnd (vDone s) (vStatus s) (vLock s) (vAlive s) (vPorts s)
                       (vBad s || negb (vAlive s)))                                                                 (* 138, 151 *)
  | LEnd => None
  end.
(** the thread that calls start, 155-169 *)
Definition mnext (s : wst) : option wst :=
  match vM s with
  | MLock => match vLock s with
             | None => Some (mkW MCheck (vL s) (vDone s) (vStatus s) (Some Main) (vAlive s) (vPorts s) (vBad s))
             | Some _ => None
             end
  | MCheck => Some (if vDone s then mkW (MRet (vStatus s)) (vL s) (vDone s) (vStatus s) None false (vPorts s) (vBad s)
                    else mkW MSleep (vL s) (vDone s) (vStatus s) None (vAlive s) (vPorts s) (vBad s))
  | MSleep | MRet _ => None
  end.
(** a wait may end without being notified *)
Definition spurious (s : wst) : option wst :=
  match vM s with MSleep => Some (mkW MLock (vL s) (vDone s) (vStatus s) (vLock s) (vAlive s) (vPorts s) (vBad s)) | _ => None end.
Inductive wstep (o : served) : wst -> wst -> Prop :=
| ws_l s s' : lnext o s = Some s' -> wstep o s s'
| ws_m s s' : mnext s = Some s' -> wstep o s s'.
Inductive wstepS (o : served) : wst -> wst -> Prop :=
| wss s s' : wstep o s s' -> wstepS o s s'
| wss_sp s s' : spurious s = Some s' -> wstepS o s s'.

(** * The object *)
(** started_, whether server_ and wsThread_ are set *)
Record webObj := mkObj { oStarted : bool; oServer : bool; oThread : bool }.
Definition newObj : webObj := mkObj false false false.
(** what a call of start ends in *)
Inductive started := Answers (s : status) | Thrown.
(** the Status of 121-152, which the first call waits for; the text is that of the exception (Status::Error with %s is StatusModel's) *)
Definition statusOf (o : served) : status := match o with Serves _ _ => None | Throws e => Some e end.
(** start, 64-68, 91, 109-110, 118 and 155-169: None says that bind throws, which happens before the thread is made; whether the thread and
    the caller agree on the Status is the subject of [wstep] *)
Definition startObj (w : webObj) (o : option served) : webObj * started :=
  if oStarted w then (w, Answers None)
  else match o with
       | None => (mkObj true true (oThread w), Thrown)
       | Some o => (mkObj true true true, Answers (statusOf o))
       end.
(** router, WebService.h 36-39 *)
Definition routerOf (w : webObj) : outcome unit := if oStarted w then Fatal else Ret tt.
(** ~WebService, 59-62: server_ and wsThread_ are used without a check *)
Definition endObj (w : webObj) : outcome unit := if oServer w then if oThread w then Ret tt else UB else UB.
