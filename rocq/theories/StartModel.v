(** MetaClient::waitForMetadReady and stop (src/common/clients/meta/MetaClient.cpp 62-115): one thread waits for the meta
    server, another one stops the client, and the background thread loads data once it is started.
    Simplified: a call of isMetadReady is one step that answers anything (MetaCacheModel says what it does); memory is
    sequentially consistent although isRunning_ (MetaClient.h 776) is a plain bool and bgThread_ a plain unique_ptr;
    the declaration of gflags (82-86), logging and the length of the sleep are left out. *)
From Verif Require Import Prelude Trans.
From Coq Require Import List.
Import ListNotations.
Open Scope Z_scope.

(** bgThread_: null; made by the constructor (51), with GenericWorker::stopped_ true and no thread_; started; stopped but not yet joined *)
Inductive bgState := BgNone | BgFresh | BgOn | BgOff.
(** where waitForMetadReady is; [n] is tryCount. WBad: undefined behaviour, WFatal: the process is ended *)
Inductive wpc := WBegin | WTry (n : Z) | WRun (n : Z) | WSleep (n : Z) | WCheck | WStart | WTask | WDone (r : bool) | WBad | WFatal.
(** where stop is *)
Inductive spc := SIdle | SStop | SWait | SReset | SFlag | SDone.
(** [cLog]: what the calls of isMetadReady answered, the last one first *)
Record cst := mkC { cRun : bool; cBg : bgState; cReady : bool; cLog : list bool; cW : wpc; cS : spc }.
Definition cInit : cst := mkC false BgFresh false [] WBegin SIdle.
Definition setW (s : cst) (w : wpc) : cst := mkC (cRun s) (cBg s) (cReady s) (cLog s) w (cS s).
Definition setS (s : cst) (p : spc) : cst := mkC (cRun s) (cBg s) (cReady s) (cLog s) (cW s) p.

(** waitForMetadReady, 81-105; [b] is what isMetadReady answers if it is called in this step; --tryCount of the least int is undefined *)
Definition wnext (count : Z) (b : bool) (s : cst) : option cst :=
  match cW s with
  | WBegin => Some (mkC true (cBg s) (cReady s) (cLog s) (WTry count) (cS s))            (* 87-88 *)
  | WTry n =>                                                                             (* 89: the call, then the count *)
      Some (mkC (cRun s) (cBg s) b (b :: cLog s) (if b then WCheck else if (count =? -1) || (0 <? n) then WRun n else WCheck) (cS s))
  | WRun n => Some (setW s (if cRun s then if n =? int32_min then WBad else WSleep (n - 1) else WCheck))  (* 89 isRunning_, 91 *)
  | WSleep n => Some (setW s (WTry n))                                                    (* 92 *)
  | WCheck => Some (setW s (if cRun s then WStart else WDone false))                      (* 95-98 *)
  | WStart =>                                                                             (* 100; GenericWorker::start, 34-67 *)
      Some (match cBg s with
            | BgNone => setW s WBad
            | BgFresh => mkC (cRun s) BgOn (cReady s) (cLog s) WTask (cS s)
            | BgOn | BgOff => setW s WFatal
            end)
  | WTask => Some (setW s (match cBg s with BgNone => WBad | _ => WDone (cReady s) end))  (* 103-104 *)
  | WDone _ | WBad | WFatal => None
  end.
(** stop, 108-115; GenericWorker::stop, 69-77, does nothing to a worker that was not started; wait, 79-86, joins the thread if there is one,
    and the thread of a worker that was not stopped does not end *)
Definition snext (s : cst) : option cst :=
  match cS s with
  | SIdle => Some (setS s (match cBg s with BgNone => SFlag | _ => SStop end))            (* 109 *)
  | SStop => Some (mkC (cRun s) (match cBg s with BgOn => BgOff | g => g end) (cReady s) (cLog s) (cW s) SWait)  (* 110 *)
  | SWait => match cBg s with BgOn => None | _ => Some (setS s SReset) end                (* 111 *)
  | SReset => Some (mkC (cRun s) BgNone (cReady s) (cLog s) (cW s) SFlag)                 (* 112 *)
  | SFlag => Some (mkC false (cBg s) (cReady s) (cLog s) (cW s) SDone)                    (* 114 *)
  | SDone => None
  end.
(** heartBeatThreadFunc, 118-141, on the background thread: may make the client ready, never the opposite *)
Definition bnext (s : cst) : option cst :=
  match cBg s with BgOn => Some (mkC (cRun s) (cBg s) true (cLog s) (cW s) (cS s)) | _ => None end.

Inductive step (count : Z) : cst -> cst -> Prop :=
| st_wait b s s' : wnext count b s = Some s' -> step count s s'
| st_stop s s' : snext s = Some s' -> step count s s'
| st_bg s s' : bnext s = Some s' -> step count s s'.
