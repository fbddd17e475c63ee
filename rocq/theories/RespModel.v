(** Model of StorageClientBase::collectResponse and ResponseContext (StorageClientBase.inl:15-69, 121-220) and
    of StorageRpcResponse (StorageClientBase.h:27-114), as a transition system. *)
From Verif Require Import Prelude Trans AssocModel.
Open Scope Z_scope.

(** StorageRpcResponse, without totalReqsSent_ (a constant) and the mutex (every method runs under it, so each
    call below is one atomic step). Responses are represented by the index of the host that sent them. *)
Record rpcResp := mkResp {
  failedReqs : Z;                       (* size_t *)
  allOk : bool;                         (* result_ == ALL_SUCCEEDED *)
  failedParts : list (Z * Z);           (* PartitionID -> ErrorCode *)
  maxLatency : Z;
  responses : list nat;
  hostLatency : list (nat * Z) }.
Definition respInit : rpcResp := mkResp 0 true [] 0 [] [].

(** The calls a host's callback makes on the response. *)
Inductive update :=
| UFailedParts (parts : list Z) (code : Z)   (* appendFailedParts, 76-83 *)
| UFailedPart (part code : Z)                (* emplaceFailedPart, 71-74 *)
| UMark                                      (* markFailure, 57-61 *)
| ULatency (h : nat) (lat : Z)               (* setLatency, 49-55; the end-to-end time is left out *)
| UAdd (h : nat).                            (* addResponse, 85-88 *)
Definition applyUpd (r : rpcResp) (u : update) : rpcResp :=
  match u with
  | UFailedParts ps c =>
      mkResp (failedReqs r) (allOk r) (fold_left (fun m p => aadd Z.eqb p c m) ps (failedParts r)) (maxLatency r) (responses r) (hostLatency r)
  | UFailedPart p c => mkResp (failedReqs r) (allOk r) (aadd Z.eqb p c (failedParts r)) (maxLatency r) (responses r) (hostLatency r)
  | UMark => mkResp (failedReqs r + 1) false (failedParts r) (maxLatency r) (responses r) (hostLatency r)
  | ULatency h l =>
      mkResp (failedReqs r) (allOk r) (failedParts r) (if maxLatency r <? l then l else maxLatency r) (responses r) (hostLatency r ++ [(h, l)])
  | UAdd h => mkResp (failedReqs r) (allOk r) (failedParts r) (maxLatency r) (responses r ++ [h]) (hostLatency r)
  end.

(** What a host's RPC ends with: an exception, or a response with the failed parts and a latency. *)
Inductive answer := AExc (parts : list Z) | AResp (failed : list (Z * Z)) (lat : Z).
Definition E_RPC_FAILURE : Z := -3.
(** The body of the callback, 160-206, without removeRequest; the calls on the leader cache are C51's. *)
Definition callback (h : nat) (a : answer) : list update :=
  match a with
  | AExc parts => [UFailedParts parts E_RPC_FAILURE; UMark]
  | AResp failed lat =>
      map (fun pc => UFailedPart (fst pc) (snd pc)) failed ++
      (match failed with [] => [] | _ => [UMark] end) ++ [ULatency h lat; UAdd h]
  end.

(** Where the work for one host is. *)
Inductive hostPc :=
| HNew                        (* not inserted yet *)
| HSent                       (* inserted, RPC on its way *)
| HRun (todo : list update)   (* callback running; findRequest found it *)
| HSet                        (* removeRequest returned true; about to fulfil the promise *)
| HEnd.
(** Where the sending thread is. *)
Inductive sendPc :=
| SLoop (next : nat)          (* about to insert and dispatch the request of host [next], or to leave the loop *)
| SSet                        (* finishSending returned true *)
| SReturned.

Record ctx := mkCtx {
  ongoing : list nat;         (* keys of ongoingRequests_ *)
  finishSending : bool;
  fulfilled : bool;
  resp : rpcResp;
  promise : list rpcResp;     (* values the promise was fulfilled with; a second one would throw *)
  sender : sendPc;
  hosts : list hostPc;
  trace : list (nat * update) (* ghost: the calls on the response so far *) }.

Section C.
Context (n : nat) (ans : nat -> answer).
Definition ctxInit : ctx := mkCtx [] false false respInit [] (SLoop 0) (repeat HNew n) [].

Definition rmv (h : nat) (l : list nat) : list nat := filter (fun x => negb (Nat.eqb x h)) l.

Inductive cstep : ctx -> ctx -> Prop :=
(* one iteration of the loop, 133-209: insertRequest and dispatch *)
| st_insert c i : sender c = SLoop i -> (i < n)%nat ->
    cstep c (mkCtx (ongoing c ++ [i]) (finishSending c) (fulfilled c) (resp c) (promise c) (SLoop (S i)) (supd i HSent (hosts c)) (trace c))
(* finishSending, 22-31, in its critical section *)
| st_finish c : sender c = SLoop n ->
    cstep c (if (match ongoing c with [] => true | _ => false end) && negb (fulfilled c)
             then mkCtx (ongoing c) true true (resp c) (promise c) SSet (hosts c) (trace c)
             else mkCtx (ongoing c) true (fulfilled c) (resp c) (promise c) SReturned (hosts c) (trace c))
(* promise.setValue(std::move(resp)), 213; the moved-from response is empty *)
| st_send_set c : sender c = SSet ->
    cstep c (mkCtx (ongoing c) (finishSending c) (fulfilled c) respInit (promise c ++ [resp c]) SReturned (hosts c) (trace c))
(* the RPC of host h ends and its callback starts; findRequest must find the request (a failed find is UB) *)
| st_answer c h : nth_error (hosts c) h = Some HSent -> In h (ongoing c) ->
    cstep c (mkCtx (ongoing c) (finishSending c) (fulfilled c) (resp c) (promise c) (sender c) (supd h (HRun (callback h (ans h))) (hosts c)) (trace c))
| st_update c h u us : nth_error (hosts c) h = Some (HRun (u :: us)) ->
    cstep c (mkCtx (ongoing c) (finishSending c) (fulfilled c) (applyUpd (resp c) u) (promise c) (sender c) (supd h (HRun us) (hosts c)) (trace c ++ [(h, u)]))
(* removeRequest, 48-57, in its critical section *)
| st_remove c h : nth_error (hosts c) h = Some (HRun []) ->
    cstep c (if finishSending c && negb (fulfilled c) && (match rmv h (ongoing c) with [] => true | _ => false end)
             then mkCtx (rmv h (ongoing c)) (finishSending c) true (resp c) (promise c) (sender c) (supd h HSet (hosts c)) (trace c)
             else mkCtx (rmv h (ongoing c)) (finishSending c) (fulfilled c) (resp c) (promise c) (sender c) (supd h HEnd (hosts c)) (trace c))
(* promise.setValue(std::move(resp)), 205 *)
| st_host_set c h : nth_error (hosts c) h = Some HSet ->
    cstep c (mkCtx (ongoing c) (finishSending c) (fulfilled c) respInit (promise c ++ [resp c]) (sender c) (supd h HEnd (hosts c)) (trace c)).
End C.

(** completeness, StorageClientBase.h:64-68, release build: size_t arithmetic narrowed to int32 *)
Definition completeness (total : Z) (r : rpcResp) : Z :=
  if total =? 0 then 0 else wrap32 (u64 (u64 (total - failedReqs r) * 100) / total).
