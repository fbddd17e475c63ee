(** Model of InternalStorageClient: what the storage servers ask each other for.
    /repo/src/common/clients/storage/InternalStorageClient.cpp, and getResponse of StorageClientBase.inl:222-292.
    Calls are run one after the other: between two attempts the other users of the meta client change the leader cache, the
    allocation of parts and its readiness in any way ([world]). Waiting between attempts, threads and event bases are left out. *)
From Coq Require Import String.
From Coq Require Import List.
From Verif Require Import Prelude AssocModel ValueBase HashModel LeaderModel.
Import ListNotations.
Open Scope Z_scope.

(** ErrorCode, common.thrift:232-393, the values used here *)
Definition cSucceeded : Z := 0.
Definition cRpcFailure : Z := -3.
Definition cLeaderChanged : Z := -4.
Definition cSpaceNotFound : Z := -5.
Definition cPartNotFound : Z := -16.
Definition cUnknown : Z := -8000.

(** PartitionResult, storage.thrift:25-30 *)
Record partResult := mkPR { prCode : Z; prPart : Z; prLeader : option host }.
(** What becomes of one request: the call of the remote function, or of the client manager before it, throws (the promise is then
    destroyed unfulfilled, and its future holds an exception); the RPC fails; or there is a response, with the parts that failed and,
    for getValue, a value *)
Inductive answer := NotSent | RpcFailed | Answered (failed : list partResult) (v : str).

(** isValidHostPtr, StorageClientBase.h:247-249 *)
Definition validHost (l : option host) : option host :=
  match l with Some h => if (Nat.eqb (List.length (fst h)) 0) || (snd h =? 0) then None else Some h | None => None end.
(** The loop over the failed parts, StorageClientBase.inl:271-287 *)
Definition noteFailed (space : Z) (li : leaderInfo) (r : partResult) : leaderInfo :=
  if prCode r =? cLeaderChanged then
    match validHost (prLeader r) with Some h => updateLeader li (space, prPart r) h | None => invalidLeader li (space, prPart r) end
  else if (prCode r =? cPartNotFound) || (prCode r =? cSpaceNotFound) then invalidLeader li (space, prPart r)
  else li.
(** What getResponse does to the leader cache, 256-290. The status of a failed RPC is set before the leader is forgotten; here after. *)
Definition noteAnswer (space part : Z) (li : leaderInfo) (a : answer) : leaderInfo :=
  match a with
  | NotSent => li
  | RpcFailed => invalidLeader li (space, part)
  | Answered failed _ => fold_left (noteFailed space) failed li
  end.

(** folly::Try<StatusOr<Response>> *)
Inductive tried := TryThrew | TryStatus (statusCode : Z) | TryOk (failed : list partResult).
(** Status::kError and kLeaderChanged, Status.h:157-179 *)
Definition stError : Z := 101.
Definition stLeaderChanged : Z := 409.
Definition triedOf (a : answer) : tried :=
  match a with NotSent => TryThrew | RpcFailed => TryStatus stError | Answered failed _ => TryOk failed end.
(** extractErrorCode, InternalStorageClient.cpp:13-37 *)
Definition extractErrorCode (t : tried) : Z :=
  match t with
  | TryThrew => cRpcFailure
  | TryStatus c => if c =? stLeaderChanged then cLeaderChanged else cUnknown
  | TryOk (r :: _) => prCode r
  | TryOk [] => cSucceeded
  end.

(** The texts of the statuses of getStorageLeaderFromCache and getPartHostsFromCache, MetaClient.cpp:1447-1466, 2320-2348, where there is no leader *)
Definition leaderError (cache : allocCache) (ready : bool) (space part : Z) : str :=
  if negb ready then B "Not ready!"
  else match aget Z.eqb space cache with
       | None => B "Space not found, spaceid: " ++ decZ space
       | Some _ => B "Part not found in cache, spaceid: " ++ decZ space ++ B ", partid: " ++ decZ part
       end.
(** std::string::find; [None] is npos *)
Fixpoint startsWith (p s : str) : bool :=
  match p, s with [], _ => true | a :: p', b :: s' => (a =? b) && startsWith p' s' | _, [] => false end.
Fixpoint findText (p s : str) (at_ : nat) : option nat :=
  if startsWith p s then Some at_ else match s with [] => None | _ :: s' => findText p s' (S at_) end.
(** a position used as a condition: npos is not 0 *)
Definition asCondition (p : option nat) : bool := match p with Some O => false | _ => true end.
(** forwardTransactionImpl, 65-68; getValueImpl, 116-122 *)
Definition forwardNoLeader (_ : str) : Z := cSpaceNotFound.
Definition getNoLeader (e : str) : Z := if asCondition (findText (B "partid") e 0) then cPartNotFound else cSpaceNotFound.

(** kInternalPortOffset, StorageClientBase.h:22; the port is an int32 *)
Definition portOffset : Z := -2.
Definition internalHost (h : host) : outcome host :=
  if snd h + portOffset <? int32_min then UB else Ret (fst h, snd h + portOffset).

(** The n-th attempt: readiness and allocation as they are then, what others have done to the leader cache before it, and what the network does *)
Record world (R : Type) := mkWorld { wReady : nat -> bool; wCache : nat -> allocCache; wOthers : nat -> leaderInfo -> leaderInfo; wServe : nat -> host -> R -> answer }.
Arguments wReady {R}. Arguments wCache {R}. Arguments wOthers {R}. Arguments wServe {R}.
(** [Going] : [fuel] attempts made, and the next is due *)
Inductive ending := NoLeader (code : Z) | Done (code : Z) (v : str) | Going.
(** forwardTransactionImpl, 57-93, and getValueImpl, 109-150, which call themselves after E_LEADER_CHANGED *)
Fixpoint tries {R} (w : world R) (noLeader : str -> Z) (space part : Z) (r : R) (fuel n : nat) (li : leaderInfo)
  : outcome (list (host * R * answer) * ending * leaderInfo) :=
  match fuel with
  | O => Ret ([], Going, li)
  | S f =>
      let* (l, li1) := getLeader (wCache w n) (wReady w n) (wOthers w n li) (space, part) in
      match l with
      | None => Ret ([], NoLeader (noLeader (leaderError (wCache w n) (wReady w n) space part)), li1)
      | Some h =>
          let* dest := internalHost h in
          let a := wServe w n dest r in
          let li2 := noteAnswer space part li1 a in
          let code := extractErrorCode (triedOf a) in
          if code =? cLeaderChanged then
            let* (q, li3) := tries w noLeader space part r f (S n) li2 in
            Ret ((dest, r, a) :: fst q, snd q, li3)
          else Ret ([(dest, r, a)], Done code (match a with Answered _ v => v | _ => [] end), li2)
      end
  end.

(** InternalTxnRequest, storage.thrift:846-855; data_ref().resize(2), back().emplace_back(data), InternalStorageClient.cpp:71-77 *)
Record txnRequest := mkTxn { txId : Z; txSpace : Z; txPart : Z; txPosition : Z; txData : list (list str) }.
(** forwardTransaction, 44-93 *)
Definition forwardTransaction (w : world txnRequest) (fuel : nat) (li : leaderInfo) (txn space part : Z) (data : str) :=
  tries w forwardNoLeader space part (mkTxn txn space part 1 [[]; [data]]) fuel 0 li.
(** GetValueRequest, storage.thrift:857-861 *)
Record getRequest := mkGet { grSpace : Z; grPart : Z; grKey : str }.
(** folly::Range::subpiece; [None] is std::out_of_range *)
Definition subpiece (s : str) (from len : Z) : option str :=
  if Z.of_nat (List.length s) <? from then None else Some (firstn (Z.to_nat len) (skipn (Z.to_nat from) s)).
(** the part getValue asks for, 95-100: the number of parts passed to partId is the id of the space *)
Definition getValuePart (vIdLen space : Z) (key : str) : option (outcome Z) :=
  match subpiece key 4 vIdLen with Some vid => Some (partId space vid) | None => None end.
(** getValue, 95-106; [None] : an exception reaches the caller *)
Definition getValue (w : world getRequest) (fuel : nat) (li : leaderInfo) (vIdLen space : Z) (key : str)
  : option (outcome (list (host * getRequest * answer) * ending * leaderInfo)) :=
  match getValuePart vIdLen space key with
  | None => None
  | Some p => Some (let* part := p in tries w getNoLeader space part (mkGet space part key) fuel 0 li)
  end.
(** what the promise is given, 134-146: the value, or a code *)
Definition getValueResult (e : ending) : option (Z + str) :=
  match e with NoLeader c => Some (inl c) | Done c v => Some (if c =? cSucceeded then inr v else inl c) | Going => None end.
