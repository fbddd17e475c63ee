(** Model of MetaClient::getResponse (clients/meta/MetaClient.cpp:560-668), of updateLeader and updateActive
    (MetaClient.h:681-693) and of the codes handleResponse distinguishes (MetaClient.cpp:681-815). *)
From Verif Require Import Prelude LeaderModel.
Open Scope Z_scope.

Definition SUCCEEDED : Z := 0.
Definition E_LEADER_CHANGED : Z := -4.

(** How one RPC ends: an exception, or a response with its code, its leader field and, abstractly, its content. *)
Inductive outcome (P : Type) := OExc | OResp (code : Z) (leader : host) (payload : P).
Arguments OExc {P}. Arguments OResp {P}.
(** What the promise is fulfilled with. *)
Inductive failure := FRpc | FLeaderChanged | FError (code : Z).
Inductive mresult (R : Type) := MValue (r : R) | MFail (e : failure) | MOk.
Arguments MValue {R}. Arguments MFail {R}. Arguments MOk {R}.
(** handleResponse, 681-815: Status::OK for SUCCEEDED, LeaderChanged for E_LEADER_CHANGED, an error with a fixed
    text per code for all others; the texts are left out and the code is kept instead. *)
Definition handleResponse {R} (code : Z) : mresult R :=
  if code =? SUCCEEDED then MOk else if code =? E_LEADER_CHANGED then MFail FLeaderChanged else MFail (FError code).

(** leader_ and active_, shared by all requests of the client. *)
Record mclient := mkMC { leader : host; active : host }.
Definition noHost : host := ([], 0).

Inductive event (R : Type) := ESend (h : host) | EFulfil (r : mresult R).
Arguments ESend {R}. Arguments EFulfil {R}.

Section G.
Context {P R : Type}.
Context (respGen : P -> R).
Context (addrs : list host).
(** [out k] is the end of the k-th RPC of this request; [rnd k] the random index drawn after it;
    [env k] what other requests and the background thread do to leader_ and active_ before the k-th RPC. *)
Context (out : nat -> outcome P).
Context (rnd : nat -> nat).
Context (env : nat -> mclient -> mclient).

(** addrs_[rand64(addrs_.size())]; an empty addrs_ never gets here (CHECK in the constructor) *)
Definition randomAddr (k : nat) : host := nth (rnd k mod length addrs)%nat addrs noHost.
(** 681-684 *)
Definition updateActive (k : nat) (m : mclient) : mclient := mkMC (leader m) (randomAddr k).
(** 686-693 *)
Definition updateLeaderTo (k : nat) (l : host) (m : mclient) : mclient :=
  mkMC (if hostEqb l noHost then randomAddr k else l) (active m).

(** 560-668. [k] counts the RPCs, [fuel] bounds the recursion; [None] when it runs out. The delay before a retry
    and the threads the continuations run on are left out: the request's own steps are sequential. *)
Fixpoint getResponse (fuel : nat) (toLeader : bool) (retry retryLimit : Z) (k : nat) (m : mclient)
  : option (list (event R) * mclient) :=
  match fuel with
  | O => None
  | S fuel' =>
      let m := env k m in
      let h := if toLeader then leader m else active m in
      let again m' :=
        match getResponse fuel' toLeader (retry + 1) retryLimit (S k) m' with
        | Some (evs, m'') => Some (ESend h :: evs, m'')
        | None => None
        end in
      match out k with
      | OExc =>
          let m' := if toLeader then updateLeaderTo k noHost m else updateActive k m in
          if retry <? retryLimit then again m' else Some ([ESend h; EFulfil (MFail FRpc)], m')
      | OResp code l p =>
          if code =? SUCCEEDED then Some ([ESend h; EFulfil (MValue (respGen p))], m)
          else if code =? E_LEADER_CHANGED then
            let m' := updateLeaderTo k l m in
            if retry <? retryLimit then again m' else Some ([ESend h; EFulfil (handleResponse code)], m')
          else Some ([ESend h; EFulfil (handleResponse code)], m)
      end
  end.
(** A request as the public methods issue it: retry = 0, MetaClient.h:716-722 *)
Definition request (toLeader : bool) (retryLimit : Z) (m : mclient) : option (list (event R) * mclient) :=
  getResponse (S (Z.to_nat retryLimit)) toLeader 0 retryLimit 0 m.
End G.
