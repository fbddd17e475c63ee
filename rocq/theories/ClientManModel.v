(** src/common/thrift/ThriftClientManager.{h,inl}: the map of clients of one thread (clientMap_ is thread-local).
    Not modelled: logging and connectionCount, the destruction of clients in their event base. *)
From Coq Require Import String List.
From Verif Require Import Prelude ValueBase NetModel AssocModel.
Import ListNotations.
Local Open Scope Z_scope.
Local Open Scope list_scope.

(** A client with its channel and socket: a number that tells it apart, the address and port given to AsyncSocket::newSocket (which takes a uint16_t),
    its event base, the timeout of the channel (None: not set) and whether it speaks the unframed binary protocol *)
Record conn := mkConn { cnId : Z; cnHost : str; cnPort : Z; cnEvb : Z; cnTimeout : option Z; cnBinary : bool }.
(** the key of ClientMap, ThriftClientManager.h 37-40 *)
Definition clientKey := (hostAddr * Z)%type.
Definition clientKeyEqb (a b : clientKey) : bool :=
  strEqb (haHost (fst a)) (haHost (fst b)) && (haPort (fst a) =? haPort (fst b)) && (snd a =? snd b).
(** clientMap_ and the number of the next connection *)
Record clientMan := mkMan { cmMap : list (clientKey * conn); cmNext : Z }.
Definition newMan : clientMan := mkMan [] 0.

(** A call: its arguments (evb: None for nullptr), and what the world is at that time: the resolution of names (None: it throws), and which
    clients have a good channel over a socket that is not hung up *)
Record clientCall := mkCall {
  ccHost : hostAddr; ccEvb : option Z; ccCompat : bool; ccTimeout : Z;
  ccResolve : str -> option str; ccGood : conn -> bool
}.
Section Client.
(** folly::IPAddress::validate, and the event base of the thread *)
Context (isIp : str -> bool) (ownEvb : Z).
Definition evbOf (q : clientCall) : Z := match ccEvb q with Some e => e | None => ownEvb end.
(** 50-67 *)
Definition resolved (q : clientCall) : hostAddr :=
  let h := ccHost q in
  if isIp (haHost h) then h
  else match ccResolve q (haHost h) with Some ip => mkHost ip (haPort h) | None => h end.
(** 46-85 *)
Definition connect (q : clientCall) (m : list (clientKey * conn)) (next : Z) : conn * clientMan :=
  let a := resolved q in
  let c := mkConn next (haHost a) (u16 (haPort a)) (evbOf q) (if 0 <? ccTimeout q then Some (ccTimeout q) else None) (ccCompat q) in
  (c, mkMan (aadd clientKeyEqb (a, evbOf q) c m) (next + 1)).
(** client, 17-86 *)
Definition client (q : clientCall) (s : clientMan) : conn * clientMan :=
  let k := (ccHost q, evbOf q) in
  match aget clientKeyEqb k (cmMap s) with
  | Some c => if ccGood q c then (c, s) else connect q (adel clientKeyEqb k (cmMap s)) (cmNext s)
  | None => connect q (cmMap s) (cmNext s)
  end.
(** the calls of a thread one after another: the clients they return and the state afterwards *)
Fixpoint clients (qs : list clientCall) (s : clientMan) : list conn * clientMan :=
  match qs with
  | [] => ([], s)
  | q :: r => let (c, s1) := client q s in let (cs, s2) := clients r s1 in (c :: cs, s2)
  end.
End Client.
