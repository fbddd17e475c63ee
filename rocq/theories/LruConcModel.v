(** Model of concurrent calls of the LRU cache: the mutex of a bucket is taken, the members of its LRU are called one after the
    other, and it is released. /repo/src/common/base/ConcurrentLRUCache.h *)
From Verif Require Import Prelude Trans LruModel.
Local Open Scope list_scope.

Section Conc.
Context {K V : Type} (keqb : K -> K -> bool).

(** The public functions, 41-99.  Of the keyed ones the bucket is given (bucketIndex, C14). *)
Inductive counter := Total | Hits | Evicts.
Inductive call := Keyed (i : nat) (o : op K V) | Clear | Count (w : counter).
Inductive answer := Res (r : res V) | Num (z : Z).

(** The bucket functions a public function calls, in order: 41-69 one, 71-75 clear() of every bucket; 77-99 none: the counters are
    read without the mutex. *)
Definition opsOf (n : nat) (c : call) : list (nat * op K V) :=
  match c with
  | Keyed i o => [(i, o)]
  | Clear => map (fun i => (i, OClear)) (seq 0 n)
  | Count _ => []
  end.

(** Where a thread is.  [ops] are the bucket functions not yet finished; the first one is meant. *)
Inductive pc :=
| Idle
| Want (c : call) (ops : list (nat * op K V))            (* before the lock_guard, 104-139 *)
| Hold (c : call) (ops : list (nat * op K V))            (* mutex taken, nothing done *)
| Mid (c : call) (ops : list (nat * op K V))             (* putIfAbsent, 123-131: get has returned none, insert not yet called *)
| Did (c : call) (ops : list (nat * op K V)) (r : res V) (* result known, the guard not yet destroyed *)
| Sum (w : counter) (i : nat) (acc : Z)                  (* the loops 79-81, 87-89, 95-97, about to read bucket i *)
| Back (c : call) (a : answer).                          (* about to return *)

(** What is seen from outside (calls and returns), and when a bucket function took effect. *)
Inductive event := ECall (t : nat) (c : call) | EDone (t : nat) (i : nat) (o : op K V) (r : res V) | ERet (t : nat) (c : call) (a : answer).

Record conc := mkConc {
  bks : list (lru K V);
  lk : nat -> option nat;          (* lock_ of each bucket, with its holder *)
  pcs : nat -> pc;
  hist : list event                (* newest first *)
}.
Definition put {A} (f : nat -> A) (i : nat) (x : A) : nat -> A := fun j => if Nat.eqb j i then x else f j.
Definition setPc (s : conc) (t : nat) (p : pc) : conc := mkConc (bks s) (lk s) (put (pcs s) t p) (hist s).
Definition setLk (s : conc) (i : nat) (h : option nat) : conc := mkConc (bks s) (put (lk s) i h) (pcs s) (hist s).
Definition setBk (s : conc) (i : nat) (b : lru K V) : conc := mkConc (setNth i b (bks s)) (lk s) (pcs s) (hist s).
Definition note (s : conc) (e : event) : conc := mkConc (bks s) (lk s) (pcs s) (e :: hist s).

Definition isPut (o : op K V) : bool := match o with OPut _ _ => true | _ => false end.
Definition field (w : counter) (b : lru K V) : Z := match w with Total => ltotal b | Hits => lhits b | Evicts => levicts b end.
(** A call a client may make. *)
Definition allowed (n : nat) (c : call) : Prop := match c with Keyed i o => (i < n)%nat /\ keyOf o <> None | _ => True end.

Inductive lstep : conc -> conc -> Prop :=
| l_call s t c : pcs s t = Idle -> allowed (length (bks s)) c -> (forall w, c <> Count w) ->
    lstep s (note (setPc s t (Want c (opsOf (length (bks s)) c))) (ECall t c))
| l_count s t w : pcs s t = Idle -> lstep s (note (setPc s t (Sum w 0 0)) (ECall t (Count w)))
| l_lock s t c i o l : pcs s t = Want c ((i, o) :: l) -> lk s i = None -> lstep s (setLk (setPc s t (Hold c ((i, o) :: l))) i (Some t))
| l_do s t c i o l b b' r : pcs s t = Hold c ((i, o) :: l) -> isPut o = false -> nth_error (bks s) i = Some b -> bucketStep keqb b o = Ret (b', r) ->
    lstep s (note (setBk (setPc s t (Did c ((i, o) :: l) r)) i b') (EDone t i o r))
| l_get_some s t c i k v l b b' w : pcs s t = Hold c ((i, OPut k v) :: l) -> nth_error (bks s) i = Some b -> lruGet keqb b k = Ret (b', Some w) ->
    lstep s (note (setBk (setPc s t (Did c ((i, OPut k v) :: l) (RVal w))) i b') (EDone t i (OPut k v) (RVal w)))
| l_get_none s t c i k v l b b' : pcs s t = Hold c ((i, OPut k v) :: l) -> nth_error (bks s) i = Some b -> lruGet keqb b k = Ret (b', None) ->
    lstep s (setBk (setPc s t (Mid c ((i, OPut k v) :: l))) i b')
| l_insert s t c i k v l b b' : pcs s t = Mid c ((i, OPut k v) :: l) -> nth_error (bks s) i = Some b -> lruInsert keqb b k v = Ret b' ->
    lstep s (note (setBk (setPc s t (Did c ((i, OPut k v) :: l) RInserted)) i b') (EDone t i (OPut k v) RInserted))
| l_unlock s t c i o l r : pcs s t = Did c ((i, o) :: l) r ->
    lstep s (setLk (setPc s t (match l with [] => Back c (Res r) | _ => Want c l end)) i None)
| l_read s t w i acc b : pcs s t = Sum w i acc -> nth_error (bks s) i = Some b -> lstep s (setPc s t (Sum w (S i) (u64 (acc + field w b))))
| l_sum s t w i acc : pcs s t = Sum w i acc -> nth_error (bks s) i = None -> lstep s (setPc s t (Back (Count w) (Num acc)))
| l_return s t c a : pcs s t = Back c a -> lstep s (note (setPc s t Idle) (ERet t c a)).

Definition concInit (c : list (lru K V)) : conc := mkConc c (fun _ => None) (fun _ => Idle) [].
(** The bucket whose LRU the thread is using: between taking and releasing the mutex, or reading a counter. *)
Definition inUse (p : pc) : option nat :=
  match p with Hold _ ((i, _) :: _) | Mid _ ((i, _) :: _) | Did _ ((i, _) :: _) _ => Some i | Sum _ i _ => Some i | _ => None end.
End Conc.
Arguments call : clear implicits.
Arguments event : clear implicits.
Arguments pc : clear implicits.
Arguments conc : clear implicits.
