(** Model of Latch and Barrier as transition systems.
    /repo/src/common/concurrent/Latch.cpp, /repo/src/common/concurrent/Barrier.cpp

    A state holds the shared members and the state of every call ever made (any number of calls, by any
    threads; program order inside a thread only removes behaviours). Each critical section of lock_ is
    one step. A thread blocked on the condition variable is Asleep until a notify_all or a spurious
    wake-up makes it Awake; then it takes the lock and re-evaluates its predicate. The lock is granted
    in any order. *)
From Verif Require Import Prelude Trans.

(** * Latch *)
Inductive lkind := KDown | KDownWait | KWait.
Inductive lcall :=
| LStart (k : lkind)     (** not begun *)
| LAsleep (k : lkind)
| LAwake (k : lkind)
| LReturned (k : lkind)
| LThrew (k : lkind).

(** counter_, and as history the number of downs that did not throw *)
Record latch := mkLatch { lcounter : Z; ldowns : Z; lcalls : list lcall }.

Definition lwake (c : lcall) : lcall := match c with LAsleep k => LAwake k | _ => c end.

(** The effect of the critical section of a call that begins now. *)
Definition lbegin (s : latch) (k : lkind) : latch * lcall :=
  match k with
  | KWait =>                                                 (* Latch.cpp:42-45 *)
      if Z.eqb (lcounter s) 0 then (s, LReturned k) else (s, LAsleep k)
  | _ =>                                                     (* 20-28, 30-40 *)
      if Z.eqb (lcounter s) 0 then (s, LThrew k)
      else
        let c := lcounter s - 1 in
        if Z.eqb c 0
        then (mkLatch c (ldowns s + 1) (map lwake (lcalls s)), LReturned k)
        else (mkLatch c (ldowns s + 1) (lcalls s), match k with KDownWait => LAsleep k | _ => LReturned k end)
  end.

Inductive lstep : latch -> latch -> Prop :=
| lstep_begin s i k : nth_error (lcalls s) i = Some (LStart k) ->
    lstep s (let '(s', c) := lbegin s k in mkLatch (lcounter s') (ldowns s') (supd i c (lcalls s')))
| lstep_spurious s i k : nth_error (lcalls s) i = Some (LAsleep k) ->
    lstep s (mkLatch (lcounter s) (ldowns s) (supd i (LAwake k) (lcalls s)))
| lstep_recheck s i k : nth_error (lcalls s) i = Some (LAwake k) ->
    lstep s (mkLatch (lcounter s) (ldowns s)
               (supd i (if Z.eqb (lcounter s) 0 then LReturned k else LAsleep k) (lcalls s))).

(** Constructor, Latch.cpp:13-18: throws on 0. *)
Definition latchNew (n : Z) (ks : list lkind) : option latch :=
  if Z.eqb n 0 then None else Some (mkLatch n 0 (map LStart ks)).

(** isReady, Latch.cpp:47-49 *)
Definition latchReady (s : latch) : bool := Z.eqb (lcounter s) 0.

(** * Barrier *)
(** A call of wait() remembers the generation_ value it captured; [bg] is the unbounded generation
    number (history), the member generation_ is its value modulo 2^64. *)
Inductive bcall :=
| BStart
| BAsleep (g : Z)
| BAwake (g : Z)
| BReturned (g : Z).
Inductive bevent := EvArrive (g : Z) | EvComplete (g : Z) | EvReturn (g : Z).

Record barrier := mkBarrier {
  bcounter : Z; bages : Z; bg : Z; bcalls : list bcall; blog : list bevent }.

Definition bwake (c : bcall) : bcall := match c with BAsleep g => BAwake g | _ => c end.

(** wait(), Barrier.cpp:23-36. [throws]: the completion callback throws; the exception leaves wait() with
    the lock released and notify_all skipped. *)
Definition barrive (s : barrier) (i : nat) (throws : bool) : barrier :=
  let ages := bages s - 1 in
  if Z.eqb ages 0
  then
    mkBarrier (bcounter s) (bcounter s) (bg s + 1)
      (supd i (BReturned (bg s)) (if throws then bcalls s else map bwake (bcalls s)))
      (blog s ++ [EvArrive (bg s); EvComplete (bg s); EvReturn (bg s)])
  else
    mkBarrier (bcounter s) ages (bg s) (supd i (BAsleep (bg s)) (bcalls s)) (blog s ++ [EvArrive (bg s)]).

(** current != generation_ on the 64-bit member *)
Definition gen_differs (g : Z) (s : barrier) : bool := negb (Z.eqb (u64 g) (u64 (bg s))).

Inductive bstep (throwing : bool) : barrier -> barrier -> Prop :=
| bstep_arrive s i : nth_error (bcalls s) i = Some BStart -> bstep throwing s (barrive s i throwing)
| bstep_spurious s i g : nth_error (bcalls s) i = Some (BAsleep g) ->
    bstep throwing s (mkBarrier (bcounter s) (bages s) (bg s) (supd i (BAwake g) (bcalls s)) (blog s))
| bstep_recheck s i g : nth_error (bcalls s) i = Some (BAwake g) ->
    bstep throwing s
      (if gen_differs g s
       then mkBarrier (bcounter s) (bages s) (bg s) (supd i (BReturned g) (bcalls s)) (blog s ++ [EvReturn g])
       else mkBarrier (bcounter s) (bages s) (bg s) (supd i (BAsleep g) (bcalls s)) (blog s)).

(** Constructor, Barrier.cpp:14-21 *)
Definition barrierNew (n : Z) (calls : nat) : option barrier :=
  if Z.eqb n 0 then None else Some (mkBarrier n n 0 (repeat BStart calls) []).
