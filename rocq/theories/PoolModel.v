(** ObjectPool as a transition system: base/ObjectPool.h 23-73.
    Any number of threads use one pool; each has a list of calls to make. The spin lock is granted in any order. emplace_back is not atomic: it
    reads the list and writes it back. clear() deletes the objects one by one, front to back, and holds the lock all the while (29-32).
    Not modelled: empty() (it reads the list without the lock, 49-51), the logging of expressions (36-38), and what a thread
    does with an object outside the pool. *)
From Verif Require Import Prelude Trans.
Local Open Scope Z_scope.

(** the calls: add an object, also for makeAndAdd (34-47); clear *)
Inductive act := AAdd (o : Z) | AClear.
(** inside a call: the lock is taken; the list has been read; objects are being deleted *)
Inductive phase := PAdd (o : Z) (seen : option (list Z)) | PClear.
Record thread := mkThread { tAt : option phase; tTodo : list act }.
(** lock_ (the thread that has it), objects_, and as history the objects that were deleted, in that order *)
Record pool := mkPool { pLock : option nat; pObjs : list Z; pDeleted : list Z; pThreads : list thread }.

Section Steps.
(** the objects whose destructors use the pool *)
Context (usesPool : Z -> bool).
Definition enter (a : act) : phase := match a with AAdd o => PAdd o None | AClear => PClear end.
(** SpinLockGuard waits for a lock that is taken, by whomever: the thread that has it as well *)
Inductive pstep : pool -> pool -> Prop :=
| step_lock s i a r : nth_error (pThreads s) i = Some (mkThread None (a :: r)) -> pLock s = None ->
    pstep s (mkPool (Some i) (pObjs s) (pDeleted s) (supd i (mkThread (Some (enter a)) r) (pThreads s)))
| step_read s i o r : nth_error (pThreads s) i = Some (mkThread (Some (PAdd o None)) r) ->
    pstep s (mkPool (pLock s) (pObjs s) (pDeleted s) (supd i (mkThread (Some (PAdd o (Some (pObjs s)))) r) (pThreads s)))
| step_write s i o l r : nth_error (pThreads s) i = Some (mkThread (Some (PAdd o (Some l))) r) ->
    pstep s (mkPool None (l ++ [o]) (pDeleted s) (supd i (mkThread None r) (pThreads s)))
| step_delete s i o l r : nth_error (pThreads s) i = Some (mkThread (Some PClear) r) -> pObjs s = o :: l -> usesPool o = false ->
    pstep s (mkPool (pLock s) l (pDeleted s ++ [o]) (pThreads s))
| step_cleared s i r : nth_error (pThreads s) i = Some (mkThread (Some PClear) r) -> pObjs s = [] ->
    pstep s (mkPool None [] (pDeleted s) (supd i (mkThread None r) (pThreads s))).
Definition start (progs : list (list act)) : pool := mkPool None [] [] (map (mkThread None) progs).
(** ~ObjectPool, 27: what was deleted when the pool is gone *)
Definition destroyed (s : pool) : list Z := pDeleted s ++ pObjs s.
End Steps.
