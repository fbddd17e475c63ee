(** Model of the LRU cache. /repo/src/common/base/ConcurrentLRUCache.h *)
From Verif Require Import Prelude.

Section Lru.
Context {K V : Type}.
(** operator== of the key type and std::hash of the key type. *)
Context (keqb : K -> K -> bool) (hash : K -> Z).

(** class LRU, ConcurrentLRUCache.h:175-299, members 292-298.
    [map_] is an association list with unique keys (iteration order of the unordered_map is never
    used); list nodes carry an identity, which is what the stored iterators point to. *)
Record lru := mkLru {
  lmap : list (K * (V * nat));      (* map_: key -> (value, iterator into list_) *)
  llist : list (nat * K);           (* list_, most recently used first *)
  lnext : nat;                      (* next fresh list node identity *)
  lcap : nat;                       (* capacity_ *)
  ltotal : Z; lhits : Z; levicts : Z  (* uint64_t counters *)
}.

(** LRU(size_t capacity), 187-189 *)
Definition lruNew (cap : nat) : lru := mkLru [] [] 0 cap 0 0 0.

(** map_.find *)
Fixpoint mfind (k : K) (m : list (K * (V * nat))) : option (V * nat) :=
  match m with
  | [] => None
  | (k', x) :: m' => if keqb k k' then Some x else mfind k m'
  end.
(** map_.erase *)
Fixpoint merase (k : K) (m : list (K * (V * nat))) : list (K * (V * nat)) :=
  match m with
  | [] => []
  | (k', x) :: m' => if keqb k k' then m' else (k', x) :: merase k m'
  end.
(** assignment through an iterator of map_: std::get<0>(it->second) = v *)
Fixpoint mset (k : K) (v : V) (m : list (K * (V * nat))) : list (K * (V * nat)) :=
  match m with
  | [] => []
  | (k', (v', i)) :: m' => if keqb k k' then (k', (v, i)) :: m' else (k', (v', i)) :: mset k v m'
  end.

(** Dereferencing a list iterator; None = dangling. *)
Fixpoint node (i : nat) (l : list (nat * K)) : option K :=
  match l with
  | [] => None
  | (j, k) :: l' => if Nat.eqb i j then Some k else node i l'
  end.
(** list_.erase(iterator) *)
Fixpoint unlink (i : nat) (l : list (nat * K)) : list (nat * K) :=
  match l with
  | [] => []
  | (j, k) :: l' => if Nat.eqb i j then l' else (j, k) :: unlink i l'
  end.
(** list_.splice(list_.begin(), list_, j): move a node to the front. A dangling iterator is undefined. *)
Definition splice (i : nat) (l : list (nat * K)) : outcome (list (nat * K)) :=
  match node i l with
  | Some k => Ret ((i, k) :: unlink i l)
  | None => UB
  end.

(** evict(), 284-290: [--list_.end()] of an empty list is undefined. *)
Definition evictLast (s : lru) : outcome lru :=
  match rev (llist s) with
  | [] => UB
  | (i, k) :: _ =>
      Ret (mkLru (merase k (lmap s)) (removelast (llist s)) (lnext s) (lcap s)
                 (ltotal s) (lhits s) (u64 (levicts s + 1)))
  end.

(** contains, 204-206 *)
Definition lruContains (s : lru) (k : K) : bool :=
  match mfind k (lmap s) with Some _ => true | None => false end.

(** insert, 208-227 *)
Definition lruInsert (s : lru) (k : K) (v : V) : outcome lru :=
  match mfind k (lmap s) with
  | None =>
      let* s := (if (lcap s <=? length (lmap s))%nat then evictLast s else Ret s) in
      Ret (mkLru ((k, (v, lnext s)) :: lmap s) ((lnext s, k) :: llist s) (S (lnext s)) (lcap s)
                 (ltotal s) (lhits s) (levicts s))
  | Some (_, j) =>
      let* l := splice j (llist s) in
      Ret (mkLru (mset k v (lmap s)) l (lnext s) (lcap s) (ltotal s) (lhits s) (levicts s))
  end.

(** get, 229-249; the CHECK of line 242 is fatal when it fails. *)
Definition lruGet (s : lru) (k : K) : outcome (lru * option V) :=
  let s := mkLru (lmap s) (llist s) (lnext s) (lcap s) (u64 (ltotal s + 1)) (lhits s) (levicts s) in
  match mfind k (lmap s) with
  | None => Ret (s, None)
  | Some (v, j) =>
      match node j (llist s) with
      | None => UB
      | Some k' =>
          if keqb k k' then
            let* l := (match llist s with
                       | (j0, _) :: _ => if Nat.eqb j j0 then Ret (llist s) else splice j (llist s)
                       | [] => UB
                       end) in
            Ret (mkLru (lmap s) l (lnext s) (lcap s) (ltotal s) (u64 (lhits s + 1)) (levicts s), Some v)
          else Fatal
      end
  end.

(** evict(key), 254-261 *)
Definition lruEvict (s : lru) (k : K) : outcome lru :=
  match mfind k (lmap s) with
  | None => Ret s
  | Some (_, j) =>
      match node j (llist s) with
      | None => UB
      | Some _ =>
          Ret (mkLru (merase k (lmap s)) (unlink j (llist s)) (lnext s) (lcap s)
                     (ltotal s) (lhits s) (u64 (levicts s + 1)))
      end
  end.

(** clear, 263-269 *)
Definition lruClear (s : lru) : lru := mkLru [] [] (lnext s) (lcap s) 0 0 0.

(** The operations of class Bucket, 96-145; each runs under the bucket's mutex, hence atomically. *)
Inductive op :=
| OContains (k : K) | OInsert (k : K) (v : V) | OGet (k : K) | OPut (k : K) (v : V)
| OEvict (k : K) | OClear.

Inductive res := RUnit | RBool (b : bool) | RVal (v : V) | RError | RInserted.

Definition bucketStep (s : lru) (o : op) : outcome (lru * res) :=
  match o with
  | OContains k => Ret (s, RBool (lruContains s k))                              (* 104-107 *)
  | OInsert k v => let* s := lruInsert s k v in Ret (s, RUnit)                   (* 109-112 *)
  | OGet k =>                                                                    (* 114-121 *)
      let* r := lruGet s k in
      let '(s, ov) := r in
      Ret (s, match ov with None => RError | Some v => RVal v end)
  | OPut k v =>                                                                  (* 123-131 *)
      let* r := lruGet s k in
      let '(s, ov) := r in
      match ov with
      | None => let* s := lruInsert s k v in Ret (s, RInserted)
      | Some w => Ret (s, RVal w)
      end
  | OEvict k => let* s := lruEvict s k in Ret (s, RUnit)                         (* 133-136 *)
  | OClear => Ret (lruClear s, RUnit)                                            (* 138-141 *)
  end.

Fixpoint bucketRun (s : lru) (os : list op) : outcome (lru * list res) :=
  match os with
  | [] => Ret (s, [])
  | o :: os' =>
      let* r := bucketStep s o in
      let '(s', x) := r in
      let* r2 := bucketRun s' os' in
      let '(s'', xs) := r2 in
      Ret (s'', x :: xs)
  end.

(** ConcurrentLRUCache, 22-155: a vector of buckets.
    Constructor, 27-39; [bucketsExp] below 31 so that [1 << bucketsExp] is defined. *)
Definition cacheNew (capacity : nat) (bucketsExp : nat) : outcome (list lru) :=
  let n := (2 ^ bucketsExp)%nat in
  if (n <? capacity)%nat && (0 <? n)%nat then
    let capPerBucket := (capacity / 2 ^ bucketsExp)%nat in
    let left := (capacity - (n - 1) * capPerBucket)%nat in
    if (0 <? left)%nat
    then Ret (repeat (lruNew capPerBucket) (n - 1) ++ [lruNew left])
    else Fatal
  else Fatal.

(** bucketIndex, 152-155 *)
Definition bucketIndex (bucketsExp : nat) (k : K) (hint : Z) : nat :=
  if 0 <=? hint then Z.to_nat (Z.land hint (2 ^ Z.of_nat bucketsExp - 1))
  else Z.to_nat (Z.land (hash k) (2 ^ Z.of_nat bucketsExp - 1)).

Fixpoint setNth {A} (i : nat) (x : A) (l : list A) : list A :=
  match l, i with
  | [], _ => []
  | _ :: l', O => x :: l'
  | y :: l', S i' => y :: setNth i' x l'
  end.

(** One atomic bucket step of the cache: bucket [i] performs [o]. Indexing outside the vector is undefined. *)
Definition cacheAtomic (c : list lru) (i : nat) (o : op) : outcome (list lru * res) :=
  match nth_error c i with
  | None => UB
  | Some b =>
      let* r := bucketStep b o in
      let '(b', x) := r in
      Ret (setNth i b' c, x)
  end.

(** Public operations 41-69: the keyed ones are a single atomic step on the bucket of the key.
    [clear()], 71-75, is one atomic step per bucket and is represented by the sequence of these steps. *)
Definition keyOf (o : op) : option K :=
  match o with
  | OContains k | OInsert k _ | OGet k | OPut k _ | OEvict k => Some k
  | OClear => None
  end.

Fixpoint cacheRun (c : list lru) (os : list (nat * op)) : outcome (list lru * list res) :=
  match os with
  | [] => Ret (c, [])
  | (i, o) :: os' =>
      let* r := cacheAtomic c i o in
      let '(c', x) := r in
      let* r2 := cacheRun c' os' in
      let '(c'', xs) := r2 in
      Ret (c'', x :: xs)
  end.

(** total(), hits(), evicts(), 77-99: sums over the buckets (uint64_t). *)
Definition cacheTotal (c : list lru) : Z := u64 (fold_right (fun b a => ltotal b + a) 0 c).
Definition cacheHits (c : list lru) : Z := u64 (fold_right (fun b a => lhits b + a) 0 c).
End Lru.

Arguments lru : clear implicits.
Arguments op : clear implicits.
Arguments res : clear implicits.
