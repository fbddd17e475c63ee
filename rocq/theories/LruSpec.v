(** Abstract recency list: (key, value) pairs, most recently used first. *)
From Verif Require Import Prelude LruModel.

Section Spec.
Context {K V : Type} (keqb : K -> K -> bool).

Definition alist := list (K * V).

Definition lookup (k : K) (l : alist) : option V :=
  match List.find (fun p => keqb k (fst p)) l with Some p => Some (snd p) | None => None end.
Definition remove (k : K) (l : alist) : alist := filter (fun p => negb (keqb k (fst p))) l.

(** A new key in a full list drops the last (least recently used) entry. *)
Definition touch (cap : nat) (k : K) (v : V) (l : alist) : alist :=
  match lookup k l with
  | Some _ => (k, v) :: remove k l
  | None => (k, v) :: (if (cap <=? length l)%nat then removelast l else l)
  end.

Definition spec_step (cap : nat) (l : alist) (o : op K V) : alist * res V :=
  match o with
  | OContains k => (l, RBool (match lookup k l with Some _ => true | None => false end))
  | OInsert k v => (touch cap k v l, RUnit)
  | OGet k => match lookup k l with
              | Some v => (touch cap k v l, RVal v)
              | None => (l, RError)
              end
  | OPut k v => match lookup k l with
                | Some w => (touch cap k w l, RVal w)
                | None => (touch cap k v l, RInserted)
                end
  | OEvict k => (remove k l, RUnit)
  | OClear => ([], RUnit)
  end.

Fixpoint spec_run (cap : nat) (l : alist) (os : list (op K V)) : alist * list (res V) :=
  match os with
  | [] => (l, [])
  | o :: os' => let '(l', x) := spec_step cap l o in
                let '(l'', xs) := spec_run cap l' os' in (l'', x :: xs)
  end.

(** The value last stored for [k] by a history of (operation, observed result), oldest first:
    an insert stores its value, a putIfAbsent stores its value when it reported Inserted,
    evict and clear forget it. *)
Fixpoint last_stored (k : K) (h : list (op K V * res V)) (acc : option V) : option V :=
  match h with
  | [] => acc
  | (OInsert k' v, _) :: h' => last_stored k h' (if keqb k k' then Some v else acc)
  | (OPut k' v, RInserted) :: h' => last_stored k h' (if keqb k k' then Some v else acc)
  | (OEvict k', _) :: h' => last_stored k h' (if keqb k k' then None else acc)
  | (OClear, _) :: h' => last_stored k h' None
  | _ :: h' => last_stored k h' acc
  end.

(** The same for a history of the whole cache, in which every step also names the bucket it ran on and
    [OClear] on a bucket forgets the keys of that bucket. *)
Fixpoint last_stored_cache (bucketOf : K -> nat) (k : K) (h : list ((nat * op K V) * res V))
  (acc : option V) : option V :=
  match h with
  | [] => acc
  | ((_, OInsert k' v), _) :: h' => last_stored_cache bucketOf k h' (if keqb k k' then Some v else acc)
  | ((_, OPut k' v), RInserted) :: h' => last_stored_cache bucketOf k h' (if keqb k k' then Some v else acc)
  | ((_, OEvict k'), _) :: h' => last_stored_cache bucketOf k h' (if keqb k k' then None else acc)
  | ((i, OClear), _) :: h' => last_stored_cache bucketOf k h' (if Nat.eqb i (bucketOf k) then None else acc)
  | _ :: h' => last_stored_cache bucketOf k h' acc
  end.

(** Number of lookups (get and putIfAbsent) and of successful ones since the last clear. *)
Fixpoint count_gets (h : list (op K V * res V)) (acc : Z) : Z :=
  match h with
  | [] => acc
  | (OGet _, _) :: h' | (OPut _ _, _) :: h' => count_gets h' (acc + 1)
  | (OClear, _) :: h' => count_gets h' 0
  | _ :: h' => count_gets h' acc
  end.
Fixpoint count_hits (h : list (op K V * res V)) (acc : Z) : Z :=
  match h with
  | [] => acc
  | (OGet _, RVal _) :: h' | (OPut _ _, RVal _) :: h' => count_hits h' (acc + 1)
  | (OClear, _) :: h' => count_hits h' 0
  | _ :: h' => count_hits h' acc
  end.
End Spec.
