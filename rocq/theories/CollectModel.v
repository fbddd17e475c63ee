(** Models of base/CollectNSucceeded.inl and algorithm/ReservoirSampling.h. *)
From Verif Require Import Prelude.

Section Collect.
Context {V : Type}.
Variable eval : nat -> V -> bool.

(** struct Context, CollectNSucceeded.inl:23-34.  promise: None = not fulfilled.  csets counts calls of setValue
    (a second call would throw PromiseAlreadySatisfied).  The size_t counters are bounded by the number of futures. *)
Record ctx := mkCtx { cresults : list (nat * V); ccompleted : nat; csucceeded : nat; ctotal : nat;
                      cpromise : option (list (nat * V)); csets : nat }.
Definition ctxNew (total : nat) : ctx := mkCtx [] 0 0 total None 0.

(** A future completes: its index and either its value or (None) an exception. *)
Definition completion := (nat * option V)%type.

(** The callback, CollectNSucceeded.inl:52-72 *)
Definition onComplete (n : nat) (c : ctx) (e : completion) : ctx :=
  match cpromise c with
  | Some _ => c
  | None =>
      let c1 := match snd e with
                | None => c
                | Some v => mkCtx (cresults c ++ [(fst e, v)]) (ccompleted c)
                                  (if eval (fst e) v then S (csucceeded c) else csucceeded c)
                                  (ctotal c) (cpromise c) (csets c)
                end in
      let c2 := mkCtx (cresults c1) (S (ccompleted c1)) (csucceeded c1) (ctotal c1) (cpromise c1) (csets c1) in
      if Nat.eqb (ccompleted c2) (ctotal c2) || Nat.eqb (csucceeded c2) n
      then mkCtx [] (ccompleted c2) (csucceeded c2) (ctotal c2) (Some (cresults c2)) (S (csets c2))
      else c2
  end.

(** What the caller gets, CollectNSucceeded.inl:13-76: an immediate value, an immediate exception, or a promise. *)
Inductive collected := CNow (r : list (nat * V)) | CNotEnough | CPromise (c : ctx).
Definition collectN (total n : nat) (evs : list completion) : collected :=
  if Nat.eqb n 0 then CNow []
  else if Nat.ltb total n then CNotEnough
  else CPromise (fold_left (onComplete n) evs (ctxNew total)).
End Collect.

(** ReservoirSampling, ReservoirSampling.h:16-48 *)
Section Reservoir.
Context {T : Type}.
Record reservoir := mkRes { rsamples : list T; rcnt : Z; rnum : Z }.
Definition resNew (num : Z) : reservoir := mkRes [] 0 num.
Fixpoint rset (i : nat) (x : T) (l : list T) : list T :=
  match l, i with [], _ => [] | _ :: l', O => x :: l' | y :: l', S i' => y :: rset i' x l' end.
(** sampling, lines 23-38; [draw] is the result of folly::Random::rand64(cnt_), used only when the
    reservoir is full.  UB when samples_[index] is out of bounds. *)
Definition sampling (s : reservoir) (x : T) (draw : Z) : outcome (bool * reservoir) :=
  if rcnt s <? rnum s then Ret (true, mkRes (rsamples s ++ [x]) (u64 (rcnt s + 1)) (rnum s))
  else if draw <? rnum s then
    if draw <? Z.of_nat (length (rsamples s))
    then Ret (true, mkRes (rset (Z.to_nat draw) x (rsamples s)) (u64 (rcnt s + 1)) (rnum s))
    else UB
  else Ret (false, mkRes (rsamples s) (u64 (rcnt s + 1)) (rnum s)).
(** A stream of offered elements with the draw made for each. *)
Fixpoint sampleAll (s : reservoir) (xs : list (T * Z)) : outcome reservoir :=
  match xs with
  | [] => Ret s
  | (x, d) :: r => obind (sampling s x d) (fun p => sampleAll (snd p) r)
  end.
End Reservoir.
Arguments reservoir : clear implicits.
