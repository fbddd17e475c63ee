(** What the evaluation theorems C32-C39 speak about, without the cache and the evaluation monad. *)
From Verif Require Import ValueBase ValueModel ExprModel EvalModel.
Local Open Scope list_scope.
Local Open Scope Z_scope.

(** Whatever was evaluated before with the same expression object, e evaluates in context c to v and leaves c'. *)
Definition run (E : env) (e : expr) (c : ctx) (v : value) (c' : ctx) : Prop :=
  forall k, exists k', eval E e k c = Ret (v, k', c').
Definition yields (E : env) (c : ctx) (e : expr) (v : value) : Prop := run E e c v c.

(** Truth values: a Boolean or the plain null. *)
Definition truth (v : value) : Prop := v = VBool true \/ v = VBool false \/ v = VNull NNull.
Definition noTruth (v : value) : Prop := match v with VBool _ | VNull _ | VEmpty => False | _ => True end.

(** Three-valued conjunction, disjunction and exclusive or of a list of truth values. *)
Definition isAnd3 (vs : list value) (r : value) : Prop :=
  (In (VBool false) vs -> r = VBool false) /\
  (~ In (VBool false) vs -> In (VNull NNull) vs -> r = VNull NNull) /\
  (~ In (VBool false) vs -> ~ In (VNull NNull) vs -> r = VBool true).
Definition isOr3 (vs : list value) (r : value) : Prop :=
  (In (VBool true) vs -> r = VBool true) /\
  (~ In (VBool true) vs -> In (VNull NNull) vs -> r = VNull NNull) /\
  (~ In (VBool true) vs -> ~ In (VNull NNull) vs -> r = VBool false).
Fixpoint trues (vs : list value) : Z := match vs with [] => 0 | VBool true :: l => 1 + trues l | _ :: l => trues l end.
Definition isXor3 (vs : list value) (r : value) : Prop :=
  (In (VNull NNull) vs -> r = VNull NNull) /\ (~ In (VNull NNull) vs -> r = VBool (Z.odd (trues vs))).

(** list[i]: from the front, from the back, outside. *)
Definition isElement (xs : list value) (i : Z) (v : value) : Prop :=
  (0 <= i < lenOf xs /\ nth_error xs (Z.to_nat i) = Some v) \/
  (- lenOf xs <= i < 0 /\ nth_error (rev xs) (Z.to_nat (- i - 1)) = Some v) \/
  ((lenOf xs <= i \/ i < - lenOf xs) /\ v = VNull NOutOfRange).
(** The elements whose position p satisfies lo <= p < hi. *)
Fixpoint positions (p : Z) (xs : list value) : list (Z * value) :=
  match xs with [] => [] | x :: l => (p, x) :: positions (p + 1) l end.
Definition between (lo hi : Z) (xs : list value) : list value :=
  map snd (List.filter (fun q => (lo <=? fst q) && (fst q <? hi)) (positions 0 xs)).
(** A bound as a position: negative ones count from the end. *)
Definition position (z size : Z) : Z := if z <? 0 then size + z else z.

(** A branch of a CASE matches: its condition equals the operand, or is true. *)
Definition caseExpr (g : bool) (cond dflt : option expr) (bs : list (expr * expr)) : expr :=
  Node (KCase g (match cond with Some _ => true | None => false end) (match dflt with Some _ => true | None => false end))
       ((match cond with Some e => [e] | None => [] end) ++ (match dflt with Some e => [e] | None => [] end)
        ++ flat_map (fun b => [fst b; snd b]) bs).

(** Node kinds whose result may be an old result: attributes, UUID, and an exclusive or without operands. *)
Fixpoint memoryless (e : expr) : bool :=
  match e with
  | Node k cs => match k with KAttr | KUUID _ => false
                            | KLogical OXor => match cs with [] => false | _ => true end
                            | _ => true end && forallb memoryless cs
  end.
