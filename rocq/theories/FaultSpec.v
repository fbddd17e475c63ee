(** Specification for C186: what the operands of a node must not be for its evaluation to return. *)
From Coq Require Import String List.
From Verif Require Import Prelude ValueBase DateModel DateSpec ValueModel ExprModel ExprSpec CloneSpec EvalModel EvalSpec FuncGuardProps CastProps ValueProps.
Import ListNotations.
Local Open Scope list_scope.
Open Scope Z_scope.

(** All variables of the context hold values with [P] *)
Definition holds (P : value -> Prop) (c : ctx) : Prop := Forall (fun p => P (snd p)) c.
(** The results remembered in a tree of nodes *)
Inductive kept (Q : value -> Prop) : cache -> Prop := Kept r ks : Q r -> Forall (kept Q) ks -> kept Q (Cache r ks).
(** [v] is among what evaluating [e] can give while its nodes remember results with [K] and the variables hold values with [P] *)
Definition canGive (E : env) (K P : value -> Prop) (e : expr) (v : value) : Prop := exists k c k' c', kept K k /\ holds P c /\ eval E e k c = Ret (v, k', c').
(** Evaluating [e] returns, in all these states, and leaves such a state *)
Definition returns (E : env) (K P : value -> Prop) (e : expr) : Prop :=
  forall k c, kept K k -> holds P c -> exists v k' c', eval E e k c = Ret (v, k', c') /\ kept K k' /\ holds P c'.
(** What evaluating a node leaves has [K] *)
Definition remembers (E : env) (K P : value -> Prop) (k : kind) (cs : list expr) : Prop :=
  forall m c v m' c', kept K m -> holds P c -> eval E (Node k cs) m c = Ret (v, m', c') -> kept K m'.

(** A node without missing pointers; the members of a property expression may be any, also others than its class gives it *)
Definition completeNode (k : kind) (cs : list expr) : Prop := match k with KProp _ _ _ _ => cs = [] | _ => builtNode k cs end.
Definition complete (e : expr) : Prop := allNodes completeNode e.
(** [n] days after [d] there is a date *)
Definition inCalendar (d : date) (n : Z) : Prop := valid_date julian_leap d /\ exists s, toInt d = Ret s /\ 0 <= s + n < total_days.
(** Values of which a dot asks for a member *)
Definition hasMembers (v : value) : Prop := match v with VMap _ | VVertex _ | VEdge _ | VDate _ | VTime _ | VDateTime _ => True | _ => False end.
Definition isExistsName (n : str) : Prop := n = B "exists".
Definition isQuantifierName (n : str) : Prop := In n [B "all"; B "any"; B "single"; B "none"].

(** What is asked of a node, given what its operands can give.  That integers are 64 bits wide and that a case expression has the
    condition and the default it says it has is so in the code by their types; the model's trees do not ensure it. *)
Definition harmless (E : env) (K P : value -> Prop) (k : kind) (cs : list expr) : Prop :=
  let operands (Q : value -> value -> Prop) := forall l r v w, cs = [l; r] -> canGive E K P l v -> canGive E K P r w -> Q v w in
  let each (Q : value -> Prop) := forall e v, In e cs -> canGive E K P e v -> Q v in
  match k with
  | KArith OAdd => operands (fun v w => match v, w with VDate d, VInt n | VInt n, VDate d => inCalendar d n | _, _ => True end)
  | KArith OMinus => operands (fun v w => match v, w with VDate d, VInt n => inCalendar d (- n) | VDate d, VDate e => inCalendar d 0 /\ inCalendar e 0 | _, _ => True end)
  | KArith ODivision => operands (fun v w => match v, w with VInt x, VInt y => int64 x /\ int64 y | _, _ => True end)
  | KArith OMod => operands (fun v w => match v, w with VInt x, VInt y => int64 x /\ int64 y /\ ~ (x = - 2 ^ 63 /\ y = -1) | _, _ => True end)
  | KArith OMultiply => True
  | KUnary ONegate => each (fun v => match v with VInt x => int64 x | _ => True end)
  | KUnary OIncr => each (fun v => match v with VDate d => inCalendar d 1 | _ => True end) /\ forall s b, map kindOf cs <> [KVersioned s b]
  | KUnary ODecr => each (fun v => match v with VDate d => inCalendar d (- 1) | _ => True end) /\ forall s b, map kindOf cs <> [KVersioned s b]
  | KRel OIn | KRel ONotIn => operands (fun v w => match w with VSet _ => canHash v | _ => True end)
  | KAttr => operands (fun v w => hasMembers v -> exists s, w = VStr s)
  | KCast t => t = 4 -> each (integral E)
  | KCall name => forall vs, Forall2 (canGive E K P) cs vs -> exists v, eFun E name vs = Ret v
  | KSet => each canHash
  | KCase _ hasCond hasDefault => (bit hasCond + bit hasDefault <= List.length cs)%nat
  | KPredicate n _ _ hasFilter =>
      (isExistsName n -> match cs with Node _ gs :: _ => (2 <= List.length gs)%nat | [] => False end) /\ (isQuantifierName n -> hasFilter = true)
  | KLabelAttr | KAggregate _ _ | KTextSearch _ => False
  | _ => True
  end.

(** What a node binds to variables has [P] *)
Definition binds (E : env) (K P : value -> Prop) (k : kind) (cs : list expr) : Prop :=
  let given (i : nat) (Q : value -> Prop) := forall e v, nth_error cs i = Some e -> canGive E K P e v -> Q v in
  let elements v := match v with VList l => Forall P l | _ => True end in
  match k with
  | KUnary OIncr => given 0%nat (fun v => forall w, vadd (eX E) v (VInt 1) = Ret w -> P w)
  | KUnary ODecr => given 0%nat (fun v => forall w, vsub v (VInt 1) = Ret w -> P w)
  | KPredicate _ _ _ _ | KListComp _ _ _ _ => given 0%nat elements
  | KReduce _ _ _ => given 0%nat P /\ given 1%nat elements /\ given 2%nat P
  | _ => True
  end.
