(** Specification of comparing and copying expression trees: what distinguishes two trees. *)
From Verif Require Import ValueBase DateModel TimeModel ValueModel ExprModel ExprSpec.
From Coq Require Import String.
Local Open Scope string_scope.
Local Open Scope list_scope.
Local Open Scope Z_scope.

(** The members of a node without those that only serve printing or validation *)
Definition bare (k : kind) : kind :=
  match k with
  | KVar s _ => KVar s true
  | KPredicate n iv _ f => KPredicate n iv [] f
  | KListComp iv _ f m => KListComp iv [] f m
  | KReduce a iv _ => KReduce a iv []
  | KAggregate n _ => KAggregate n false
  | _ => k
  end.
Fixpoint erase (e : expr) : expr := match e with Node k cs => Node (bare k) (map erase cs) end.

(** Constants that are equal only to themselves *)
Fixpoint exactValue (v : value) : bool :=
  match v with
  | VEmpty | VNull NNull | VBool _ | VInt _ | VStr _ | VDate _ | VTime _ | VDateTime _ => true
  | VList l => forallb exactValue l
  | _ => false
  end.
(** The members of a property expression that its class decides *)
Definition fixedMembers (p : prop) (r s pr : str) : Prop :=
  match p with
  | PEdge | PTag => r = []
  | PInput => r = B "$-" /\ s = []
  | PVar => r = B "$"
  | PSrc => r = B "$^"
  | PDst => r = B "$$"
  | PEdgeSrc => r = [] /\ pr = B "_src"
  | PEdgeType => r = [] /\ pr = B "_type"
  | PEdgeRank => r = [] /\ pr = B "_rank"
  | PEdgeDst => r = [] /\ pr = B "_dst"
  end.
(** A node as its class builds it: no pointer missing.  Text search expressions, which are rewritten before use, are left out. *)
Definition builtNode (k : kind) (cs : list expr) : Prop :=
  let arity n := List.length cs = n in
  match k with
  | KArith _ | KRel _ | KSubscript | KAttr | KLabelAttr => arity 2%nat
  | KUnary _ | KCast _ | KAggregate _ _ => arity 1%nat
  | KRange lo hi => arity (1 + bit lo + bit hi)%nat
  | KVersioned _ v => v = true /\ arity 1%nat
  | KPredicate _ _ _ f => arity (1 + bit f)%nat
  | KListComp _ _ f m => arity (1 + bit f + bit m)%nat
  | KReduce _ _ _ => arity 3%nat
  | KTextSearch _ => False
  | KMap keys => arity (List.length keys)
  | KLogical _ | KCall _ | KList | KSet | KPathBuild | KCase _ _ _ => True
  | KProp p r s pr => fixedMembers p r s pr /\ arity 0%nat
  | _ => arity 0%nat
  end.
Definition built (e : expr) : Prop := allNodes builtNode e.
Definition exactConsts (e : expr) : Prop := allNodes (fun k _ => match k with KConst v => exactValue v = true | _ => True end) e.
