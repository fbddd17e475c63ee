(** What routes mean: templates as lists of segments and their instances. *)
From Coq Require Import String List.
From Verif Require Import Prelude ValueBase.
Import ListNotations.
Local Open Scope Z_scope.
Local Open Scope list_scope.

(** A segment of a path template: fixed text or a parameter *)
Inductive seg := Fixed (t : str) | Par (name : str).
Definition letter (c : Z) : Prop := 65 <= c <= 90 \/ 97 <= c <= 122.
Definition wordChar (c : Z) : Prop := letter c \/ 48 <= c <= 57 \/ c = 95.
Definition identifier (n : str) : Prop := exists c r, n = c :: r /\ letter c /\ Forall wordChar r.
(** the slash, the colon and the characters special in regular expressions: / : . ^ $ \ * + ? ( ) [ ] { } | *)
Definition plainText (t : str) : Prop := t <> [] /\ Forall (fun c => ~ In c (B "/:.^$\*+?()[]{}|")) t.
Definition segOk (s : seg) : Prop := match s with Fixed t => plainText t | Par n => identifier n end.
Fixpoint parNames (ss : list seg) : list str := match ss with [] => [] | Fixed _ :: r => parNames r | Par n :: r => n :: parNames r end.
(** a template with at least one parameter, no name twice *)
Definition templateOk (ss : list seg) : Prop := Forall segOk ss /\ NoDup (parNames ss) /\ parNames ss <> [].
Definition segText (s : seg) : str := match s with Fixed t => t | Par n => B ":" ++ n end.
(** the text of a template: every segment behind a slash *)
Definition templateText (ss : list seg) : str := flat_map (fun s => B "/" ++ segText s) ss.
(** a value for a parameter: not empty, no slash *)
Definition valueOk (v : str) : Prop := v <> [] /\ ~ In 47 v.
(** paths that result from putting values for the parameters *)
Inductive instance : list seg -> list str -> str -> Prop :=
| inst_nil : instance [] [] []
| inst_fixed t ss vs p : instance ss vs p -> instance (Fixed t :: ss) vs (B "/" ++ t ++ p)
| inst_par n v ss vs p : valueOk v -> instance ss vs p -> instance (Par n :: ss) (v :: vs) (B "/" ++ v ++ p).

(** [bare a b]: b is a without one slash at its end; the empty path is the root *)
Inductive bare : str -> str -> Prop :=
| bare_empty : bare [] [47]
| bare_root : bare [47] [47]
| bare_slash a : a <> [] -> bare (a ++ [47]) a
| bare_other a c : c <> 47 -> bare (a ++ [c]) (a ++ [c]).
(** two paths name the same resource *)
Definition samePath (a b : str) : Prop := exists c, bare a c /\ bare b c.

(** What is registered: a fixed path or a template *)
Inductive target := Exact (path : str) | Template (ss : list seg).
Definition targetText (t : target) : str := match t with Exact p => p | Template ss => templateText ss end.
Definition targetOk (t : target) : Prop := match t with Exact p => (exists r, p = 47 :: r) /\ ~ In 58 p | Template ss => templateOk ss end.
(** A fixed path serves the paths that name it; a template serves the paths with an instance anywhere inside. *)
Definition servesPath (t : target) (p : str) : Prop :=
  match t with
  | Exact q => samePath q p
  | Template ss => exists b pre vs mid post, bare p b /\ b = pre ++ mid ++ post /\ instance ss vs mid
  end.
