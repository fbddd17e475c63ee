(** The router of the web service: src/common/webservice/Router.{h,cpp}.
    Not modelled: handlers (a number stands for the generator), methods proxygen does not know (getMethod().value() throws), the
    CHECK that the server has not started. Templates with the regular expression characters ^ $ \ * + ? ( ) [ ] { } | are outside the
    model: [newRoute] is [Diverge] on them. *)
From Coq Require Import String List.
From Verif Require Import Prelude ValueBase.
Import ListNotations.
Local Open Scope Z_scope.
Local Open Scope list_scope.

(** A pattern (Router.cpp 42-60): the regular expression that results from a path template. A literal stands for itself, `.` for
    any character but line ends, and a token `:name` becomes the group ([^/]+). *)
Inductive piece := Lit (c : Z) | Param (name : str).
Definition isLetter (c : Z) : bool := ((65 <=? c) && (c <=? 90)) || ((97 <=? c) && (c <=? 122)).
Definition isWord (c : Z) : bool := isLetter c || ((48 <=? c) && (c <=? 57)) || (c =? 95).
Definition startsLetter (s : str) : bool := match s with c :: _ => isLetter c | [] => false end.
(** reToken_ (39-40) :([A-Za-z][A-Za-z_0-9]* ) found from left to right; [cur] is the name being read *)
Fixpoint piecesGo (cur : option str) (s : str) : list piece :=
  match s with
  | [] => match cur with Some n => [Param n] | None => [] end
  | c :: r =>
      match cur with
      | Some n => if isWord c then piecesGo (Some (n ++ [c])) r
                  else Param n :: (if (c =? 58) && startsLetter r then piecesGo (Some []) r else Lit c :: piecesGo None r)
      | None => if (c =? 58) && startsLetter r then piecesGo (Some []) r else Lit c :: piecesGo None r
      end
  end.
Definition pieces (path : str) : list piece := piecesGo None path.
Fixpoint groupsOf (ps : list piece) : list str :=
  match ps with [] => [] | Lit _ :: ps' => groupsOf ps' | Param n :: ps' => n :: groupsOf ps' end.

(** std::regex_match of a pattern at the start of [s], groups greedy and given back one by one; the captures *)
Definition litMatches (c d : Z) : bool := if c =? 46 then negb ((d =? 10) || (d =? 13)) else c =? d.
Fixpoint runLen (s : str) : nat := match s with c :: s' => if c =? 47 then O else S (runLen s') | [] => O end.
Fixpoint matchHere (ps : list piece) (s : str) : option (list str) :=
  match ps with
  | [] => Some []
  | Lit c :: ps' => match s with d :: s' => if litMatches c d then matchHere ps' s' else None | [] => None end
  | Param _ :: ps' =>
      (fix down (k : nat) : option (list str) :=
         match k with
         | O => None
         | S k' => match matchHere ps' (skipn k s) with Some cs => Some (firstn k s :: cs) | None => down k' end
         end) (runLen s)
  end.
(** std::regex_search: the leftmost start *)
Fixpoint regexSearch (ps : list piece) (s : str) : option (list str) :=
  match matchHere ps s with
  | Some cs => Some cs
  | None => match s with [] => None | _ :: s' => regexSearch ps s' end
  end.

(** Route, Router.h 34-69: method, path_, pattern_ with groups_, the handler generator *)
Record route := mkRoute { rtMethod : Z; rtPath : str; rtPattern : option (list piece); rtHandler : option Z }.
Fixpoint distinct (l : list str) : bool := match l with [] => true | x :: l' => negb (existsb (strEqb x) l') && distinct l' end.
Definition lastIsSlash (s : str) : bool := match rev s with c :: _ => c =? 47 | [] => false end.
Definition regexChar (c : Z) : bool := existsb (Z.eqb c) (B "^$\*+?()[]{}|").
(** The constructor (Router.h 36-39): checkPath (Router.cpp 19-21), setPath (23-36), createPattenRegex (42-60) with its CHECK on
    names used twice *)
Definition newRoute (m : Z) (path : str) : outcome route :=
  match path with
  | 47 :: _ =>
      if existsb (Z.eqb 58) path then
        if existsb regexChar path then Diverge
        else if distinct (groupsOf (pieces path)) then Ret (mkRoute m path (Some (pieces path)) None) else Fatal
      else Ret (mkRoute m (if (1 <? List.length path)%nat && lastIsSlash path then removelast path else path) None None)
  | _ => Fatal
  end.
(** matches, 62-77 *)
Definition trimPath (p : str) : str := match p with [] => [47] | _ => if (1 <? List.length p)%nat && lastIsSlash p then removelast p else p end.
Definition matches (r : route) (m : Z) (p : str) : bool :=
  (rtMethod r =? m) &&
  match rtPattern r with
  | Some ps => match regexSearch ps (trimPath p) with Some _ => true | None => false end
  | None => strEqb (rtPath r) (trimPath p)
  end.
(** handler, 87-90 *)
Definition setHandler (r : route) (h : Z) : outcome route :=
  match rtHandler r with None => Ret (mkRoute (rtMethod r) (rtPath r) (rtPattern r) (Some h)) | Some _ => Fatal end.
(** generateHandler, 92-104, on the path as it came; an empty generator throws, unequal numbers of groups fail a CHECK *)
Inductive served := Handler (h : Z) (params : list (str * str)) | NotFound.
Definition generateHandler (r : route) (p : str) : outcome served :=
  match rtPattern r with
  | None => match rtHandler r with Some h => Ret (Handler h []) | None => Fatal end
  | Some ps =>
      match regexSearch ps p with
      | None => Fatal
      | Some cs => if (List.length cs =? List.length (groupsOf ps))%nat
                   then match rtHandler r with Some h => Ret (Handler h (combine (groupsOf ps) cs)) | None => Fatal end
                   else Fatal
      end
  end.

(** Router, Router.h 71-105: the prefix and the list of routes in the order of registration (append, Router.cpp 129-136) *)
Record router := mkRouter { roPrefix : str; roRoutes : list route }.
(** route, 115-127, followed by handler on the result *)
Definition routePath (prefix path : str) : str :=
  let p := match path with [] => [47] | _ => path end in
  match prefix with [] => p | _ => [47] ++ prefix ++ p end.
Definition addRoute (ro : router) (m : Z) (path : str) (h : Z) : outcome router :=
  let* r := newRoute m (routePath (roPrefix ro) path) in
  let* r' := setHandler r h in
  Ret (mkRouter (roPrefix ro) (roRoutes ro ++ [r'])).
(** dispatch, 106-113 *)
Fixpoint dispatchGo (rs : list route) (m : Z) (p : str) : outcome served :=
  match rs with
  | [] => Ret NotFound
  | r :: rs' => if matches r m p then generateHandler r p else dispatchGo rs' m p
  end.
Definition dispatch (ro : router) (m : Z) (p : str) : outcome served := dispatchGo (roRoutes ro) m p.
