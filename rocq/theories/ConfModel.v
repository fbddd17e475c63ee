(** src/common/conf/Configuration.{h,cpp}.
    Not modelled: the texts of errors, dumping, errors of ::read, allocation.  An exception that leaves a function is [Fatal]:
    none of the callers in this repository catches it. *)
From Coq Require Import String List.
From Verif Require Import Prelude ValueBase DynModel.
Import ListNotations.
Local Open Scope Z_scope.
Local Open Scope list_scope.

(** content_, Configuration.h 71; Configuration() Configuration.cpp 12-14 *)
Definition newConf : dyn := DObj [].
(** Configuration(dynamic), 16-19 *)
Definition makeConf (d : dyn) : outcome dyn := match d with DObj _ => Ret d | _ => Fatal end.

(** std::regex_replace of the pattern //.*|#.* by nothing, 53-55: a dot matches all but line feed and carriage return.
    [inside]: within a comment *)
Definition lineEnd (c : Z) : bool := (c =? 10) || (c =? 13).
Fixpoint stripGo (inside : bool) (s : str) : str :=
  match s with
  | [] => []
  | c :: r =>
      if inside then (if lineEnd c then c :: stripGo false r else stripGo true r)
      else if c =? 35 then stripGo true r
      else if (c =? 47) && (match r with d :: _ => d =? 47 | [] => false end) then stripGo true r
      else c :: stripGo false r
  end.
Definition stripComments (s : str) : str := stripGo false s.

(** parseFromString, 70-79: the status and the content afterwards *)
Definition parseFromString (W : dynWorld) (c : dyn) (s : str) : bool * dyn :=
  match dwParse W s with Some d => (true, d) | None => (false, c) end.
(** parseFromFile, 22-67; [file]: None if it cannot be opened, otherwise its bytes. The buffer is read as a C string. *)
Definition parseFromFile (W : dynWorld) (c : dyn) (file : option str) : bool * dyn :=
  match file with
  | None => (false, c)
  | Some [] => (false, c)
  | Some b => parseFromString W c (stripComments (cstr b))
  end.

(** find in content_ by a C string: [Fatal] (TypeError) if it is not an object *)
Definition cfind (key : str) (c : dyn) : outcome (option dyn) := match c with DObj m => Ret (dget (cstr key) m) | _ => Fatal end.
(** fetchAsInt 98-109, fetchAsDouble 112-123, fetchAsBool 126-137, fetchAsString 140-151, fetchAsSubConf 154-165: the status and
    the variable of the caller afterwards *)
Definition fetchScalar {A} (pick : dyn -> option A) (c : dyn) (key : str) (val : A) : outcome (bool * A) :=
  let* o := cfind key c in
  match o with
  | None => Ret (false, val)
  | Some d => match pick d with Some x => Ret (true, x) | None => Ret (false, val) end
  end.
Definition fetchAsInt : dyn -> str -> Z -> outcome (bool * Z) := fetchScalar (fun d => match d with DInt z => Some z | _ => None end).
Definition fetchAsDouble : dyn -> str -> f64 -> outcome (bool * f64) := fetchScalar (fun d => match d with DDouble x => Some x | _ => None end).
Definition fetchAsBool : dyn -> str -> bool -> outcome (bool * bool) := fetchScalar (fun d => match d with DBool b => Some b | _ => None end).
Definition fetchAsString : dyn -> str -> str -> outcome (bool * str) := fetchScalar (fun d => match d with DStr s => Some s | _ => None end).
Definition fetchAsSubConf : dyn -> str -> dyn -> outcome (bool * dyn) := fetchScalar (fun d => match d with DObj m => Some (DObj m) | _ => None end).
(** upsertStringField, 168-176 *)
Definition upsertStringField (c : dyn) (key val : str) : outcome (bool * dyn) :=
  let* o := cfind key c in
  match o with
  | None | Some (DStr _) => match c with DObj m => Ret (true, DObj (dset (cstr key) (DStr val) m)) | _ => Fatal end
  | Some _ => Ret (false, c)
  end.
(** fetchAsIntArray 179-200, fetchAsDoubleArray 203-224, fetchAsBoolArray 227-248, fetchAsStringArray 251-272: each entry is
    converted and appended until one throws *)
Fixpoint pushAll {A} (conv : dyn -> option A) (l : list dyn) (val : list A) : bool * list A :=
  match l with
  | [] => (true, val)
  | d :: l' => match conv d with Some x => pushAll conv l' (val ++ [x]) | None => (false, val) end
  end.
Definition fetchArray {A} (conv : dyn -> option A) (c : dyn) (key : str) (val : list A) : outcome (bool * list A) :=
  let* o := cfind key c in
  match o with
  | Some (DArr l) => Ret (pushAll conv l val)
  | _ => Ret (false, val)
  end.
Definition fetchAsIntArray (W : dynWorld) := fetchArray (asInt W).
Definition fetchAsDoubleArray (W : dynWorld) := fetchArray (asDouble W).
Definition fetchAsBoolArray (W : dynWorld) := fetchArray (asBool W).
Definition fetchAsStringArray (W : dynWorld) := fetchArray (asString W).
(** forEachItem 289-301: the processor is a function on a state, None when it throws; forEachKey 275-286 likewise *)
Fixpoint forItems {S} (proc : S -> str -> dyn -> option S) (m : list (str * dyn)) (s : S) : bool * S :=
  match m with
  | [] => (true, s)
  | (k, d) :: m' => match proc s k d with Some s' => forItems proc m' s' | None => (false, s) end
  end.
Definition forEachItem {S} (proc : S -> str -> dyn -> option S) (c : dyn) (s : S) : outcome (bool * S) :=
  match c with DObj m => Ret (forItems proc m s) | _ => Fatal end.
