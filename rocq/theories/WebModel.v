(** The handlers of the web service: SetFlagsHandler.cpp, GetFlagsHandler.cpp, GetStatsHandler.cpp and StatusHandler.cpp of src/common/webservice,
    and the routes of WebService.cpp.
    Not modelled: proxygen (a request is its method, its query parameters as they stand in the URL, and its body if one came), the texts that
    toPrettyJson and toJson make, logging. All handlers are noexcept: an exception that is not caught is [Fatal]. *)
From Coq Require Import String List.
From Verif Require Import Prelude ValueBase ValueModel NetModel EvalModel FuncModel StatsModel AssocModel DynModel ConfModel GflagsModel RouterModel.
Import ListNotations.
Local Open Scope Z_scope.
Local Open Scope list_scope.

(** 200 with a JSON value or with a text, 400, 405 *)
Inductive response := OkJson (d : dyn) | OkText (s : str) | BadRequest | NotAllowed.

(** folly::toPrettyJson throws on doubles that are not finite *)
Definition finiteF (x : f64) : bool := match x with S754_zero _ | S754_finite _ _ _ => true | _ => false end.
Fixpoint printable (d : dyn) : bool :=
  match d with
  | DDouble x => finiteF x
  | DArr l => (fix go l := match l with [] => true | d :: r => printable d && go r end) l
  | DObj m => (fix go m := match m with [] => true | (_, d) :: r => printable d && go r end) m
  | _ => true
  end.
Definition asJson (d : dyn) : outcome response := if printable d then Ret (OkJson d) else Fatal.

(** ** Flags *)
(** A flag with what CommandLineFlagInfo says about it beside its name, type and value: default_value, description, filename, and the opposite of
    is_default.  The list of the flags of a process is in the order of GetAllFlags. *)
Record reg := mkReg { rgFlag : flag; rgDefault : str; rgDescription : str; rgFile : str; rgModified : bool }.
(** GetCommandLineFlagInfo *)
Fixpoint regGet (rs : list reg) (name : str) : option reg :=
  match rs with [] => None | r :: t => if strEqb (flName (rgFlag r)) (cstr name) then Some r else regGet t name end.
(** SetCommandLineOption, as flagSet; the Boolean: the result is not empty, i.e. the flag is there and has taken the value.
    The flags with which gflags reads further flags (flagfile, fromenv, tryfromenv) are not modelled. *)
Fixpoint regSet (G : gWorld) (rs : list reg) (name text : str) : list reg * bool :=
  match rs with
  | [] => ([], false)
  | r :: t =>
      let f := rgFlag r in
      if strEqb (flName f) (cstr name) then
        match flagParse G (flType f) (cstr text) with
        | Some v => if gwValid G (flName f) v then (mkReg (mkFlag (flName f) (flType f) v) (rgDefault r) (rgDescription r) (rgFile r) true :: t, true)
                    else (rs, false)
        | None => (rs, false)
        end
      else let (t', ok) := regSet G t name text in (r :: t', ok)
  end.

(** dynamic::empty; None: size() throws *)
Definition dynEmpty (d : dyn) : option bool :=
  match d with
  | DNull => Some true
  | DStr [] | DArr [] | DObj [] => Some true
  | DStr _ | DArr _ | DObj _ => Some false
  | _ => None
  end.
(** the loop of SetFlagsHandler::onEOM, 70-77 *)
Fixpoint setItems (G : gWorld) (W : dynWorld) (m : list (str * dyn)) (rs : list reg) : outcome (list reg * list str) :=
  match m with
  | [] => Ret (rs, [])
  | (name, d) :: m' =>
      let* text := throwing (asString W d) in
      let '(rs', ok) := regSet G rs name text in
      let* r := setItems G W m' rs' in
      Ret (fst r, if ok then snd r else name :: snd r)
  end.
(** SetFlagsHandler::onRequest, onBody and onEOM, 22-86; [put]: the method is PUT; [body]: what the calls of onBody brought, None if there was none
    (body_ is null then and dereferenced in 43) *)
Definition setFlags (G : gWorld) (W : dynWorld) (put : bool) (body : option str) (rs : list reg) : outcome (response * list reg) :=
  match body with
  | None => UB
  | Some b =>
      match dwParse W b with
      | None => Ret (BadRequest, rs)
      | Some d =>
          match dynEmpty d with
          | None | Some true => Ret (BadRequest, rs)
          | Some false =>
              if put then
                match d with
                | DObj m =>
                    let* r := setItems G W m rs in
                    Ret (OkJson (match snd r with [] => DObj [(B "errCode", DInt 0)] | fs => DObj [(B "failedOptions", DArr (map DStr fs))] end), fst r)
                | _ => Fatal
                end
              else Ret (NotAllowed, rs)
          end
      end
  end.

(** folly::to of an unsigned type *)
Definition toUInt (hi : Z) (s : str) : option Z :=
  let s2 := dropSpace s in
  let '(n, z) := digits s2 0 in
  if (0 <? n)%nat && forallb isSpace (skipn n s2) && (z <=? hi) then Some z else None.
(** the value of a flag as a dynamic, GetFlagsHandler::addOneFlag 104-138; an integer is an int64 in a dynamic *)
Definition flagDyn (W : dynWorld) (t : ftype) (text : str) : outcome dyn :=
  match t with
  | FInt32 => let* z := throwing (toInt32 text) in Ret (DInt z)
  | FUInt32 => let* z := throwing (toUInt 4294967295 text) in Ret (DInt z)
  | FInt64 => let* z := throwing (toInt64 text) in Ret (DInt z)
  | FUInt64 => let* z := throwing (toUInt 18446744073709551615 text) in Ret (DInt (wrap64 z))
  | FBool => let* b := throwing (toBool text) in Ret (DBool b)
  | FDouble => let* x := throwing (dwStrDouble W text) in Ret (DDouble x)
  | FString => Ret (DStr text)
  end.
(** addOneFlag, 97-154; the members in the order of the assignments *)
Definition addOneFlag (W : dynWorld) (verbose : bool) (name : str) (info : option reg) : outcome (list (str * dyn)) :=
  match info with
  | None => Ret [(B "name", DStr name); (B "value", DNull)]
  | Some r =>
      let t := flType (rgFlag r) in
      let* v := flagDyn W t (flText (rgFlag r)) in
      if verbose then
        let* d := flagDyn W t (rgDefault r) in
        Ret [(B "name", DStr name); (B "value", v); (B "default", d); (B "type", DStr (typeText t)); (B "description", DStr (rgDescription r));
             (B "file", DStr (rgFile r)); (B "is_default", DBool (negb (rgModified r)))]
      else Ret [(B "name", DStr name); (B "value", v)]
  end.
Fixpoint addFlags (W : dynWorld) (verbose : bool) (l : list (str * option reg)) : outcome (list (list (str * dyn))) :=
  match l with
  | [] => Ret []
  | (n, i) :: l' => let* x := addOneFlag W verbose n i in let* r := addFlags W verbose l' in Ret (x :: r)
  end.
(** getFlags, 157-180 *)
Definition getFlags (W : dynWorld) (verbose : bool) (names : list str) (rs : list reg) : outcome (list (list (str * dyn))) :=
  match names with
  | [] => addFlags W verbose (map (fun r => (flName (rgFlag r), Some r)) rs)
  | _ => addFlags W verbose (map (fun n => (n, regGet rs n)) names)
  end.
(** valToString, 183-191 *)
Definition valToString (W : dynWorld) (d : dyn) : outcome str :=
  match d with
  | DNull => Ret (B "nullptr")
  | DStr s => Ret (B """" ++ s ++ B """")
  | _ => throwing (asString W d)
  end.
(** operator[] of a const object: throws if the key is missing *)
Definition member (fi : list (str * dyn)) (k : str) : outcome dyn := throwing (dget k fi).
Definition memberText (W : dynWorld) (fi : list (str * dyn)) (k : str) : outcome str := let* d := member fi k in throwing (asString W d).
Definition memberShown (W : dynWorld) (fi : list (str * dyn)) (k : str) : outcome str := let* d := member fi k in valToString W d.
(** one round of the loop of toStr, 195-205 *)
Definition flagLine (W : dynWorld) (verbose : bool) (fi : list (str * dyn)) : outcome str :=
  let* name := memberText W fi (B "name") in
  if verbose then
    let* description := memberText W fi (B "description") in
    let* file := memberText W fi (B "file") in
    let* type := memberText W fi (B "type") in
    let* default := memberShown W fi (B "default") in
    let* value := memberShown W fi (B "value") in
    let* isd := member fi (B "is_default") in
    let* isd := throwing (asBool W isd) in
    Ret (B "--" ++ name ++ B ": " ++ description ++ [10] ++ B "  file: " ++ file ++ B ", type: " ++ type ++ B ", default: " ++ default ++
         B ", current: " ++ value ++ (if isd then B "(default)" else []) ++ [10])
  else
    let* value := memberShown W fi (B "value") in
    Ret (name ++ B "=" ++ value ++ [10]).
Fixpoint flagLines (W : dynWorld) (verbose : bool) (l : list (list (str * dyn))) : outcome str :=
  match l with [] => Ret [] | fi :: r => let* a := flagLine W verbose fi in let* b := flagLines W verbose r in Ret (a ++ b) end.
(** A request: whether its method is GET, and the parameters verbose, format and flags or stats *)
Record request := mkRequest { rqGet : bool; rqVerbose : option str; rqFormat : option str; rqNames : option str }.
Definition isParam (o : option str) (s : str) : bool := match o with Some t => strEqb t s | None => false end.
Definition askedNames (o : option str) : list str := match o with Some s => splitNonEmpty (B ",") s | None => [] end.
(** GetFlagsHandler::onRequest 23-42 and onEOM 50-77; verbose_ and returnJson_ start as false *)
Definition getFlagsHandler (W : dynWorld) (q : request) (rs : list reg) : outcome response :=
  if rqGet q then
    let verbose := isParam (rqVerbose q) (B "true") in
    let* vals := getFlags W verbose (askedNames (rqNames q)) rs in
    if isParam (rqFormat q) (B "json") then asJson (DObj [(B "flags", DArr (map DObj vals))])
    else let* t := flagLines W verbose vals in Ret (OkText t)
  else Ret NotAllowed.

(** ** Statistics *)
Section Stats.
(** folly::to<double>, and what a series or histogram yields for a range and a statistic at the time of the request *)
Context (toDouble : str -> option f64) (yields : list Z -> timeRange -> query -> Z).
(** Status::format: at most 255 bytes *)
Definition formatted (s : str) : str := firstn 255 s.
(** readStats and readHisto of an id, StatsManager.cpp 347-373 and 400-419.  The result is the value or the text of the status *)
Definition readId (s : statsMgr) (id : Z) (r : timeRange) (q : query) : outcome (Z + str) :=
  match q with
  | QMethod _ =>
      if id =? 0 then Ret (inr (B "Invalid stats")) else
      match readById s id with Some l => Ret (inl (yields l r q)) | None => UB end
  | QPct _ =>
      if 0 <=? id then Ret (inr (B "Invalid stats")) else
      match readById s id with Some l => Ret (inl (yields l r q)) | None => Ret (inr (B "Invalid stats")) end
  end.
(** readStats and readHisto of a name, 376-396 and 423-444 *)
Definition readNamed (s : statsMgr) (name : str) (r : timeRange) (q : query) : outcome (Z + str) :=
  match findName name (nameMap s) with
  | Some i => readId s (ciId i) r q
  | None => Ret (inr (formatted (B "Stats not found """ ++ cstr name ++ B """")))
  end.
(** readValue(metricName), 207-256: as parseMetric of StatsModel, with the texts of the errors *)
Definition readMetric (s : statsMgr) (metric : str) : outcome (Z + str) :=
  match splitNonEmpty (B ".") metric with
  | [name; what; rng] =>
      match rangeOf rng with
      | None => Ret (inr (B "Unsupported time range """ ++ cstr rng ++ B """"))
      | Some r =>
          let w := lower what in
          match methodOf w with
          | Some m => readNamed s name r (QMethod m)
          | None =>
              if startsP w then
                match strToPct toDouble w with
                | Some d => readNamed s name r (QPct d)
                | None => Ret (inr (B """" ++ cstr w ++ B """ is not a valid percentile form"))
                end
              else Ret (inr (B "Unsupported statistic method """ ++ cstr w ++ B """"))
          end
      end
  | _ => Ret (inr (formatted (B """" ++ cstr metric ++ B """ is not a valid metric name")))
  end.
(** readAllValue, 260-343: a failure of a method's value fails the CHECK in 304, one of a percentile's is passed over *)
Fixpoint readPublished (s : statsMgr) (id : Z) (l : list (str * (timeRange * query))) : outcome (list (str * (Z + str))) :=
  match l with
  | [] => Ret []
  | (metric, (r, q)) :: l' =>
      let* v := readId s id r q in
      match v, q with
      | inl z, _ => let* rest := readPublished s id l' in Ret ((metric, inl z) :: rest)
      | inr _, QMethod _ => Fatal
      | inr _, QPct _ => readPublished s id l'
      end
  end.
Fixpoint readAll (s : statsMgr) (nm : list (str * counterInfo)) : outcome (list (str * (Z + str))) :=
  match nm with
  | [] => Ret []
  | (name, i) :: nm' => let* a := readPublished s (ciId i) (published name i) in let* b := readAll s nm' in Ret (a ++ b)
  end.
Fixpoint readEach (s : statsMgr) (names : list str) : outcome (list (str * (Z + str))) :=
  match names with
  | [] => Ret []
  | n :: r => let* v := readMetric s n in let* rest := readEach s r in Ret ((n, v) :: rest)
  end.
(** getStats, GetStatsHandler.cpp 97-114; the hash map nameMap_ is read in the order of the list *)
Definition getStats (s : statsMgr) (names : list str) : outcome (list (str * (Z + str))) :=
  match names with [] => readAll s (nameMap s) | _ => readEach s names end.
Definition shownStat (v : Z + str) : dyn := match v with inl z => DInt z | inr e => DStr e end.
(** toStr, 116-124 *)
Definition statLine (p : str * (Z + str)) : str := fst p ++ B "=" ++ (match snd p with inl z => decZ z | inr e => e end) ++ [10].
(** onRequest 25-40 and onEOM 48-68 *)
Definition getStatsHandler (q : request) (s : statsMgr) : outcome response :=
  if rqGet q then
    let* vals := getStats s (askedNames (rqNames q)) in
    if isParam (rqFormat q) (B "json") then asJson (DArr (map (fun p => DObj [(fst p, shownStat (snd p))]) vals))
    else Ret (OkText (flat_map statLine vals))
  else Ret NotAllowed.
End Stats.

(** ** The service *)
(** StatusHandler.cpp 33-74; [sha]: what gitInfoSha returns *)
Definition statusHandler (sha : str) (get : bool) : response :=
  if get then OkJson (DObj [(B "status", DStr (B "running")); (B "git_info_sha", DStr sha)]) else NotAllowed.
(** proxygen's numbers for GET and PUT do not matter; the handlers are numbered in the order of WebService.cpp 70-89 *)
Definition GET : Z := 2.
Definition PUT : Z := 8.
(** WebService::start, 70-89; [name]: the prefix of the router *)
Definition webRoutes (name : str) : outcome router :=
  let* r1 := addRoute (mkRouter name []) GET (B "/flags") 1 in
  let* r2 := addRoute r1 PUT (B "/flags") 2 in
  let* r3 := addRoute r2 GET (B "/stats") 3 in
  let* r4 := addRoute r3 GET (B "/status") 4 in
  addRoute r4 GET (B "/") 5.
