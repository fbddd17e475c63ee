(** Model of src/common/stats/StatsManager.cpp: registration of counters, adding values, metric names. *)
From Coq Require Import String List.
From Verif Require Import Prelude Trans ValueBase ValueModel EvalModel FuncModel.
Import ListNotations.
Open Scope Z_scope.

Inductive statsMethod := MSum | MCount | MAvg | MRate.
Inductive timeRange := R5 | R60 | R600 | R3600.

(** StatsManager::CounterInfo, StatsManager.h:178-190 *)
Record counterInfo := mkInfo { ciId : Z; ciMethods : list statsMethod; ciPcts : list (str * f64) }.
(** The manager, StatsManager.h:196-217. A series or histogram is the list of the values added to it, oldest
    first: the bucketing, the time levels and the expiry done by folly's MultiLevelTimeSeries and
    TimeseriesHistogram are not modelled, nor are the mutexes (registration is documented as not thread safe;
    each addValue runs under the lock of its counter). *)
Record statsMgr := mkMgr { nameMap : list (str * counterInfo); series : list (list Z); histos : list (Z * Z * Z * list Z) }.
Definition mgrInit : statsMgr := mkMgr [] [] [].

Fixpoint findName {A} (n : str) (l : list (str * A)) : option A :=
  match l with [] => None | (m, i) :: l' => if strEqb n m then Some i else findName n l' end.
Fixpoint setName {A} (n : str) (i : A) (l : list (str * A)) : list (str * A) :=
  match l with [] => [] | (m, j) :: l' => if strEqb n m then (m, i) :: l' else (m, j) :: setName n i l' end.

Section Pct.
(** folly::to<double>(StringPiece), or an exception *)
Context (toDouble : str -> option f64).

(** StatsManager::strToPct, StatsManager.cpp:186-203 *)
Definition dividors : list Z := [1; 1; 10; 100; 1000; 10000].
Definition strToPct (part : str) : option f64 :=
  let len := List.length (tl part) in
  if (0 <? len)%nat && (len <=? 6)%nat then
    match toDouble (tl part) with
    | Some d => Some (f64div d (f64ofZ (nth (len - 1) dividors 1)))
    | None => None
    end
  else None.

(** folly::split(..., ignoreEmpty = true) *)
Definition splitNonEmpty (d s : str) : list str := filter (fun p => negb (strEqb p [])) (follySplit d s).
(** folly::trimWhitespace: space, \n, \t, \r *)
Definition isWs (c : Z) : bool := (c =? 32) || (c =? 10) || (c =? 9) || (c =? 13).
Fixpoint dropWs (s : str) : str := match s with c :: s' => if isWs c then dropWs s' else s | [] => [] end.
Definition trimWs (s : str) : str := rev (dropWs (rev (dropWs s))).

Definition methodOf (p : str) : option statsMethod :=
  if strEqb p (B "sum") then Some MSum else if strEqb p (B "count") then Some MCount
  else if strEqb p (B "avg") then Some MAvg else if strEqb p (B "rate") then Some MRate else None.
Definition startsP (p : str) : bool := match p with 112 :: _ => true | _ => false end.
(** StatsManager::parseStats, 36-66 *)
Fixpoint parseParts (parts : list str) : list statsMethod * list (str * f64) :=
  match parts with
  | [] => ([], [])
  | p :: parts' =>
      let (ms, ps) := parseParts parts' in
      let t := lower (trimWs p) in
      match methodOf t with
      | Some m => (m :: ms, ps)
      | None => if startsP t then match strToPct t with Some d => (ms, (t, d) :: ps) | None => (ms, ps) end else (ms, ps)
      end
  end.
Definition parseStats (stats : str) : list statsMethod * list (str * f64) := parseParts (splitNonEmpty (B ",") stats).

Section Debug.
(** whether DCHECK is compiled in *)
Context (debug : bool).

(** StatsManager::registerStats, 70-109. Returns the id. *)
Definition registerStats (s : statsMgr) (name stats : str) : outcome (statsMgr * Z) :=
  let (ms, _) := parseStats stats in
  match findName name (nameMap s) with
  | Some i =>
      if debug && negb (0 <? ciId i) then Fatal
      else Ret (mkMgr (setName name (mkInfo (ciId i) ms (ciPcts i)) (nameMap s)) (series s) (histos s), ciId i)
  | None =>
      let ss := series s ++ [[]] in
      let index := wrap32 (Z.of_nat (List.length ss)) in
      Ret (mkMgr (nameMap s ++ [(name, mkInfo index ms [])]) ss (histos s), index)
  end.

(** StatsManager::registerHisto, 113-158. The checks made by folly's Histogram constructor (positive bucket
    size, min < max) are not modelled. *)
Definition registerHisto (s : statsMgr) (name : str) (bucket mn mx : Z) (stats : str) : outcome (statsMgr * Z) :=
  let (ms, ps) := parseStats stats in
  match findName name (nameMap s) with
  | Some i =>
      if debug && negb (ciId i <? 0) then Fatal
      else Ret (mkMgr (setName name (mkInfo (ciId i) ms ps) (nameMap s)) (series s) (histos s), ciId i)
  | None =>
      let hs := histos s ++ [(bucket, mn, mx, [])] in
      let index := wrap32 (u64 (- Z.of_nat (List.length hs))) in
      Ret (mkMgr (nameMap s ++ [(name, mkInfo index ms ps)]) (series s) hs, index)
  end.

(** StatsManager::addValue, 162-182. An index out of range aborts with DCHECK and is undefined without. *)
Definition addValue (s : statsMgr) (id v : Z) : outcome statsMgr :=
  if 0 <? id then
    match nth_error (series s) (Z.to_nat (id - 1)) with
    | Some l => Ret (mkMgr (nameMap s) (supd (Z.to_nat (id - 1)) (l ++ [v]) (series s)) (histos s))
    | None => if debug then Fatal else UB
    end
  else if id <? 0 then
    match nth_error (histos s) (Z.to_nat (- (id + 1))) with
    | Some (p, l) => Ret (mkMgr (nameMap s) (series s) (supd (Z.to_nat (- (id + 1))) (p, l ++ [v]) (histos s)))
    | None => if debug then Fatal else UB
    end
  else Fatal.

(** The counter that readStats(const CounterId&, ...), 347-372, and readHisto(const CounterId&, ...), 400-419,
    evaluate. *)
Definition readById (s : statsMgr) (id : Z) : option (list Z) :=
  if 0 <? id then nth_error (series s) (Z.to_nat (id - 1))
  else if id <? 0 then match nth_error (histos s) (Z.to_nat (- (id + 1))) with Some (_, l) => Some l | None => None end
  else None.
(** readStats(const std::string&, ...), 376-396: the counter looked up by name *)
Definition readByName (s : statsMgr) (name : str) : option (list Z) :=
  match findName name (nameMap s) with Some i => readById s (ciId i) | None => None end.

(** Histories. *)
Inductive statsOp :=
| RegS (name stats : str)
| RegH (name : str) (bucket mn mx : Z) (stats : str)
| Add (id v : Z).
(** One call, and the id returned when it is a registration. *)
Definition statsStep (s : statsMgr) (o : statsOp) : outcome (statsMgr * option Z) :=
  match o with
  | RegS n st => let* (s', i) := registerStats s n st in Ret (s', Some i)
  | RegH n b mn mx st => let* (s', i) := registerHisto s n b mn mx st in Ret (s', Some i)
  | Add id v => let* s' := addValue s id v in Ret (s', None)
  end.
Fixpoint statsRun (s : statsMgr) (ops : list statsOp) : outcome (statsMgr * list (option Z)) :=
  match ops with
  | [] => Ret (s, [])
  | o :: ops' =>
      let* (s1, r) := statsStep s o in
      let* (s2, rs) := statsRun s1 ops' in
      Ret (s2, r :: rs)
  end.
End Debug.

(** * Metric names *)
Inductive query := QMethod (m : statsMethod) | QPct (p : f64).

Definition rangeOf (p : str) : option timeRange :=
  if strEqb p (B "5") then Some R5 else if strEqb p (B "60") then Some R60
  else if strEqb p (B "600") then Some R600 else if strEqb p (B "3600") then Some R3600 else None.
(** StatsManager::readValue(metricName), 207-256: what it goes on to read; [None] is an error status. *)
Definition parseMetric (metric : str) : option (str * timeRange * query) :=
  match splitNonEmpty (B ".") metric with
  | [name; what; rng] =>
      match rangeOf rng with
      | None => None
      | Some r =>
          let w := lower what in
          match methodOf w with
          | Some m => Some (name, r, QMethod m)
          | None => if startsP w then match strToPct w with Some d => Some (name, r, QPct d) | None => None end else None
          end
      end
  | _ => None
  end.

Definition methodName (m : statsMethod) : str :=
  match m with MSum => B "sum" | MCount => B "count" | MAvg => B "avg" | MRate => B "rate" end.
Definition rangeName (r : timeRange) : str := match r with R5 => B "5" | R60 => B "60" | R600 => B "600" | R3600 => B "3600" end.
Definition allRanges := [R5; R60; R600; R3600].
Definition metricName (name what : str) (r : timeRange) : str := name ++ B "." ++ what ++ B "." ++ rangeName r.
(** StatsManager::readAllValue, 260-342: the names it reports for one counter with what each value is read
    from, in order. *)
Definition published (name : str) (i : counterInfo) : list (str * (timeRange * query)) :=
  flat_map (fun m => map (fun r => (metricName name (methodName m) r, (r, QMethod m))) allRanges) (ciMethods i) ++
  flat_map (fun p => map (fun r => (metricName name (fst p) r, (r, QPct (snd p)))) allRanges) (ciPcts i).
End Pct.
