(** Character sets, /repo/src/common/charset/Charset.h and Charset.cpp, and the global time zone, /repo/src/common/time/TimezoneInfo.h
    and TimezoneInfo.cpp. Texts of statuses are left out: an error is None or false. *)
From Coq Require Import String List.
From Verif Require Import Prelude ValueBase AssocModel.
Import ListNotations.
Local Open Scope Z_scope.
Local Open Scope list_scope.

(** ** Character sets *)
(** CharsetDesc, Charset.h 16-27: default collation, collations and greatest length; the name is the key, the description is left out *)
Record charsetDesc := mkCD { cdDefault : str; cdColls : list str; cdMax : Z }.
(** The tables of CharsetInfo, Charset.h 69-89 *)
Definition supportCharsets : list str := [B "utf8"].
Definition supportCollations : list str := [B "utf8_bin"].
Definition charsetDescs : list (str * charsetDesc) := [(B "utf8", mkCD (B "utf8_bin") [B "utf8_bin"] 4)].
(** isSupportCharset, isSupportCollate, Charset.cpp 11-24 *)
Definition isSupportCharset (n : str) : bool := existsb (strEqb n) supportCharsets.
Definition isSupportCollate (n : str) : bool := existsb (strEqb n) supportCollations.
(** charsetAndCollateMatch, 27-39 *)
Definition charsetAndCollateMatch (cs co : str) : bool :=
  match aget strEqb cs charsetDescs with Some d => existsb (fun c => strEqb c co) (cdColls d) | None => false end.
(** getDefaultCollationbyCharset, 42-48 *)
Definition getDefaultCollation (cs : str) : option str := option_map cdDefault (aget strEqb cs charsetDescs).
(** getCharsetbyCollation, 51-60 *)
Fixpoint charsetGo (l : list (str * charsetDesc)) (co : str) : option str :=
  match l with
  | [] => None
  | (n, d) :: r => if existsb (fun c => strEqb c co) (cdColls d) then Some n else charsetGo r co
  end.
Definition getCharsetbyCollation (co : str) : option str := charsetGo charsetDescs co.

(** ** The time zone *)
(** What boost's zone object is asked for: the standard name and base_utc_offset in seconds *)
Record zone := mkZone { zName : str; zOffset : Z }.
(** What is outside: boost's reading of a POSIX zone (None: it throws), the file of regions (its rows, and whether reading it threw: rows before
    the bad one are in the table then) and the variable TZ *)
Record zoneWorld := mkZW { zwPosix : str -> option zone; zwFile : list (str * zone) * bool; zwTZ : option str }.
(** Static state: tzdb, globalTimezone.zoneInfo_ and FLAGS_timezone_name *)
Record zoneState := mkZS { zsDb : list (str * zone); zsZone : option zone; zsFlag : str }.
(** std::map::insert for each row of the file: what is there stays *)
Fixpoint addRows (rows db : list (str * zone)) : list (str * zone) :=
  match rows with [] => db | (n, z) :: r => addRows r (match aget strEqb n db with Some _ => db | None => aset strEqb n z db end) end.
(** Timezone::init, TimezoneInfo.h 29-38 *)
Definition zoneInit (W : zoneWorld) (s : zoneState) : bool * zoneState :=
  (snd (zwFile W), mkZS (addRows (fst (zwFile W)) (zsDb s)) (zsZone s) (zsFlag s)).
(** loadFromDb, 40-46: zoneInfo_ is overwritten before it is looked at *)
Definition loadFromDb (region : str) (s : zoneState) : bool * zoneState :=
  let z := aget strEqb region (zsDb s) in
  (match z with Some _ => true | None => false end, mkZS (zsDb s) z (zsFlag s)).
(** parsePosixTimezone, 49-58: the new object is built before it is stored *)
Definition parsePosix (W : zoneWorld) (text : str) (s : zoneState) : bool * zoneState :=
  match zwPosix W text with Some z => (true, mkZS (zsDb s) (Some z) (zsFlag s)) | None => (false, s) end.
(** initializeGlobalTimezone, TimezoneInfo.cpp 29-49 *)
Definition initZone (W : zoneWorld) (s : zoneState) : bool * zoneState :=
  let flag := match zsFlag s with [] => match zwTZ W with Some t => t | None => [] end | f => f end in
  let s1 := mkZS (zsDb s) (zsZone s) flag in
  match flag with
  | [] => (false, s1)
  | c :: region =>
      if c =? 58 then let '(ok, s2) := zoneInit W s1 in if ok then loadFromDb region s2 else (false, s2)
      else parsePosix W flag s1
  end.
(** utcOffsetSecs and stdZoneName, TimezoneInfo.h 60-67: DCHECK_NOTNULL does not look in a release build, a null pointer is dereferenced *)
Definition utcOffsetSecs (s : zoneState) : outcome Z := match zsZone s with Some z => Ret (zOffset z) | None => UB end.
Definition stdZoneName (s : zoneState) : outcome str := match zsZone s with Some z => Ret (zName z) | None => UB end.
