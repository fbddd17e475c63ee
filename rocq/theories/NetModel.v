(** Model of the address functions of src/common/network/NetworkUtils.cpp. *)
From Coq Require Import String List.
From Verif Require Import Prelude ValueBase EvalModel FuncModel StatsModel.
Import ListNotations.
Open Scope Z_scope.

(** kDict, NetworkUtils.cpp:242-273 *)
Definition kDict : list str := map B [
  "0"; "1"; "2"; "3"; "4"; "5"; "6"; "7"; "8"; "9"; "10"; "11"; "12";
  "13"; "14"; "15"; "16"; "17"; "18"; "19"; "20"; "21"; "22"; "23"; "24"; "25"; "26"; "27"; "28";
  "29"; "30"; "31"; "32"; "33"; "34"; "35"; "36"; "37"; "38"; "39"; "40"; "41"; "42"; "43"; "44";
  "45"; "46"; "47"; "48"; "49"; "50"; "51"; "52"; "53"; "54"; "55"; "56"; "57"; "58"; "59"; "60";
  "61"; "62"; "63"; "64"; "65"; "66"; "67"; "68"; "69"; "70"; "71"; "72"; "73"; "74"; "75"; "76";
  "77"; "78"; "79"; "80"; "81"; "82"; "83"; "84"; "85"; "86"; "87"; "88"; "89"; "90"; "91"; "92";
  "93"; "94"; "95"; "96"; "97"; "98"; "99"; "100"; "101"; "102"; "103"; "104"; "105"; "106"; "107"; "108";
  "109"; "110"; "111"; "112"; "113"; "114"; "115"; "116"; "117"; "118"; "119"; "120"; "121"; "122"; "123"; "124";
  "125"; "126"; "127"; "128"; "129"; "130"; "131"; "132"; "133"; "134"; "135"; "136"; "137"; "138"; "139"; "140";
  "141"; "142"; "143"; "144"; "145"; "146"; "147"; "148"; "149"; "150"; "151"; "152"; "153"; "154"; "155"; "156";
  "157"; "158"; "159"; "160"; "161"; "162"; "163"; "164"; "165"; "166"; "167"; "168"; "169"; "170"; "171"; "172";
  "173"; "174"; "175"; "176"; "177"; "178"; "179"; "180"; "181"; "182"; "183"; "184"; "185"; "186"; "187"; "188";
  "189"; "190"; "191"; "192"; "193"; "194"; "195"; "196"; "197"; "198"; "199"; "200"; "201"; "202"; "203"; "204";
  "205"; "206"; "207"; "208"; "209"; "210"; "211"; "212"; "213"; "214"; "215"; "216"; "217"; "218"; "219"; "220";
  "221"; "222"; "223"; "224"; "225"; "226"; "227"; "228"; "229"; "230"; "231"; "232"; "233"; "234"; "235"; "236";
  "237"; "238"; "239"; "240"; "241"; "242"; "243"; "244"; "245"; "246"; "247"; "248"; "249"; "250"; "251"; "252";
  "253"; "254"; "255"
]%string.

(** char buf[16]; a cell not yet written is None *)
Definition buf16 := list (option Z).
Fixpoint put (b : buf16) (i : nat) (c : Z) : outcome buf16 :=
  match b, i with
  | [], _ => UB
  | _ :: b', O => Ret (Some c :: b')
  | x :: b', S j => let* b'' := put b' j c in Ret (x :: b'')
  end.
(** strcpy(pt, s.c_str()), the terminating NUL included *)
Fixpoint strcpyAt (b : buf16) (i : nat) (s : str) : outcome buf16 :=
  match s with
  | [] => put b i 0
  | c :: s' => let* b' := put b i c in strcpyAt b' (S i) s'
  end.
(** std::string(buf): up to the first NUL; reading a cell that was not written, or past the end, is undefined *)
Fixpoint readBuf (b : buf16) : outcome str :=
  match b with
  | Some 0 :: _ => Ret []
  | Some c :: b' => let* s := readBuf b' in Ret (c :: s)
  | _ => UB
  end.
Definition dict (i : Z) : outcome str := match nth_error kDict (Z.to_nat i) with Some s => Ret s | None => UB end.

(** NetworkUtils::intToIPv4, 241-289; [ip] is a uint32_t *)
Definition intToIPv4 (ip : Z) : outcome str :=
  let* f1 := dict (Z.land ip 255) in
  let* f2 := dict (Z.land (Z.shiftr ip 8) 255) in
  let* f3 := dict (Z.land (Z.shiftr ip 16) 255) in
  let* f4 := dict (Z.land (Z.shiftr ip 24) 255) in
  let b0 := repeat None 16 in
  let* b1 := strcpyAt b0 0 f4 in
  let p1 := List.length f4 in
  let* b2 := put b1 p1 46 in
  let* b3 := strcpyAt b2 (S p1) f3 in
  let p2 := (S p1 + List.length f3)%nat in
  let* b4 := put b3 p2 46 in
  let* b5 := strcpyAt b4 (S p2) f2 in
  let p3 := (S p2 + List.length f2)%nat in
  let* b6 := put b5 p3 46 in
  let* b7 := strcpyAt b6 (S p3) f1 in
  readBuf b7.

(** HostAddr, datatypes/HostAddr.h:18-20 *)
Record hostAddr := mkHost { haHost : str; haPort : Z }.

(** piece.find(':') as the parts before and behind *)
Fixpoint splitFirst (c : Z) (s : str) : option (str * str) :=
  match s with
  | [] => None
  | x :: s' => if x =? c then Some ([], s') else match splitFirst c s' with Some (a, b) => Some (x :: a, b) | None => None end
  end.
(** folly::to<int32_t>(StringPiece): blanks (isspace), an optional sign, decimal digits, blanks; throws otherwise
    and when the number does not fit *)
Definition isSpace (c : Z) : bool := (c =? 32) || ((9 <=? c) && (c <=? 13)).
Fixpoint dropSpace (s : str) : str := match s with c :: s' => if isSpace c then dropSpace s' else s | [] => [] end.
Definition takeSign (s : str) : bool * str := match s with 45 :: r => (true, r) | 43 :: r => (false, r) | _ => (false, s) end.
Definition toInt32 (s : str) : option Z :=
  let (neg, s2) := takeSign (dropSpace s) in
  let '(n, z) := digits s2 0 in
  let v := if neg then - z else z in
  if (0 <? n)%nat && forallb isSpace (skipn n s2) && in_int32 v then Some v else None.

(** NetworkUtils::toHosts, 292-315; an error is None *)
Fixpoint toHostsLoop (peers : list str) : option (list hostAddr) :=
  match peers with
  | [] => Some []
  | p :: peers' =>
      match splitFirst 58 (trimWs p) with
      | None => None
      | Some (h, pt) =>
          match toInt32 pt with
          | None => None
          | Some port => match toHostsLoop peers' with Some l => Some (mkHost h port :: l) | None => None end
          end
      end
  end.
Definition toHosts (s : str) : option (list hostAddr) := toHostsLoop (splitNonEmpty (B ",") s).

(** NetworkUtils::toHostsStr, 318-327 *)
Definition hostText (h : hostAddr) : str := cstr (haHost h) ++ [58] ++ decZ (haPort h).
Definition toHostsStr (hosts : list hostAddr) : str :=
  fold_left (fun s h => (if (List.length s =? 0)%nat then s else s ++ B ", ") ++ hostText h) hosts [].
