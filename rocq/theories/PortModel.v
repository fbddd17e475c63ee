(** Model of NetworkUtils.cpp 34-86 (network devices), 89-170 (ports) and 173-238 (a free port; host names).
    The operating system (getifaddrs, popen, getaddrinfo, the files below /proc/net) and the random generator are parameters.  Texts of errors are left out. *)
From Coq Require Import String.
From Coq Require Import List.
From Verif Require Import Prelude ValueBase EvalModel NetModel AssocModel ProcModel.
Import ListNotations.
Open Scope Z_scope.

(** * Ports *)
(** the value of hexadecimal digits 0-9A-F *)
Definition hexDigit (c : Z) : option Z :=
  if (48 <=? c) && (c <=? 57) then Some (c - 48) else if (65 <=? c) && (c <=? 70) then Some (c - 55) else None.
Fixpoint hexRun (s : str) : str := match s with c :: r => match hexDigit c with Some _ => c :: hexRun r | None => [] end | [] => [] end.
(** ([0-9A-F]+).+ : the longest run of digits behind which is a character that the dot matches (all but LF and CR) *)
Definition hexGroup (s : str) : option str :=
  let g := hexRun s in
  let full := match skipn (List.length g) s with c :: _ => negb ((c =? 10) || (c =? 13)) | [] => false end in
  let h := if full then g else removelast g in
  match h with [] => None | _ => Some h end.
(** [^:]+:[^:]+:([0-9A-F]+).+ from the beginning of the text, 118 *)
Definition portHere (s : str) : option str :=
  match splitFirst 58 s with
  | Some (_ :: _, r) => match splitFirst 58 r with Some (_ :: _, r') => hexGroup r' | _ => None end
  | _ => None
  end.
(** regex_search: from the first position where it matches *)
Fixpoint portPat (s : str) : option str :=
  match portHere s with
  | Some g => Some g
  | None => match s with [] => None | _ :: t => portPat t end
  end.
(** std::stoul(s, NULL, 16); out_of_range, which leaves the function, is Fatal *)
Definition hexValue (s : str) : Z := fold_left (fun a c => 16 * a + match hexDigit c with Some d => d | None => 0 end) s 0.
Definition stoul16 (s : str) : outcome Z := if hexValue s <? 18446744073709551616 then Ret (hexValue s) else Fatal.
Fixpoint portsIn (l : list (str * str)) : outcome (list Z) :=
  match l with [] => Ret [] | (_, g) :: t => let* v := stoul16 g in let* r := portsIn t in Ret (u16 v :: r) end.
(** getPortsInUse, 117-170; the set as the list of its insertions *)
Definition procFiles : list str := map B ["/proc/net/tcp"; "/proc/net/tcp6"; "/proc/net/udp"; "/proc/net/udp6"; "/proc/net/raw"; "/proc/net/raw6"]%string.
Fixpoint portsOfFiles (fs : fsys) (fuel : nat) (paths : list str) : outcome (list Z) :=
  match paths with
  | [] => Ret []
  | p :: t => let* l := entriesOf fs (Some portPat) fuel p in let* a := portsIn l in let* b := portsOfFiles fs fuel t in Ret (a ++ b)
  end.
Definition getPortsInUse (fs : fsys) (fuel : nat) : outcome (list Z) := portsOfFiles fs fuel procFiles.

(** %hu of fscanf: blanks, a sign, decimal digits; glibc reads an unsigned long (the greatest one if it does not fit) and keeps the low 16 bits *)
Definition scanHu (s : str) : option (Z * str) :=
  let s1 := dropSpace s in
  let (neg, s2) := takeSign s1 in
  let '(n, z) := digits s2 0 in
  match n with
  | O => None
  | _ => let v := if 18446744073709551615 <? z then 18446744073709551615 else if neg then - z else z in Some (u16 v, skipn n s2)
  end.
(** getDynamicPortRange, 89-114: [out] is the output of the command, None if popen fails; [closed]: pclose succeeds *)
Definition getDynamicPortRange (out : option str) (closed : bool) : option (Z * Z) :=
  match out with
  | None => None
  | Some s =>
      let r := match scanHu s with
               | Some (a, s1) => match scanHu s1 with Some (b, _) => (a, b) | None => (49152, 65535) end
               | None => (49152, 65535)
               end in
      if closed then Some r else None
  end.
(** folly::Random::rand32(min, max), which is 0 if both are equal and else hands [min, max - 1] to uniform_int_distribution, undefined if that is empty; [w] is the random word *)
Definition rand32Between (lo hi w : Z) : outcome Z := if lo =? hi then Ret 0 else if lo <? hi then Ret (lo + w mod (hi - lo)) else UB.
(** the loop of getAvailablePort, 182-194; [draw n] is the n-th random word *)
Fixpoint availLoop (fuel : nat) (draw : nat -> Z) (low : Z) (used : list Z) (n : nat) : outcome Z :=
  match fuel with
  | O => Diverge
  | S f =>
      let* w := rand32Between 1025 low (draw n) in
      let port := u16 w in
      if existsb (Z.eqb port) used then availLoop f draw low used (S n)
      else if existsb (Z.eqb (u16 (port + 1))) used then availLoop f draw low used (S n)
      else Ret port
  end.
(** getAvailablePort, 173-197 *)
Definition getAvailablePort (fs : fsys) (lines : nat) (out : option str) (closed : bool) (draw : nat -> Z) (fuel : nat) : outcome Z :=
  match getDynamicPortRange out closed with
  | None => Fatal
  | Some (low, _) => let* used := getPortsInUse fs lines in availLoop fuel draw low used 0
  end.

(** * Devices and host names *)
(** a socket address: of IPv4 with its four bytes in memory, or another *)
Inductive sockAddr := In4 (b0 b1 b2 b3 : Z) | OtherFamily.
(** inet_ntoa *)
Definition inetNtoa (b0 b1 b2 b3 : Z) : str := decZ b0 ++ [46] ++ decZ b1 ++ [46] ++ decZ b2 ++ [46] ++ decZ b3.
(** the loop of listDeviceAndIPv4s, 71-80; a device may have no address (getifaddrs(3)): ifa_addr is then a null pointer *)
Fixpoint devLoop (l : list (str * option sockAddr)) (m : list (str * str)) : outcome (list (str * str)) :=
  match l with
  | [] => Ret m
  | (_, None) :: _ => UB
  | (_, Some OtherFamily) :: t => devLoop t m
  | (name, Some (In4 a b c d)) :: t => devLoop t (aset strEqb name (inetNtoa a b c d) m)
  end.
(** listDeviceAndIPv4s, 65-86; an error is None *)
Definition listDeviceAndIPv4s (ifs : option (list (str * option sockAddr))) : outcome (option (list (str * str))) :=
  match ifs with
  | None => Ret None
  | Some l => let* m := devLoop l [] in Ret (match m with [] => None | _ => Some m end)
  end.
(** getIPv4FromDevice, 34-47 *)
Definition getIPv4FromDevice (ifs : option (list (str * option sockAddr))) (device : str) : outcome (option str) :=
  if strEqb device (B "any") then Ret (Some (B "0.0.0.0"))
  else let* r := listDeviceAndIPv4s ifs in Ret (match r with None => None | Some m => aget strEqb device m end).
(** listIPv4s, 50-62 *)
Definition listIPv4s (ifs : option (list (str * option sockAddr))) : outcome (option (list str)) :=
  let* r := listDeviceAndIPv4s ifs in Ret (option_map (map snd) r).

(** s_addr as a uint32_t of a little-endian machine, and htonl there *)
Definition sAddr (b0 b1 b2 b3 : Z) : Z := b0 + 256 * b1 + 65536 * b2 + 16777216 * b3.
Definition htonl (x : Z) : Z := (x mod 256) * 16777216 + (x / 256 mod 256) * 65536 + (x / 65536 mod 256) * 256 + x / 16777216 mod 256.
(** the loop of resolveHost, 214-229 *)
Fixpoint resolveLoop (l : list sockAddr) (port : Z) : outcome (list hostAddr) :=
  match l with
  | [] => Ret []
  | OtherFamily :: t => resolveLoop t port
  | In4 a b c d :: t => let* s := intToIPv4 (htonl (sAddr a b c d)) in let* r := resolveLoop t port in Ret (mkHost s port :: r)
  end.
(** resolveHost, 200-238: [found] is what getaddrinfo answers *)
Definition resolveHost (found : option (list sockAddr)) (port : Z) : outcome (option (list hostAddr)) :=
  match found with
  | None => Ret None
  | Some l => let* r := resolveLoop l port in Ret (match r with [] => None | _ => Some r end)
  end.
