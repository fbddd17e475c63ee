(** What the commands of the full-text plugin mean: the shell's splitting into commands and words, curl's reading of its
    arguments, a reader of JSON texts, UTF-8. Written from the POSIX shell grammar, the curl manual, RFC 8259 and RFC 3629. *)
From Coq Require Import String List Permutation.
From Verif Require Import Prelude ValueBase FullTextModel.
Import ListNotations.
Local Open Scope Z_scope.
Local Open Scope list_scope.

(** * The shell *)
(** The commands of a line, each the list of its words, for the part of the language that needs no expansion: quotes,
    backslashes, blanks, `;` and newlines. None: an unclosed quote, or a character that would ask for more than splitting
    (expansions, globs, redirections, pipes, groups, comments, an assignment in front of a command). *)
Inductive shMode := ShPlain | ShSingle | ShDouble.
Definition shPush (cur : option str) (c : Z) : option str := Some (match cur with None => [c] | Some w => w ++ [c] end).
Definition shOpen (cur : option str) : option str := Some (match cur with None => [] | Some w => w end).
Definition shEndWord (cur : option str) (ws : list str) : list str := match cur with None => ws | Some w => ws ++ [w] end.
Definition shEndCmd (ws : list str) (cs : list (list str)) : list (list str) := match ws with [] => cs | _ => cs ++ [ws] end.
(** $ ` | & < > ( ) * ? [ # ~ ! { } *)
Definition shSpecial (c : Z) : bool := existsb (Z.eqb c) (B "$`|&<>()*?[#~!{}").
Fixpoint shGo (m : shMode) (cur : option str) (ws : list str) (cs : list (list str)) (s : str) : option (list (list str)) :=
  match s with
  | [] => match m with ShPlain => Some (shEndCmd (shEndWord cur ws) cs) | _ => None end
  | c :: r =>
      match m with
      | ShSingle => if c =? 39 then shGo ShPlain cur ws cs r else shGo ShSingle (shPush cur c) ws cs r
      | ShDouble =>
          if c =? 34 then shGo ShPlain cur ws cs r
          else if c =? 92 then
            match r with
            | [] => None
            | d :: r' => if (d =? 36) || (d =? 96) || (d =? 34) || (d =? 92) then shGo ShDouble (shPush cur d) ws cs r'
                         else if d =? 10 then shGo ShDouble cur ws cs r'
                         else shGo ShDouble (shPush (shPush cur 92) d) ws cs r'
            end
          else if (c =? 36) || (c =? 96) then None
          else shGo ShDouble (shPush cur c) ws cs r
      | ShPlain =>
          if c =? 39 then shGo ShSingle (shOpen cur) ws cs r
          else if c =? 34 then shGo ShDouble (shOpen cur) ws cs r
          else if c =? 92 then
            match r with
            | [] => None
            | d :: r' => if d =? 10 then shGo ShPlain cur ws cs r' else shGo ShPlain (shPush cur d) ws cs r'
            end
          else if (c =? 32) || (c =? 9) then shGo ShPlain None (shEndWord cur ws) cs r
          else if c =? 10 then shGo ShPlain None [] (shEndCmd (shEndWord cur ws) cs) r
          else if c =? 59 then match shEndWord cur ws with [] => None | ws' => shGo ShPlain None [] (shEndCmd ws' cs) r end
          else if shSpecial c || ((c =? 61) && (List.length ws =? 0)%nat) then None
          else shGo ShPlain (shPush cur c) ws cs r
      end
  end.
(** The shell gets a C string. *)
Definition shell (cmd : str) : option (list (list str)) := shGo ShPlain None [] [] (cstr cmd).

(** * curl *)
Record httpRequest := mkRequest {
  rqMethod : str;
  rqUrl : str;
  rqUser : option str;            (* user or user:password *)
  rqHeaders : list str;
  rqData : option str
}.
Definition startsWith (p s : str) : bool := strEqb p (firstn (List.length p) s).
(** The arguments curl is given here: -H header, -u user, -d data, -Xmethod, -ddata, and one URL. Data that begins with `@`
    would name a file: not read here (None). *)
Fixpoint curlGo (ws : list str) (meth url user : option str) (hs : list str) (data : option str) : option httpRequest :=
  let setData d r := if startsWith (B "@") d then None else match data with Some _ => None | None => curlGo r meth url user hs (Some d) end in
  match ws with
  | [] => match meth, url with Some m, Some u => Some (mkRequest m u user hs data) | _, _ => None end
  | w :: r =>
      if strEqb w (B "-H") then match r with [] => None | h :: r' => curlGo r' meth url user (hs ++ [h]) data end
      else if strEqb w (B "-u") then match r with [] => None | u :: r' => match user with Some _ => None | None => curlGo r' meth url (Some u) hs data end end
      else if strEqb w (B "-d") then match r with [] => None | d :: r' =>
        if startsWith (B "@") d then None else match data with Some _ => None | None => curlGo r' meth url user hs (Some d) end end
      else if startsWith (B "-X") w then match meth with Some _ => None | None => curlGo r (Some (skipn 2 w)) url user hs data end
      else if startsWith (B "-d") w then setData (skipn 2 w) r
      else if startsWith (B "-") w then None
      else match url with Some _ => None | None => curlGo r meth (Some w) user hs data end
  end.
Definition curl (ws : list str) : option httpRequest :=
  match ws with p :: r => if strEqb p (B "/usr/bin/curl") then curlGo r None None None [] None else None | [] => None end.
(** The line runs one command, curl, with this request. *)
Definition requests (cmd : str) (rq : httpRequest) : Prop := exists ws, shell cmd = Some [ws] /\ curl ws = Some rq.

(** * JSON *)
(** A reader of JSON texts without blanks; escapes above U+007F are not read. *)
Definition hexVal (c : Z) : option Z :=
  if (48 <=? c) && (c <=? 57) then Some (c - 48) else if (97 <=? c) && (c <=? 102) then Some (c - 87)
  else if (65 <=? c) && (c <=? 70) then Some (c - 55) else None.
Definition escaped (c : Z) : option Z :=
  if (c =? 34) || (c =? 92) || (c =? 47) then Some c else if c =? 98 then Some 8 else if c =? 102 then Some 12
  else if c =? 110 then Some 10 else if c =? 114 then Some 13 else if c =? 116 then Some 9 else None.
Fixpoint readStr (s : str) : option (str * str) :=
  match s with
  | [] => None
  | c :: r =>
      if c =? 34 then Some ([], r)
      else if c =? 92 then
        match r with
        | 117 :: a :: b :: x :: y :: r' =>
            match hexVal a, hexVal b, hexVal x, hexVal y with
            | Some 0, Some 0, Some h, Some l =>
                if h <? 8 then match readStr r' with Some (t, q) => Some (h * 16 + l :: t, q) | None => None end else None
            | _, _, _, _ => None
            end
        | d :: r' => match escaped d with
                     | Some e => match readStr r' with Some (t, q) => Some (e :: t, q) | None => None end
                     | None => None
                     end
        | [] => None
        end
      else if c <? 32 then None
      else match readStr r with Some (t, q) => Some (c :: t, q) | None => None end
  end.
Definition digit (c : Z) : bool := (48 <=? c) && (c <=? 57).
Fixpoint readDigits (s : str) (acc : Z) : Z * str :=
  match s with c :: r => if digit c then readDigits r (acc * 10 + (c - 48)) else (acc, s) | [] => (acc, []) end.
Definition readNat (s : str) : option (Z * str) :=
  match s with c :: _ => if digit c then Some (readDigits s 0) else None | [] => None end.
Fixpoint readElems {A} (read : str -> option (A * str)) (close : Z) (n : nat) (s : str) : option (list A * str) :=
  match n with
  | O => None
  | S n' =>
      match read s with
      | Some (j, c :: r) =>
          if c =? 44 then match readElems read close n' r with Some (l, q) => Some (j :: l, q) | None => None end
          else if c =? close then Some ([j], r) else None
      | _ => None
      end
  end.
Definition readMember (read : str -> option (json * str)) (s : str) : option ((str * json) * str) :=
  match s with
  | 34 :: r => match readStr r with
               | Some (k, 58 :: r') => match read r' with Some (j, q) => Some ((k, j), q) | None => None end
               | _ => None
               end
  | _ => None
  end.
Fixpoint readValue (f : nat) (s : str) : option (json * str) :=
  match f with
  | O => None
  | S f' =>
      match s with
      | [] => None
      | c :: r =>
          if c =? 34 then match readStr r with Some (t, q) => Some (JStr t, q) | None => None end
          else if c =? 91 then
            match r with
            | 93 :: q => Some (JArr [], q)
            | _ => match readElems (readValue f') 93 f' r with Some (l, q) => Some (JArr l, q) | None => None end
            end
          else if c =? 123 then
            match r with
            | 125 :: q => Some (JObj [], q)
            | _ => match readElems (readMember (readValue f')) 125 f' r with Some (l, q) => Some (JObj l, q) | None => None end
            end
          else if startsWith (B "null") s then Some (JNull, skipn 4 s)
          else if startsWith (B "true") s then Some (JBool true, skipn 4 s)
          else if startsWith (B "false") s then Some (JBool false, skipn 5 s)
          else if c =? 45 then match readNat r with Some (z, q) => Some (JInt (- z), q) | None => None end
          else match readNat s with Some (z, q) => Some (JInt z, q) | None => None end
      end
  end.
Definition readJson (s : str) : option json :=
  match readValue (S (List.length s)) s with Some (j, []) => Some j | _ => None end.

(** The same value: the members of an object have no order. *)
Inductive jsame : json -> json -> Prop :=
| same_refl j : jsame j j
| same_arr l l' : Forall2 jsame l l' -> jsame (JArr l) (JArr l')
| same_obj m m' m'' : Permutation m m' -> Forall2 (fun p q => fst p = fst q /\ jsame (snd p) (snd q)) m' m'' -> jsame (JObj m) (JObj m'').
(** A text that denotes the value *)
Definition denotes (s : str) (j : json) : Prop := exists j', readJson s = Some j' /\ jsame j j'.

(** Lines of newline-delimited JSON, the empty ones left out *)
Fixpoint linesGo (s cur : str) : list str :=
  match s with
  | [] => match cur with [] => [] | _ => [cur] end
  | c :: r => if c =? 10 then match cur with [] => linesGo r [] | _ => cur :: linesGo r [] end else linesGo r (cur ++ [c])
  end.
Definition ndjson (s : str) : list str := linesGo s [].

(** * UTF-8 *)
Fixpoint utf8 (s : str) : bool :=
  let cont c := (128 <=? c) && (c <? 192) in
  match s with
  | [] => true
  | a :: r =>
      if a <? 128 then utf8 r
      else match r with
           | b :: r1 =>
               if (194 <=? a) && (a <=? 223) then cont b && utf8 r1
               else match r1 with
                    | c :: r2 =>
                        if (224 <=? a) && (a <=? 239) then cont b && cont c && ((225 <=? a) || (160 <=? b)) && negb ((a =? 237) && (160 <=? b)) && utf8 r2
                        else match r2 with
                             | d :: r3 => (240 <=? a) && (a <=? 244) && cont b && cont c && cont d
                                          && ((241 <=? a) || (144 <=? b)) && ((a <? 244) || (b <? 144)) && utf8 r3
                             | [] => false
                             end
                    | [] => false
                    end
           | [] => false
           end
  end.

(** * What the commands ask for *)
Definition isByte (c : Z) : Prop := 0 <= c < 256.
Definition isHex (c : Z) : Prop := 48 <= c <= 57 \/ 97 <= c <= 102.
(** MD5 is written as 32 hexadecimal digits; the hash map yields every member once. *)
Definition worldOk (W : ftWorld) : Prop :=
  (forall s, List.length (wMd5 W s) = 32%nat /\ Forall isHex (wMd5 W s)) /\ (forall m, Permutation m (wOrder W m)).
(** Characters that stand for themselves outside quotes: letters, digits and _ - . / : , @ % + *)
Definition shLiteral (c : Z) : bool :=
  ((48 <=? c) && (c <=? 57)) || ((65 <=? c) && (c <=? 90)) || ((97 <=? c) && (c <=? 122)) || existsb (Z.eqb c) (B "_-./:,@%+").
(** Bytes that stand for themselves between double quotes: all but NUL, the double quote, $, ` and the backslash *)
Definition dqLiteral (c : Z) : bool := negb (existsb (Z.eqb c) [0; 34; 36; 92; 96]).
Definition plainClient (c : httpClient) : Prop :=
  forallb shLiteral (hcUser c) = true /\ forallb shLiteral (hcPassword c) = true /\ forallb dqLiteral (NetModel.haHost (hcHost c)) = true.
Definition credentials (c : httpClient) : option str :=
  match hcUser c, hcPassword c with [], _ => None | u, [] => Some u | u, p => Some (u ++ B ":" ++ p) end.
Definition serverUrl (c : httpClient) (path : str) : str :=
  B "http://" ++ NetModel.haHost (hcHost c) ++ B ":" ++ decZ (NetModel.haPort (hcHost c)) ++ B "/" ++ path.
Definition jsonHeader : str := B "Content-Type: application/json; charset=utf-8".
Definition ndjsonHeader : str := B "Content-Type: application/x-ndjson; charset=utf-8".
Section JsonAll.
  Variable Q : Z -> Prop.
  Fixpoint jsonAll (j : json) : Prop :=
    match j with
    | JStr s => Forall Q s
    | JArr l => (fix all l := match l with [] => True | x :: l' => jsonAll x /\ all l' end) l
    | JObj m => (fix all m := match m with [] => True | (k, x) :: m' => Forall Q k /\ jsonAll x /\ all m' end) m
    | _ => True
    end.
End JsonAll.
(** Every string in it consists of bytes. *)
Definition jsonBytes (j : json) : Prop := jsonAll isByte j.
(** The query of a search: both conditions must hold, at most [n] rows from the first *)
Definition queryOf (columnId : str) (n : Z) (cond : json) : json :=
  JObj [(B "from", JInt 0); (B "size", JInt n); (B "_source", JStr (B "value"));
        (B "query", JObj [(B "bool", JObj [(B "must", JArr [JObj [(B "term", JObj [(B "column_id", JStr columnId)])]; cond])])])].
Definition conditionOf (o : searchOp) (v : str) : json :=
  match o with
  | OpPrefix => JObj [(B "prefix", JObj [(B "value", JStr v)])]
  | OpWildcard => JObj [(B "wildcard", JObj [(B "value", JStr v)])]
  | OpRegexp => JObj [(B "regexp", JObj [(B "value", JStr v)])]
  | OpFuzzy f op => JObj [(B "match", JObj [(B "value", JObj [(B "operator", JStr op); (B "fuzziness", f); (B "query", JStr v)])])]
  end.
Definition opBytes (o : searchOp) : Prop := match o with OpFuzzy f op => jsonBytes f /\ Forall isByte op | _ => True end.
(** The document kept for a value: its column and the first 256 bytes *)
Definition documentOf (columnId v : str) : json := JObj [(B "column_id", JStr columnId); (B "value", JStr (firstn 256 v))].

(** * What the answers mean *)
(** the member of an object at the end of a path *)
Inductive at_path : list str -> json -> json -> Prop :=
| at_here j : at_path [] j j
| at_member k path m j j' : In (k, j) m -> at_path path j j' -> at_path (k :: path) (JObj m) j'.
(** JSON objects as folly::dynamic holds them: every key once *)
Fixpoint uniqueKeys (j : json) : Prop :=
  match j with
  | JArr l => (fix all l := match l with [] => True | x :: l' => uniqueKeys x /\ all l' end) l
  | JObj m => NoDup (map fst m) /\ (fix all m := match m with [] => True | (_, x) :: m' => uniqueKeys x /\ all m' end) m
  | _ => True
  end.
(** The value a hit carries, if any *)
Definition carries (hit : json) (v : str) : Prop := at_path [B "_source"; B "value"] hit (JStr v).
(** A hit of a search answer: an object; its _source, if there, an object; the value in it, if there, a string *)
Definition goodHit (hit : json) : Prop :=
  (exists m, hit = JObj m) /\
  (forall s, at_path [B "_source"] hit s -> exists m, s = JObj m) /\
  (forall v, at_path [B "_source"; B "value"] hit v -> exists t, v = JStr t).
(** the values carried by a list of hits, in order *)
Inductive hitValues : list json -> list str -> Prop :=
| hv_nil : hitValues [] []
| hv_some h v l vs : carries h v -> hitValues l vs -> hitValues (h :: l) (v :: vs)
| hv_none h l vs : (forall v, ~ carries h v) -> hitValues l vs -> hitValues (h :: l) vs.

(** The shell and curl do what the command says: a line that is one curl request yields what the server answers to it. *)
Definition faithful (run : str -> option str) (srv : httpRequest -> option str) : Prop :=
  forall cmd rq, requests cmd rq -> run (cstr cmd) = srv rq.
