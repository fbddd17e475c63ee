(** C128: the commands that are run for HTTP requests and for HDFS. *)
From Coq Require Import String Permutation.
From Coq Require Import List.
From Verif Require Import Prelude ValueBase DecProofs NetProps FullTextModel FullTextSpec FullTextProofs ProcModel.
Import ListNotations.
Local Open Scope Z_scope.
Local Open Scope list_scope.

(** * What is read of a command's output *)
Lemma readLoop_ok b n : (0 < b)%nat -> forall fuel fail out acc, (List.length out < n)%nat -> (n <= fuel)%nat ->
  readLoop b fuel fail out acc = match fail with Some k => if Nat.leb k (List.length out) then Ret None else Ret (Some (acc ++ out)) | None => Ret (Some (acc ++ out)) end.
Proof.
  intros L0. induction n as [|n IH]; intros fuel fail out acc L F; [lia|]. destruct fuel as [|fuel]; [lia|]. cbn [readLoop]. cbv zeta.
  set (len := match fail with Some k => _ | None => _ end). destruct (Nat.eqb_spec len b) as [E | E].
  - assert (LB : (b <= List.length out)%nat) by (unfold len in E; destruct fail; lia).
    rewrite IH by (try rewrite skipn_length; lia). rewrite skipn_length. destruct fail as [k|].
    + rewrite <- app_assoc, firstn_skipn. assert ((k - len <=? List.length out - len)%nat = (k <=? List.length out)%nat) as ->; [|reflexivity].
      unfold len in *. destruct (Nat.leb_spec k (List.length out)); [apply Nat.leb_le|apply Nat.leb_gt]; lia.
    + rewrite <- app_assoc, firstn_skipn. reflexivity.
  - destruct fail as [k|].
    + destruct (Nat.leb_spec k len).
      * assert ((k <=? List.length out)%nat = true) as -> by (apply Nat.leb_le; unfold len in *; lia). reflexivity.
      * assert ((k <=? List.length out)%nat = false) as -> by (apply Nat.leb_gt; unfold len in *; lia). rewrite firstn_all2 by (unfold len in *; lia). reflexivity.
    + rewrite firstn_all2 by (unfold len in *; lia). reflexivity.
Qed.
Lemma buf_pos : (0 < 1024)%nat. Proof. apply Nat.ltb_lt. reflexivity. Qed.
(** for all outputs, whatever their length: all of it, unless reading fails before its end *)
Theorem C128_output sh cmd r fuel : sh cmd = Some r -> ~ In 0 cmd -> (List.length (rnOut r) < fuel)%nat ->
  (forall k, rnFail r = Some k -> (List.length (rnOut r) < k)%nat) -> runCommand sh fuel cmd = Ret (Some (rnOut r)).
Proof.
  intros H N F K. unfold runCommand. rewrite (NetProps.cstr_id cmd N), H. rewrite (readLoop_ok 1024 fuel buf_pos) by lia. cbn [app].
  destruct (rnFail r) as [k|]; [|reflexivity]. specialize (K k eq_refl). assert ((k <=? List.length (rnOut r))%nat = false) as -> by (apply Nat.leb_gt; lia). reflexivity.
Qed.
Theorem C128_failed_read sh cmd r fuel k : sh cmd = Some r -> ~ In 0 cmd -> (List.length (rnOut r) < fuel)%nat ->
  rnFail r = Some k -> (k <= List.length (rnOut r))%nat -> runCommand sh fuel cmd = Ret None.
Proof.
  intros H N F K L. unfold runCommand. rewrite (NetProps.cstr_id cmd N), H. rewrite (readLoop_ok 1024 fuel buf_pos) by lia. rewrite K.
  assert ((k <=? List.length (rnOut r))%nat = true) as -> by (apply Nat.leb_le; lia). reflexivity.
Qed.
(** "an OK answer means that the command succeeded" is false: a curl that could not connect gives an OK empty answer *)
Theorem C128_success_refuted : exists sh r, sh (httpGetCmd (B "http://127.0.0.1:1/") (B "-G")) = Some r /\ rnExit r = 7 /\ rnFail r = None
  /\ httpGet sh 1 (B "http://127.0.0.1:1/") (B "-G") = Ret (Some []).
Proof. exists (fun _ => Some (mkRun [] 7 None)), (mkRun [] 7 None). splits; try reflexivity. Qed.

(** * What the shell makes of the commands *)
Lemma cstr_nz s : Forall (fun c => c <> 0) s -> cstr s = s.
Proof. intros H. apply NetProps.cstr_id. intros X. rewrite Forall_forall in H. exact (H 0 X eq_refl). Qed.
Lemma sh_words l : forall x ws cs r, (forall w, In w l -> w <> [] /\ forallb shLiteral w = true) ->
  shGo ShPlain (Some x) ws cs (concat (map (fun w => 32 :: w) l) ++ 32 :: r) = shGo ShPlain None (ws ++ [x] ++ l) cs r.
Proof.
  induction l as [|w l IH]; intros x ws cs r H; cbn [map concat app]; [reflexivity|].
  destruct (H w (or_introl eq_refl)) as [N L]. cbn [shGo]. change (32 =? 39) with false. change (32 =? 34) with false. change (32 =? 92) with false. change ((32 =? 32) || (32 =? 9)) with true. cbn [shEndWord].
  rewrite <- app_assoc, sh_word by assumption. rewrite IH by (intros v V; apply H; right; exact V). rewrite <- app_assoc. reflexivity.
Qed.
Lemma join_words l : l <> [] -> 32 :: joinStr [32] l = concat (map (fun w => 32 :: w) l).
Proof.
  destruct l as [|w l]; [contradiction|]. intros _. revert w. induction l as [|v l IH]; intros w; cbn [joinStr map concat]; [rewrite app_nil_r; reflexivity|].
  cbn [joinStr map concat] in IH. rewrite <- IH. reflexivity.
Qed.
Lemma nz_join l : (forall w, In w l -> w <> [] /\ forallb shLiteral w = true) -> Forall (fun c => c <> 0) (joinStr [32] l).
Proof.
  intros H. induction l as [|w l IH]; [constructor|]. cbn [joinStr]. pose proof (nz_lit w (proj2 (H w (or_introl eq_refl)))) as Q.
  destruct l as [|v l]; [exact Q|]. apply Forall_app. split; [exact Q|]. apply Forall_app. split; [repeat constructor; lia|]. apply IH. intros u U. apply H. right. exact U.
Qed.
Lemma curl_words (front : str) (fw : list str) ws path : ws <> [] -> (forall w, In w ws -> w <> [] /\ forallb shLiteral w = true) -> forallb dqLiteral path = true ->
  Forall (fun c => c <> 0) front ->
  (forall r, exists x fw', fw = fw' ++ [x] /\ shGo ShPlain None [] [] (front ++ 32 :: r) = shGo ShPlain (Some x) fw' [] (32 :: r)) ->
  shell (front ++ B " " ++ cstr (joinStr [32] ws) ++ B " """ ++ cstr path ++ B """") = Some [fw ++ ws ++ [path]].
Proof.
  intros N H P NF FR. rewrite (cstr_nz path) by (apply nz_dq; exact P). rewrite (cstr_nz (joinStr [32] ws)) by (apply nz_join; exact H).
  rewrite shell_nz.
  2:{ repeat (apply Forall_app; split); try exact NF; try (apply nz_B; reflexivity); [apply nz_join; exact H|apply nz_dq; exact P]. }
  change (B " ") with [32]. cbn [app].
  destruct (FR (joinStr [32] ws ++ B " """ ++ path ++ B """")) as (x & fw' & -> & ->).
  replace (32 :: joinStr [32] ws ++ B " """ ++ path ++ B """") with (concat (map (fun w => 32 :: w) ws) ++ 32 :: (34 :: path ++ B """")) by (rewrite <- (join_words ws N); reflexivity).
  rewrite sh_words by exact H. change (34 :: path ++ B """") with ([34] ++ path ++ B """").
  set (y := path ++ _). change (shGo ShPlain None (fw' ++ [x] ++ ws) [] ([34] ++ y)) with (shGo ShDouble (Some []) (fw' ++ [x] ++ ws) [] y). unfold y. clear y.
  rewrite sh_double by exact P. cbn [app]. cbn. rewrite <- !app_assoc. destruct fw'; reflexivity.
Qed.
(** options and headers of plain words, and a URL without a double quote, backslash, dollar or backquote: curl gets just these *)
Theorem C128_get path ws : ws <> [] -> (forall w, In w ws -> w <> [] /\ forallb shLiteral w = true) -> forallb dqLiteral path = true ->
  shell (httpGetCmd path (joinStr [32] ws)) = Some [[B "/usr/bin/curl"] ++ ws ++ [path]].
Proof.
  intros N H P. unfold httpGetCmd. change (B "/usr/bin/curl ") with (B "/usr/bin/curl" ++ B " "). rewrite <- app_assoc.
  apply curl_words; try assumption; [apply nz_B; reflexivity|]. intros r. exists (B "/usr/bin/curl"), []. split; reflexivity.
Qed.
Theorem C128_post path ws : ws <> [] -> (forall w, In w ws -> w <> [] /\ forallb shLiteral w = true) -> forallb dqLiteral path = true ->
  shell (httpPostCmd path (joinStr [32] ws)) = Some [[B "/usr/bin/curl"; B "-X"; B "POST"] ++ ws ++ [path]].
Proof.
  intros N H P. unfold httpPostCmd. change (B "/usr/bin/curl -X POST ") with (B "/usr/bin/curl -X POST" ++ B " "). rewrite <- app_assoc.
  apply curl_words; try assumption; [apply nz_B; reflexivity|]. intros r. exists (B "POST"), [B "/usr/bin/curl"; B "-X"]. split; reflexivity.
Qed.
Theorem C128_put path ws : ws <> [] -> (forall w, In w ws -> w <> [] /\ forallb shLiteral w = true) -> forallb dqLiteral path = true ->
  shell (httpPutCmd path (joinStr [32] ws)) = Some [[B "/usr/bin/curl"; B "-X"; B "PUT"] ++ ws ++ [path]].
Proof.
  intros N H P. unfold httpPutCmd. change (B "/usr/bin/curl -X PUT ") with (B "/usr/bin/curl -X PUT" ++ B " "). rewrite <- app_assoc.
  apply curl_words; try assumption; [apply nz_B; reflexivity|]. intros r. exists (B "PUT"), [B "/usr/bin/curl"; B "-X"]. split; reflexivity.
Qed.
(** a request with JSON whose strings have no single quote: curl gets that JSON *)
Theorem C128_send W req path m : (forall m, Permutation m (wOrder W m)) -> (req = B "POST" \/ req = B "PUT") -> forallb dqLiteral path = true ->
  m <> [] -> jsonAll (fun c => isByte c /\ c <> 39) (JObj m) ->
  shell (httpSendCmd W req path (JObj m)) =
    Some [[B "curl"; B "-X"; req; B "-H"; B "Content-Type: application/json"; B "-d" ++ toJson W (JObj m); B "-s"; path]].
Proof.
  intros HW HR P N J. assert (Q : Forall (fun c => c <> 39) (toJson W (JObj m))) by (apply toJson_39; assumption).
  assert (Q0 : Forall (fun c => c <> 0) (toJson W (JObj m))).
  { eapply Forall_impl; [|apply toJson_ge; [exact HW|]]. { cbn. intros a A. lia. } eapply jsonAll_impl; [|exact J]. cbn. intros c [A _]. exact A. }
  unfold httpSendCmd. destruct m as [|m0 m]; [contradiction|]. set (j := toJson W (JObj (m0 :: m))) in *. clearbody j.
  rewrite (cstr_nz j Q0), (cstr_nz path) by (apply nz_dq; exact P).
  assert (E : cstr req = req /\ Forall (fun c => c <> 0) req) by (destruct HR as [-> | ->]; (split; [reflexivity|apply nz_B; reflexivity])). destruct E as [-> NR].
  rewrite shell_nz by (repeat (apply Forall_app; split); try exact NR; try exact Q0; try (apply nz_B; reflexivity); apply nz_dq; exact P).
  assert (T : forall x ws, shGo ShSingle (Some x) ws [] (j ++ B "' -s """ ++ path ++ B """") = Some [ws ++ [x ++ j; B "-s"; path]]).
  { intros x ws. rewrite sh_single by exact Q. set (y := path ++ B """"). change (shGo ShSingle (Some (x ++ j)) ws [] (B "' -s """ ++ y)) with (shGo ShDouble (Some []) ((ws ++ [x ++ j]) ++ [B "-s"]) [] y).
    unfold y. rewrite sh_double by exact P. cbn. rewrite <- !app_assoc. destruct ws; reflexivity. }
  set (y := j ++ _) in *. clearbody y.
  destruct HR as [-> | ->].
  - change (shGo ShPlain None [] [] (B "curl -X " ++ B "POST" ++ B " -H ""Content-Type: application/json"" -d'" ++ y))
      with (shGo ShSingle (Some (B "-d")) [B "curl"; B "-X"; B "POST"; B "-H"; B "Content-Type: application/json"] [] y). rewrite T. reflexivity.
  - change (shGo ShPlain None [] [] (B "curl -X " ++ B "PUT" ++ B " -H ""Content-Type: application/json"" -d'" ++ y))
      with (shGo ShSingle (Some (B "-d")) [B "curl"; B "-X"; B "PUT"; B "-H"; B "Content-Type: application/json"] [] y). rewrite T. reflexivity.
Qed.
Definition W0 : ftWorld := mkFtWorld (fun s => s) (fun m => m) (fun _ => None).
(** "curl gets the data" is false for data with a single quote: it is not escaped, and what follows it are commands *)
Theorem C128_send_refuted : exists W path m j, (forall m, Permutation m (wOrder W m)) /\ forallb dqLiteral path = true /\ j = toJson W (JObj m)
  /\ shell (httpSendCmd W (B "PUT") path (JObj m)) =
       Some [[B "curl"; B "-X"; B "PUT"; B "-H"; B "Content-Type: application/json"; B "-d{""a"":"""]; [B "reboot"]; [B """}"; B "-s"; path]]
  /\ j = B "{""a"":""';reboot;'""}".
Proof.
  exists W0, (B "http://h/f"), [(B "a", JStr (B "';reboot;'"))], (B "{""a"":""';reboot;'""}").
  splits; [intros m; apply Permutation_refl|reflexivity|reflexivity|vm_compute; reflexivity|reflexivity].
Qed.
(** the URL is in double quotes but not escaped *)
Theorem C128_url_refuted : exists path, shell (httpGetCmd path (B "-G")) = Some [[B "/usr/bin/curl"; B "-G"; B "http://h/"]; [B "reboot"; B ""]].
Proof. exists (B "http://h/"";reboot """). vm_compute. reflexivity. Qed.
Lemma decZ_lit z : forallb shLiteral (decZ z) = true.
Proof. apply forallb_forall. intros c H. apply decZ_chars in H. unfold isDigit, shLiteral, shSpecial in *. cbn. lia. Qed.
(** HDFS: nothing is quoted; a host, paths of plain characters are one word each *)
Theorem C128_hdfs host port path local : forallb shLiteral host = true -> forallb shLiteral path = true -> forallb shLiteral local = true -> local <> [] ->
  shell (hdfsLsCmd host port path) = Some [[B "hdfs"; B "dfs"; B "-ls"; B "hdfs://" ++ host ++ B ":" ++ decZ port ++ path]]
  /\ shell (hdfsCopyCmd host port path local) = Some [[B "hdfs"; B "dfs"; B "-copyToLocal"; B "hdfs://" ++ host ++ B ":" ++ decZ port ++ path; local]].
Proof.
  intros H P L N. unfold hdfsLsCmd, hdfsCopyCmd. rewrite (cstr_nz host), (cstr_nz path), (cstr_nz local) by (apply nz_lit; assumption). pose proof (decZ_lit port) as D.
  split; rewrite shell_nz by (repeat (apply Forall_app; split); try (apply nz_B; reflexivity); apply nz_lit; assumption).
  - set (y := host ++ _). change (shGo ShPlain None [] [] (B "hdfs dfs -ls hdfs://" ++ y)) with (shGo ShPlain (Some (B "hdfs://")) [B "hdfs"; B "dfs"; B "-ls"] [] y). unfold y.
    rewrite sh_plain by exact H. rewrite sh_plain by reflexivity. rewrite sh_plain by exact D. rewrite <- (app_nil_r path) at 1. rewrite sh_plain by exact P. cbn [shGo shEndWord shEndCmd app]. rewrite <- !app_assoc. reflexivity.
  - set (y := host ++ _). change (shGo ShPlain None [] [] (B "hdfs dfs -copyToLocal hdfs://" ++ y)) with (shGo ShPlain (Some (B "hdfs://")) [B "hdfs"; B "dfs"; B "-copyToLocal"] [] y). unfold y.
    rewrite sh_plain by exact H. rewrite sh_plain by reflexivity. rewrite sh_plain by exact D. rewrite sh_plain by exact P.
    change (B " " ++ local) with (32 :: local). cbn [shGo]. change (32 =? 39) with false. change (32 =? 34) with false. change (32 =? 92) with false. change ((32 =? 32) || (32 =? 9)) with true. cbn [shEndWord].
    rewrite <- (app_nil_r local) at 1. rewrite sh_word by assumption. cbn [shGo shEndWord shEndCmd app]. rewrite <- !app_assoc. reflexivity.
Qed.
(** "the file of that path is copied" is false for a path with a blank, and a path can hold a command *)
Theorem C128_hdfs_refuted : exists path path', 
  shell (hdfsCopyCmd (B "h") 9000 path (B "/tmp")) = Some [[B "hdfs"; B "dfs"; B "-copyToLocal"; B "hdfs://h:9000/my"; B "file"; B "/tmp"]]
  /\ shell (hdfsLsCmd (B "h") 9000 path') = Some [[B "hdfs"; B "dfs"; B "-ls"; B "hdfs://h:9000/a"]; [B "reboot"]].
Proof. exists (B "/my file"), (B "/a;reboot"). split; vm_compute; reflexivity. Qed.
Example C128_case :
  shell (httpGetCmd (B "http://meta:11000/download?host=h&path=/d/x") (B "-G -s")) = Some [[B "/usr/bin/curl"; B "-G"; B "-s"; B "http://meta:11000/download?host=h&path=/d/x"]]
  /\ shell (httpSendCmd W0 (B "PUT") (B "http://h:1/flags") (JObj [(B "v", JInt 4)])) =
       Some [[B "curl"; B "-X"; B "PUT"; B "-H"; B "Content-Type: application/json"; B "-d{""v"":4}"; B "-s"; B "http://h:1/flags"]]
  /\ runCommand (fun _ => Some (mkRun (repeat 65 2048) 0 None)) 2100 (B "x") = Ret (Some (repeat 65 2048)).
Proof. splits; vm_compute; reflexivity. Qed.

Print Assumptions C128_output.
Print Assumptions C128_failed_read.
Print Assumptions C128_success_refuted.
Print Assumptions C128_get.
Print Assumptions C128_post.
Print Assumptions C128_put.
Print Assumptions C128_send.
Print Assumptions C128_send_refuted.
Print Assumptions C128_url_refuted.
Print Assumptions C128_hdfs.
Print Assumptions C128_hdfs_refuted.
