(** C100-C104: the full-text plugin *)
From Coq Require Import String List Permutation Lia.
From Verif Require Import Prelude ValueBase NetModel NetProps FullTextModel FullTextSpec FullTextProofs.
Import ListNotations.
Local Open Scope Z_scope.
Local Open Scope list_scope.

Ltac bytes := repeat (apply Forall_cons; [unfold isByte; split; [discriminate|reflexivity]|]); apply Forall_nil.
Lemma hex_bytes s : Forall isHex s -> Forall isByte s.
Proof. apply Forall_impl. unfold isHex, isByte. lia. Qed.

(** * A concrete world *)
(** the identity as order, a constant digest, and a parser that reads the compact texts of the specification *)
Definition ftW : ftWorld := mkFtWorld (fun _ => B "8c43de7b01bca674276c43e09b3ec5ba") (@rev (str * json)) readJson.
Lemma ftW_ok : worldOk ftW.
Proof.
  split.
  - intros s. split; [reflexivity|]. cbn. repeat (apply Forall_cons; [unfold isHex; lia|]). apply Forall_nil.
  - intros m. apply Permutation_rev.
Qed.
Definition ftClient : httpClient := mkHttpClient (mkHost (B "127.0.0.1") 9200) (B "nebula") (B "secret").
Lemma ftClient_plain : plainClient ftClient.
Proof. unfold plainClient. splits; reflexivity. Qed.

(** * C100: search commands *)
Definition ftRequest (m : string) (c : httpClient) (path : str) (data : option str) : httpRequest :=
  mkRequest (B m) (serverUrl c path) (credentials c) [jsonHeader] data.
Definition searchPath (index : str) (timeout : Z) : str := index ++ B "/_search?timeout=" ++ decZ timeout ++ B "ms".

Lemma condition_same o v : jsame (conditionOf o v) (opBody o v).
Proof.
  destruct o as [| | |f op]; try apply same_refl. unfold conditionOf, opBody, obj1.
  apply same_obj with (m' := [(B "match", JObj [(B "value", JObj [(B "operator", JStr op); (B "fuzziness", f); (B "query", JStr v)])])]); [reflexivity|]. repeat constructor; cbn [fst snd].
  apply same_obj with (m' := [(B "value", JObj [(B "operator", JStr op); (B "fuzziness", f); (B "query", JStr v)])]); [reflexivity|]. repeat constructor; cbn [fst snd].
  apply jsame_perm. apply (Permutation_rev [(B "operator", JStr op); (B "fuzziness", f); (B "query", JStr v)]).
Qed.
Lemma jsame_obj1 k a b : jsame a b -> jsame (JObj [(k, a)]) (JObj [(k, b)]).
Proof. intros H. apply same_obj with (m' := [(k, a)]); [reflexivity|]. constructor; [split; [reflexivity|exact H]|constructor]. Qed.
Lemma query_same W it n o : jsame (queryOf (wMd5 W (diColumn it)) n (conditionOf o (diVal it))) (searchQuery W it n o).
Proof.
  unfold queryOf, searchQuery. eapply jsame_trans; [apply jsame_perm, (Permutation_rev [_; _; _; _])|]. cbn [rev app].
  eapply jsame_trans; [apply jsame_perm; apply perm_skip; apply (Permutation_refl _)|].
  eapply same_obj; [apply Permutation_refl|]. repeat (apply Forall2_cons; [split; [reflexivity|]|]); try apply same_refl; [|apply Forall2_nil].
  cbn [snd]. apply jsame_obj1, jsame_obj1, same_arr. repeat (apply Forall2_cons); [apply same_refl|apply condition_same|apply Forall2_nil].
Qed.
Lemma query_bytes W it n o : worldOk W -> Forall isByte (diVal it) -> opBytes o -> jsonBytes (searchQuery W it n o).
Proof.
  intros [HM _] HV HO. unfold jsonBytes, searchQuery, columnBody, obj1. cbn [jsonAll].
  assert (K : jsonAll isByte (opBody o (diVal it))).
  { destruct o as [| | |f op]; cbn [opBody obj1 jsonAll]; splits; try apply B_bytes; try exact I; try exact HV; apply HO. }
  splits; try apply B_bytes; try exact I; [|exact K]. apply hex_bytes, HM.
Qed.

(** Whatever bytes the text to search for, the column and the fuzziness consist of, a search runs one command, curl, that asks the
    index for the rows where both conditions hold. *)
Theorem C100_search_request W c it l o :
  worldOk W -> plainClient c -> forallb dqLiteral (diIndex it) = true -> Forall isByte (diVal it) -> opBytes o ->
  exists data, requests (searchCmd W c it l o) (ftRequest "GET" c (searchPath (diIndex it) (liTimeout l)) (Some data)) /\
    denotes data (queryOf (wMd5 W (diColumn it)) (liMaxRows l) (conditionOf o (diVal it))).
Proof.
  intros HW C HI V O. exists (toJson W (searchQuery W it (liMaxRows l) o)). pose proof (query_bytes W it (liMaxRows l) o HW V O) as J. split.
  - unfold searchCmd, searchHeader, searchBody.
    pose proof (request_data W c (B "GET") (searchPath (diIndex it) (liTimeout l))) as R. specialize (fun o => R o (proj2 HW) (or_introl eq_refl) C).
    assert (P : forallb dqLiteral (searchPath (diIndex it) (liTimeout l)) = true).
    { unfold searchPath. rewrite !forallb_app, HI, decZ_dq. reflexivity. }
    specialize (R _ P J). unfold searchPath in *. rewrite <- !app_assoc in *. exact R.
  - eapply denotes_same; [apply query_same|]. apply toJson_denotes; [apply HW|exact J].
Qed.
Print Assumptions C100_search_request.
(** the command of a search for a text with quotes, a dollar sign and a newline *)
Example C100_case :
  let it := mkDocItem (B "idx") (B "col") 1 (B "it's ""$HOME"" `ls` \" ++ [10; 0; 233]) in
  exists data, requests (searchCmd ftW ftClient it (mkLimitItem 100 10) OpPrefix) (ftRequest "GET" ftClient (B "idx/_search?timeout=100ms") (Some data)) /\
  denotes data (queryOf (B "8c43de7b01bca674276c43e09b3ec5ba") 10 (JObj [(B "prefix", JObj [(B "value", JStr (B "it's ""$HOME"" `ls` \" ++ [10; 0; 233]))])])).
Proof. intros it. apply (C100_search_request ftW ftClient it (mkLimitItem 100 10) OpPrefix ftW_ok ftClient_plain); [reflexivity|vm_compute; bytes|exact I]. Qed.
Example C100_text : searchCmd ftW (mkHttpClient (mkHost (B "h") 1) [] []) (mkDocItem (B "i") (B "c") 1 (B "a'b")) (mkLimitItem 5 7) OpWildcard =
  B "/usr/bin/curl -H ""Content-Type: application/json; charset=utf-8"" -XGET ""http://h:1/i/_search?timeout=5ms"" -d'{""from"":0,""size"":7,""_source"":""value"",""query"":{""bool"":{""must"":[{""term"":{""column_id"":""8c43de7b01bca674276c43e09b3ec5ba""}},{""wildcard"":{""value"":""a'\''b""}}]}}}'".
Proof. reflexivity. Qed.

(** * C101: put and bulk commands *)
Theorem C101_put_request W c it :
  worldOk W -> plainClient c -> forallb dqLiteral (diIndex it) = true -> Forall isByte (diVal it) ->
  exists data, requests (putCmd W c it) (ftRequest "PUT" c (diIndex it ++ B "/_doc/" ++ docId W it) (Some data)) /\
    denotes data (documentOf (wMd5 W (diColumn it)) (diVal it)).
Proof.
  intros HW C HI V. exists (toJson W (putDoc W it)).
  assert (J : jsonBytes (putDoc W it)).
  { unfold jsonBytes. cbn [putDoc jsonAll]. splits; try apply B_bytes; try exact I; [apply hex_bytes, HW|rewrite docVal_first; apply firstn_bytes, V]. }
  split.
  - unfold putCmd, putHeader, putBody.
    pose proof (request_data W c (B "PUT") (diIndex it ++ B "/_doc/" ++ docId W it)) as R. specialize (fun o => R o (proj2 HW) (or_intror (or_introl eq_refl)) C).
    assert (P : forallb dqLiteral (diIndex it ++ B "/_doc/" ++ docId W it) = true).
    { rewrite !forallb_app, HI. apply forallb_forall. intros x Hx. pose proof (docId_chars W it HW V) as D. rewrite Forall_forall in D.
      specialize (D x Hx). unfold docChar in D. unfold dqLiteral. cbn in *. lia. }
    specialize (R _ P J). rewrite <- !app_assoc in *. exact R.
  - assert (E : documentOf (wMd5 W (diColumn it)) (diVal it) = putDoc W it) by (unfold documentOf, putDoc; rewrite docVal_first; reflexivity). rewrite E.
    apply toJson_denotes; [apply HW|exact J].
Qed.
Print Assumptions C101_put_request.
(** The place of a document in a bulk request *)
Definition placeOf (index id : str) : json := JObj [(B "index", JObj [(B "_index", JStr index); (B "_id", JStr id)])].
(** One curl request with two lines for every document, in order: its place and its data. The index names have no single quote. *)
Theorem C101_bulk_request W c items :
  worldOk W -> plainClient c -> items <> [] -> Forall (fun it => Forall (fun b => isByte b /\ b <> 39) (diIndex it) /\ Forall isByte (diVal it)) items ->
  exists data, requests (bulkCmd W c items) (mkRequest (B "POST") (serverUrl c (B "_bulk")) (credentials c) [ndjsonHeader] (Some data)) /\
    Forall2 denotes (ndjson data) (flat_map (fun it => [placeOf (diIndex it) (docId W it); documentOf (wMd5 W (diColumn it)) (diVal it)]) items).
Proof.
  intros HW C N H. exists (10 :: flat_map (bulkText W) items).
  assert (E : bulkCmd W c items = bulkHeader c ++ B " -d '" ++ [10] ++ flat_map (bulkItem W) items ++ B "'") by (destruct items; [contradiction|reflexivity]).
  split.
  - eexists. split.
    + rewrite E, shell_nz.
      * rewrite sh_bulk by assumption. rewrite (sh_single [10]) by (repeat constructor; discriminate). rewrite sh_items by assumption. cbn [app].
        change (B "'") with [39]. cbn [shGo]. change (39 =? 39) with true. cbn iota. unfold shEndCmd, shEndWord. reflexivity.
      * assert (NI : Forall (fun b => b <> 0) (flat_map (bulkItem W) items)).
        { apply Forall_forall. intros x Hx. apply in_flat_map in Hx. destruct Hx as (it & Hi & Hx). rewrite Forall_forall in H. specialize (H it Hi).
          revert x Hx. apply Forall_forall. unfold bulkItem.
          assert (NM : Forall (fun b => b <> 0) (toJson W (bulkMeta W it))) by (apply nz_ge, toJson_ge; [apply HW|]; eapply jsonAll_impl; [|apply bulkMeta_all; assumption]; cbn; tauto).
          assert (ND : Forall (fun b => b <> 0) (normalizedJson (toJson W (bulkData W it)))) by (apply nz_norm, nz_ge, toJson_ge; [apply HW|]; apply bulkData_bytes; [assumption|apply H]).
          revert NM ND. generalize (toJson W (bulkMeta W it)) (normalizedJson (toJson W (bulkData W it))). intros x y NM ND.
          repeat (apply Forall_app; split); try assumption; repeat constructor; discriminate. }
        revert NI. generalize (flat_map (bulkItem W) items). intros fi NI. unfold bulkHeader. generalize (nz_client c C). generalize (clientText c). intros ct NC.
        repeat (apply Forall_app; split); try assumption; try (apply nz_B; reflexivity). repeat constructor; discriminate.
    + unfold credWords. destruct (credentials c) as [u|]; reflexivity.
  - change (ndjson (10 :: flat_map (bulkText W) items)) with (linesGo (flat_map (bulkText W) items) []). rewrite bulkText_lines by assumption.
    clear E N. induction H as [|it items Hi H IH]; [constructor|]. cbn [flat_map app]. constructor; [|constructor; [|exact IH]].
    + eapply denotes_same; [|apply toJson_denotes; [apply HW|]; eapply jsonAll_impl; [|apply bulkMeta_all; assumption]; cbn; tauto].
      apply jsame_obj1, jsame_perm, perm_swap.
    + eapply denotes_same; [|apply toJson_denotes; [apply HW|apply bulkData_bytes; [assumption|apply Hi]]].
      unfold documentOf, bulkData. rewrite docVal_first. apply jsame_perm, perm_swap.
Qed.
Print Assumptions C101_bulk_request.
Example C101_put_case :
  let it := mkDocItem (B "idx") (B "col") 1 (repeat 39 300) in
  exists data, requests (putCmd ftW ftClient it) (ftRequest "PUT" ftClient (B "idx/_doc/" ++ docId ftW it) (Some data)) /\
    denotes data (documentOf (B "8c43de7b01bca674276c43e09b3ec5ba") (repeat 39 300)).
Proof. intros it. apply (C101_put_request ftW ftClient it ftW_ok ftClient_plain); [reflexivity|vm_compute; bytes]. Qed.
Example C101_bulk_case :
  exists data, requests (bulkCmd ftW ftClient [mkDocItem (B "idx") (B "col") 1 (B "it's"); mkDocItem (B "id""x") (B "c2") 2 [10; 0]])
    (mkRequest (B "POST") (serverUrl ftClient (B "_bulk")) (Some (B "nebula:secret")) [ndjsonHeader] (Some data)) /\ List.length (ndjson data) = 4%nat.
Proof.
  destruct (C101_bulk_request ftW ftClient [mkDocItem (B "idx") (B "col") 1 (B "it's"); mkDocItem (B "id""x") (B "c2") 2 [10; 0]] ftW_ok ftClient_plain) as (data & R & D).
  - discriminate.
  - repeat (apply Forall_cons; [split; [vm_compute; repeat (apply Forall_cons; [split; [split; [discriminate|reflexivity]|discriminate]|]); apply Forall_nil|vm_compute; bytes]|]). apply Forall_nil.
  - exists data. split; [exact R|]. clear R. inversion D as [|? ? ? ? _ D1]; subst. inversion D1 as [|? ? ? ? _ D2]; subst. inversion D2 as [|? ? ? ? _ D3]; subst. inversion D3 as [|? ? ? ? _ D4]; subst. inversion D4; subst. reflexivity.
Qed.
(** An index name with a single quote: put reaches the server, bulk leaves the quotes and the shell runs what follows. *)
Theorem C101_bulk_quote_refuted :
  exists W c it, worldOk W /\ plainClient c /\ forallb dqLiteral (diIndex it) = true /\ Forall isByte (diVal it) /\
    (forall rq, ~ requests (bulkCmd W c [it]) rq) /\
    exists first last, shell (bulkCmd W c [it]) = Some [first; [B "reboot"]; last].
Proof.
  exists ftW, ftClient, (mkDocItem (B "a'; reboot; '") (B "col") 1 (B "x")).
  splits; [apply ftW_ok|apply ftClient_plain|reflexivity|vm_compute; bytes| |].
  - intros rq (ws & S & _). vm_compute in S. discriminate.
  - eexists _, _. vm_compute. reflexivity.
Qed.
Print Assumptions C101_bulk_quote_refuted.

(** * C102: index commands and credentials *)
Theorem C102_index_requests c index :
  plainClient c -> forallb dqLiteral index = true ->
  requests (createIndexCmd c index) (ftRequest "PUT" c index None) /\
  requests (dropIndexCmd c index) (ftRequest "DELETE" c index None) /\
  requests (indexExistsCmd c index) (ftRequest "GET" c (B "_cat/indices/" ++ index ++ B "?format=json") None).
Proof.
  intros C HI. splits.
  - apply (request_plain c (B "PUT")); [right; left; reflexivity|assumption..].
  - apply (request_plain c (B "DELETE")); [right; right; reflexivity|assumption..].
  - pose proof (request_plain c (B "GET") (B "_cat/indices/" ++ index ++ B "?format=json") (or_introl eq_refl) C) as R. rewrite <- !app_assoc in R. apply R.
    rewrite !forallb_app, HI. reflexivity.
Qed.
Print Assumptions C102_index_requests.
Example C102_case : requests (dropIndexCmd ftClient (B "nebula_index_1")) (mkRequest (B "DELETE") (B "http://127.0.0.1:9200/nebula_index_1") (Some (B "nebula:secret")) [jsonHeader] None).
Proof. apply (C102_index_requests ftClient (B "nebula_index_1") ftClient_plain eq_refl). Qed.
(** The user name and the password stand outside quotes: the shell acts on their characters. *)
Theorem C102_password_refuted :
  exists c index, forallb dqLiteral index = true /\ forallb dqLiteral (haHost (hcHost c)) = true /\ forallb shLiteral (hcUser c) = true /\
    (forall rq, ~ requests (createIndexCmd c index) rq) /\
    exists first, shell (createIndexCmd c index) = Some [first; [B "word"; B "http://127.0.0.1:9200/idx"]].
Proof.
  exists (mkHttpClient (mkHost (B "127.0.0.1") 9200) (B "nebula") (B "pass;word")), (B "idx"). splits; try reflexivity.
  - intros rq (ws & S & _). vm_compute in S. discriminate.
  - eexists. vm_compute. reflexivity.
Qed.
(** A password with a backslash is not the one curl sends. *)
Theorem C102_password_changed_refuted :
  exists c index rq, requests (createIndexCmd c index) rq /\ rqUser rq = Some (B "nebula:secret") /\ credentials c = Some (B "nebula:se\cret").
Proof.
  exists (mkHttpClient (mkHost (B "127.0.0.1") 9200) (B "nebula") (B "se\cret")), (B "idx"), (mkRequest (B "PUT") (B "http://127.0.0.1:9200/idx") (Some (B "nebula:secret")) [jsonHeader] None). splits; [|reflexivity..].
  eexists. split; vm_compute; reflexivity.
Qed.
(** An index name with a double quote ends the quoted URL. *)
Theorem C102_index_refuted :
  exists c index, plainClient c /\ (forall rq, ~ requests (dropIndexCmd c index) rq) /\
    exists first last, shell (dropIndexCmd c index) = Some [first; [B "reboot"]; last].
Proof.
  exists ftClient, (B "idx""; reboot; """). splits; [apply ftClient_plain| |].
  - intros rq (ws & S & _). vm_compute in S. discriminate.
  - eexists _, _. vm_compute. reflexivity.
Qed.
Print Assumptions C102_password_refuted.
Print Assumptions C102_password_changed_refuted.
Print Assumptions C102_index_refuted.

(** * C103: document identifiers *)
Definition itemOk (it : docItem) : Prop := 0 <= diPart it <= int32_max /\ Forall isByte (diVal it).
(** The identifier tells the part, the column's digest and the first 256 bytes of the value; and nothing else goes into it. *)
Theorem C103_id_determines W a b : worldOk W -> itemOk a -> itemOk b ->
  (docId W a = docId W b <-> diPart a = diPart b /\ wMd5 W (diColumn a) = wMd5 W (diColumn b) /\ firstn 256 (diVal a) = firstn 256 (diVal b)).
Proof.
  intros HW [Pa Va] [Pb Vb]. split; [apply docId_inj; assumption|]. intros (E1 & E2 & E3). rewrite !docId_eq, E1, E2, E3. reflexivity.
Qed.
Print Assumptions C103_id_determines.
(** At most 386 bytes (512 are allowed), and only letters, digits and + - = _ : one segment of a URL path *)
Theorem C103_id_shape W it : worldOk W -> itemOk it ->
  (List.length (docId W it) <= 386)%nat /\
  Forall (fun x => 48 <= x <= 57 \/ 65 <= x <= 90 \/ 97 <= x <= 122 \/ In x (B "+-=_")) (docId W it).
Proof.
  intros HW [P V]. split; [apply docId_length; assumption|]. eapply Forall_impl; [|apply docId_chars; assumption].
  intros x. unfold docChar. cbn. lia.
Qed.
Print Assumptions C103_id_shape.
Example C103_case : docId ftW (mkDocItem (B "idx") (B "col") 7 (B "ab?>")) = B "00000000078c43de7b01bca674276c43e09b3ec5baYWI_Pg==" /\
  docId ftW (mkDocItem (B "idx") (B "col") 7 (B "ab?")) <> docId ftW (mkDocItem (B "idx") (B "col") 7 (B "ab@")).
Proof. split; [reflexivity|discriminate]. Qed.
Example C103_ok : itemOk (mkDocItem (B "idx") (B "col") 7 (B "ab?>")).
Proof. split; [cbn; unfold int32_max; lia|vm_compute; bytes]. Qed.
(** Two values of the same column and part that differ behind the first 256 bytes get the same identifier: the later put replaces the earlier document. *)
Theorem C103_long_values_refuted :
  exists W a b, worldOk W /\ itemOk a /\ itemOk b /\ diVal a <> diVal b /\ diColumn a = diColumn b /\ docId W a = docId W b.
Proof.
  exists ftW, (mkDocItem (B "idx") (B "col") 1 (repeat 97 256 ++ [98])), (mkDocItem (B "idx") (B "col") 1 (repeat 97 256 ++ [99])).
  splits; [apply ftW_ok|split; [cbn; unfold int32_max; lia|vm_compute; bytes]..|vm_compute; discriminate|reflexivity|vm_compute; reflexivity].
Qed.
(** The cut at 256 bytes can fall inside a character: the document sent is not UTF-8 although the value is. *)
Theorem C103_utf8_refuted :
  exists it, Forall isByte (diVal it) /\ utf8 (diVal it) = true /\ utf8 (docVal (diVal it)) = false.
Proof. exists (mkDocItem (B "idx") (B "col") 1 (repeat 97 255 ++ [195; 169])). splits; [vm_compute; bytes|vm_compute; reflexivity..]. Qed.
(** Up to 256 bytes nothing is cut, and ASCII text stays UTF-8 whatever its length. *)
Theorem C103_short_values v : (List.length v <= 256)%nat -> docVal v = v.
Proof. intros H. rewrite docVal_first. apply firstn_all2, H. Qed.
Theorem C103_ascii_values v : Forall (fun x => 0 <= x < 128) v -> utf8 (docVal v) = true.
Proof.
  rewrite docVal_first. generalize 256%nat. intros n H. revert n. induction H as [|x v Hx H IH]; intros [|n]; try reflexivity. cbn [firstn utf8]. assert (x <? 128 = true) as -> by lia. apply IH.
Qed.
Print Assumptions C103_long_values_refuted.
Print Assumptions C103_utf8_refuted.
Print Assumptions C103_short_values.
Print Assumptions C103_ascii_values.
(** A part that is negative is written with the sign inside the padding; the identifier of the lowest one is longer. *)
Example C103_negative : docPart (-1) = B "00000000-1" /\ docPart int32_min = B "-2147483648" /\ List.length (docPart int32_min) = 11%nat.
Proof. splits; reflexivity. Qed.

(** * C104: answers *)
Lemma strEqb_true a : forall b, strEqb a b = true <-> a = b.
Proof.
  induction a as [|x a IH]; intros [|y b]; cbn; split; try discriminate; try reflexivity; intros H.
  - apply andb_prop in H. destruct H as [H1 H2]. apply Z.eqb_eq in H1. apply IH in H2. congruence.
  - injection H as -> ->. rewrite Z.eqb_refl. apply IH. reflexivity.
Qed.
Lemma member_In k m j : member k m = Some j -> In (k, j) m.
Proof.
  induction m as [|[k' j'] m IH]; intros H; [discriminate|]. cbn in H. destruct (strEqb k' k) eqn:E; [|right; auto].
  apply strEqb_true in E. injection H as ->. subst. left. reflexivity.
Qed.
Lemma member_NoDup k m j : NoDup (map fst m) -> In (k, j) m -> member k m = Some j.
Proof.
  induction m as [|[k' j'] m IH]; intros N H; [contradiction|]. cbn in *. inversion N as [|? ? N1 N2]; subst. destruct H as [H | H].
  - injection H as -> ->. assert (strEqb k k = true) as -> by (apply strEqb_true; reflexivity). reflexivity.
  - destruct (strEqb k' k) eqn:E; [|auto]. apply strEqb_true in E. subst. exfalso. apply N1. apply in_map_iff. exists (k, j). auto.
Qed.
Lemma uniqueKeys_obj m : uniqueKeys (JObj m) -> NoDup (map fst m) /\ forall k j, In (k, j) m -> uniqueKeys j.
Proof.
  intros [N H]. split; [exact N|]. clear N. induction m as [|[k x] m IH]; intros k' j H'; [contradiction|]. destruct H as [Hx H]. destruct H' as [E | H']; [injection E as -> ->; exact Hx|eapply IH; eassumption].
Qed.
Lemma uniqueKeys_arr l : uniqueKeys (JArr l) -> Forall uniqueKeys l.
Proof. induction l as [|x l IH]; intros H; [constructor|]. destruct H as [Hx H]. constructor; [exact Hx|apply IH, H]. Qed.
Lemma jfind_spec (k : string) j v : uniqueKeys j -> (jfind k j = Some (Some v) <-> at_path [B k] j v).
Proof.
  intros U. split.
  - destruct j as [| | | | |m]; try discriminate. cbn. intros H. injection H as H. apply member_In in H. econstructor; [exact H|constructor].
  - intros H. inversion H as [|? ? m j' ? Hi Hp]; subst. inversion Hp; subst. cbn. f_equal. apply member_NoDup; [apply uniqueKeys_obj in U; apply U|exact Hi].
Qed.
Lemma at_path_unique path : forall j a b, uniqueKeys j -> at_path path j a -> at_path path j b -> a = b.
Proof.
  induction path as [|k path IH]; intros j a b U H1 H2; inversion H1 as [|? ? m x ? I1 P1]; subst; inversion H2 as [|? ? ? y ? I2 P2]; subst; [reflexivity|].
  apply uniqueKeys_obj in U. destruct U as [N U]. assert (x = y) by (apply (member_NoDup _ _ _ N) in I1; apply (member_NoDup _ _ _ N) in I2; congruence). subst. eapply IH; [eapply U; eassumption|eassumption..].
Qed.
Lemma jfind_path (k : string) j v path w : jfind k j = Some (Some v) -> at_path path v w -> at_path (B k :: path) j w.
Proof. destruct j as [| | | | |m]; try discriminate. cbn. intros H. injection H as H. apply member_In in H. intros P. econstructor; eassumption. Qed.
Lemma jfind_unique (k : string) j v : uniqueKeys j -> jfind k j = Some (Some v) -> uniqueKeys v.
Proof. destruct j as [| | | | |m]; try discriminate. cbn. intros U H. injection H as H. apply member_In in H. apply uniqueKeys_obj in U. eapply U; eassumption. Qed.

(** folly::parseJson yields objects with every key once. *)
Definition parseOk (W : ftWorld) : Prop := forall s j, wParse W s = Some j -> uniqueKeys j.

(** put reports success exactly when the server answered this request with a result created or updated. *)
Theorem C104_put_outcome W run srv c it rq : parseOk W -> faithful run srv -> requests (putCmd W c it) rq ->
  (put run W c it = FtReply true <->
   exists out j s, srv rq = Some out /\ out <> [] /\ wParse W out = Some j /\ at_path [B "result"] j (JStr s) /\ (s = B "created" \/ s = B "updated")) /\
  (put run W c it = FtError <-> srv rq = None \/ srv rq = Some []).
Proof.
  intros HP F R. unfold put, runCheck. rewrite (F _ _ R). destruct (srv rq) as [[|b out]|].
  - split; [split; [discriminate|intros (o & j & s & E & N & _); injection E as <-; contradiction]|split; auto].
  - split; [|split; [discriminate|intros [E | E]; discriminate]]. split.
    + intros H. injection H as H. unfold checkPut in H. destruct (wParse W (b :: out)) as [j|] eqn:E; [|discriminate].
      destruct (jfind "result" j) as [[[| | |s| |]|]|] eqn:E2; try discriminate. exists (b :: out), j, s. splits; [reflexivity|discriminate|exact E|apply (jfind_spec "result"); [eapply HP; eassumption|exact E2]|].
      apply orb_prop in H. rewrite !strEqb_true in H. exact H.
    + intros (o & j & s & E & _ & P & A & S). injection E as <-. f_equal. unfold checkPut. rewrite P. apply (jfind_spec "result") in A; [|eapply HP; eassumption]. rewrite A.
      destruct S as [-> | ->]; reflexivity.
  - split; [split; [discriminate|intros (o & j & s & E & _); discriminate]|split; auto].
Qed.
Print Assumptions C104_put_outcome.
Lemma flag_outcome (W : ftWorld) (k : string) (v : bool) (chk : str -> bool) out :
  parseOk W -> (forall o, chk o = match wParse W o with None => false | Some root => match jfind k root with Some (Some (JBool b)) => Bool.eqb b v | _ => false end end) ->
  (chk out = true <-> exists j, wParse W out = Some j /\ at_path [B k] j (JBool v)).
Proof.
  intros HP HC. rewrite HC. split.
  - destruct (wParse W out) as [j|] eqn:E; [|discriminate]. destruct (jfind k j) as [[[|b| | | |]|]|] eqn:E2; try discriminate. intros H. apply Bool.eqb_prop in H. subst.
    exists j. split; [reflexivity|]. apply jfind_spec; [eapply HP; eassumption|exact E2].
  - intros (j & E & A). rewrite E. apply jfind_spec in A; [|eapply HP; eassumption]. rewrite A. apply Bool.eqb_reflx.
Qed.
Lemma runCheck_bool run srv cmd rq chk : faithful run srv -> requests cmd rq ->
  (runCheck run cmd chk = FtReply true <-> exists out, srv rq = Some out /\ out <> [] /\ chk out = true) /\
  (runCheck run cmd chk = FtError <-> srv rq = None \/ srv rq = Some []).
Proof.
  intros F R. unfold runCheck. rewrite (F _ _ R). destruct (srv rq) as [[|b out]|].
  - split; [split; [discriminate|intros (o & E & N & _); injection E as <-; contradiction]|split; auto].
  - split; [|split; [discriminate|intros [E | E]; discriminate]]. split.
    + intros H. injection H as H. exists (b :: out). splits; [reflexivity|discriminate|exact H].
    + intros (o & E & _ & H). injection E as <-. rewrite H. reflexivity.
  - split; [split; [discriminate|intros (o & E & _); discriminate]|split; auto].
Qed.
(** bulk: success exactly when the answer says there were no errors; no documents, no command. *)
Theorem C104_bulk_outcome W run srv c items rq : parseOk W -> faithful run srv -> items <> [] -> requests (bulkCmd W c items) rq ->
  (bulk run W c items = FtReply true <->
   exists out j, srv rq = Some out /\ out <> [] /\ wParse W out = Some j /\ at_path [B "errors"] j (JBool false)) /\
  (bulk run W c items = FtError <-> srv rq = None \/ srv rq = Some []).
Proof.
  intros HP F N R. assert (E : bulk run W c items = runCheck run (bulkCmd W c items) (checkBulk W)).
  { unfold bulk. assert (X : bulkCmd W c items <> []) by (destruct items; [contradiction|discriminate]). destruct (bulkCmd W c items); [contradiction|reflexivity]. }
  rewrite E. destruct (runCheck_bool run srv _ rq (checkBulk W) F R) as [H1 H2]. split; [|exact H2]. rewrite H1. clear - HP.
  assert (K : forall out, checkBulk W out = true <-> exists j, wParse W out = Some j /\ at_path [B "errors"] j (JBool false)).
  { intros out. apply (flag_outcome W "errors" false); [exact HP|]. intros o. unfold checkBulk. destruct (wParse W o) as [j|]; [|reflexivity]. destruct (jfind "errors" j) as [[[|[]| | | |]|]|]; reflexivity. }
  split.
  - intros (out & E1 & E2 & E3). apply K in E3. destruct E3 as (j & E4 & E5). exists out, j. auto.
  - intros (out & j & E1 & E2 & E3 & E4). exists out. splits; [assumption..|]. apply K. eauto.
Qed.
Theorem C104_bulk_nothing W run c : bulk run W c [] = FtReply true /\ bulkCmd W c [] = [].
Proof. split; reflexivity. Qed.
Print Assumptions C104_bulk_outcome.
Print Assumptions C104_bulk_nothing.
(** Creating and dropping an index: success exactly when acknowledged *)
Theorem C104_index_outcome W run srv c index rq op cmd : parseOk W -> faithful run srv ->
  (op = createIndex run W c index /\ cmd = createIndexCmd c index \/ op = dropIndex run W c index /\ cmd = dropIndexCmd c index) -> requests cmd rq ->
  (op = FtReply true <-> exists out j, srv rq = Some out /\ out <> [] /\ wParse W out = Some j /\ at_path [B "acknowledged"] j (JBool true)) /\
  (op = FtError <-> srv rq = None \/ srv rq = Some []).
Proof.
  intros HP F HO R. assert (E : op = runCheck run cmd (statusCheck W)) by (destruct HO as [[-> ->] | [-> ->]]; reflexivity). clear HO. subst op.
  destruct (runCheck_bool run srv _ rq (statusCheck W) F R) as [H1 H2]. split; [|exact H2]. rewrite H1. clear - HP.
  assert (K : forall out, statusCheck W out = true <-> exists j, wParse W out = Some j /\ at_path [B "acknowledged"] j (JBool true)).
  { intros out. apply (flag_outcome W "acknowledged" true); [exact HP|]. intros o. unfold statusCheck. destruct (wParse W o) as [j|]; [|reflexivity]. destruct (jfind "acknowledged" j) as [[[|[]| | | |]|]|]; reflexivity. }
  split.
  - intros (out & E1 & E2 & E3). apply K in E3. destruct E3 as (j & E4 & E5). exists out, j. auto.
  - intros (out & j & E1 & E2 & E3 & E4). exists out. splits; [assumption..|]. apply K. eauto.
Qed.
Print Assumptions C104_index_outcome.
(** An index exists exactly when the answer is an array with an entry that names an index, all entries before it being objects. *)
Theorem C104_exists_outcome W run srv c index rq : parseOk W -> faithful run srv -> requests (indexExistsCmd c index) rq ->
  (indexExists run W c index = FtReply true <->
   exists out l1 e l2 v, srv rq = Some out /\ out <> [] /\ wParse W out = Some (JArr (l1 ++ e :: l2)) /\
     Forall (fun x => exists m, x = JObj m) l1 /\ at_path [B "index"] e v) /\
  (indexExists run W c index = FtError <-> srv rq = None \/ srv rq = Some []).
Proof.
  intros HP F R. unfold indexExists. destruct (runCheck_bool run srv _ rq (indexCheck W) F R) as [H1 H2]. split; [|exact H2]. rewrite H1. clear - HP.
  assert (K1 : forall l, Forall uniqueKeys l -> indexLoop l = true -> exists l1 e l2 v, l = l1 ++ e :: l2 /\ Forall (fun x => exists m, x = JObj m) l1 /\ at_path [B "index"] e v).
  { induction l as [|e l IH]; intros U H; [discriminate|]. inversion U; subst. cbn [indexLoop] in H. destruct (jfind "index" e) as [[v|]|] eqn:E; [| |discriminate].
    - exists [], e, l, v. splits; [reflexivity|constructor|]. apply jfind_spec; assumption.
    - destruct IH as (l1 & e' & l2 & v & -> & F & A); [assumption..|]. exists (e :: l1), e', l2, v. splits; [reflexivity| |exact A]. constructor; [|exact F].
      destruct e; try discriminate. eauto. }
  assert (K2 : forall l1 e l2 v, Forall uniqueKeys (l1 ++ e :: l2) -> Forall (fun x => exists m, x = JObj m) l1 -> at_path [B "index"] e v -> indexLoop (l1 ++ e :: l2) = true).
  { induction l1 as [|x l1 IH]; intros e l2 v U F A; inversion U; subst; cbn [app indexLoop].
    - apply jfind_spec in A; [|assumption]. rewrite A. reflexivity.
    - inversion F as [|? ? (m & ->) F']; subst. cbn [jfind]. destruct (member (B "index") m); [reflexivity|]. eapply IH; eassumption. }
  split.
  - intros (out & E1 & E2 & E3). unfold indexCheck in E3. destruct (wParse W out) as [[| | | |l|]|] eqn:E; try discriminate.
    destruct (K1 l (uniqueKeys_arr _ (HP _ _ E)) E3) as (l1 & e & l2 & v & -> & Fo & A). exists out, l1, e, l2, v. auto.
  - intros (out & l1 & e & l2 & v & E1 & E2 & E3 & Fo & A). exists out. splits; [assumption..|]. unfold indexCheck. rewrite E3. eapply K2; [|eassumption..]. apply uniqueKeys_arr. exact (HP _ _ E3).
Qed.
Print Assumptions C104_exists_outcome.

Lemma resultLoop_spec l : Forall uniqueKeys l -> forall rows b rows', resultLoop l rows = (b, rows') ->
  exists l1 l2 vs, l = l1 ++ l2 /\ hitValues l1 vs /\ rows' = rows ++ vs /\ (b = true <-> l2 = []) /\ (b = false -> exists h r, l2 = h :: r /\ ~ goodHit h) /\ Forall goodHit l1.
Proof.
  induction l as [|h l IH]; intros U rows b rows' H; inversion U as [|? ? Uh Ul]; subst; cbn [resultLoop] in H.
  { injection H as <- <-. exists [], [], []. splits; try constructor; try reflexivity; try discriminate. rewrite app_nil_r. reflexivity. }
  assert (Stop : forall b0, b0 = (false, rows) -> (b0 = (b, rows')) -> ~ goodHit h ->
    exists l1 l2 vs, h :: l = l1 ++ l2 /\ hitValues l1 vs /\ rows' = rows ++ vs /\ (b = true <-> l2 = []) /\ (b = false -> exists h r, l2 = h :: r /\ ~ goodHit h) /\ Forall goodHit l1).
  { intros b0 -> E N. injection E as <- <-. exists [], (h :: l), []. splits; try constructor; try discriminate; [rewrite app_nil_r; reflexivity|]. intros _. eauto. }
  assert (Skip : resultLoop l rows = (b, rows') -> (forall v, ~ carries h v) -> goodHit h ->
    exists l1 l2 vs, h :: l = l1 ++ l2 /\ hitValues l1 vs /\ rows' = rows ++ vs /\ (b = true <-> l2 = []) /\ (b = false -> exists h r, l2 = h :: r /\ ~ goodHit h) /\ Forall goodHit l1).
  { intros E N G. destruct (IH Ul rows b rows' E) as (l1 & l2 & vs & -> & HV & -> & Hb & Hf & HG). exists (h :: l1), l2, vs. splits; auto. apply hv_none; assumption. }
  destruct (jfind "_source" h) as [[s|]|] eqn:E1.
  - pose proof (jfind_unique _ _ _ Uh E1) as Us. assert (As : at_path [B "_source"] h s) by (apply jfind_spec; assumption).
    destruct (jfind "value" s) as [[v|]|] eqn:E2.
    + assert (Av : at_path [B "_source"; B "value"] h v) by (eapply jfind_path; [exact E1|]; apply jfind_spec; assumption).
      assert (Gs : (exists m, h = JObj m) /\ exists m, s = JObj m) by (destruct h; try discriminate; destruct s; try discriminate; eauto).
      destruct v as [| | |v| |]; try (eapply Stop; [reflexivity|exact H|]; intros (_ & _ & G); destruct (G _ Av) as [t Ht]; discriminate).
      destruct (IH Ul (rows ++ [v]) b rows' H) as (l1 & l2 & vs & -> & HV & -> & Hb & Hf & HG). exists (h :: l1), l2, (v :: vs). splits; auto.
      * apply hv_some; [exact Av|exact HV].
      * rewrite <- app_assoc. reflexivity.
      * constructor; [|exact HG]. split; [apply Gs|]. split.
        -- intros s' Hs'. rewrite (at_path_unique _ _ _ _ Uh Hs' As). apply Gs.
        -- intros v' Hv'. rewrite (at_path_unique _ _ _ _ Uh Hv' Av). eauto.
    + assert (Nv : forall v, ~ at_path [B "_source"; B "value"] h v).
      { intros v A. inversion A as [|? ? ? s2 ? Hi Ap]; subst. assert (s2 = s) by (eapply at_path_unique; [exact Uh| |exact As]; econstructor; [eassumption|constructor]). subst.
        apply (jfind_spec "value") in Ap; [|exact Us]. rewrite E2 in Ap. discriminate. }
      apply Skip; [exact H|intros v A; eapply Nv, A|]. unfold goodHit. splits.
      * destruct h; try discriminate. eauto.
      * intros s' Hs'. rewrite (at_path_unique _ _ _ _ Uh Hs' As). destruct s; try discriminate. eauto.
      * intros v Hv. exfalso. eapply Nv, Hv.
    + eapply Stop; [reflexivity|exact H|]. intros (_ & G & _). destruct (G _ As) as [m ->]. discriminate.
  - assert (Ns : forall s, ~ at_path [B "_source"] h s) by (intros s A; apply (jfind_spec "_source") in A; [|exact Uh]; rewrite E1 in A; discriminate).
    assert (Nv : forall v, ~ at_path [B "_source"; B "value"] h v) by (intros v A; inversion A; subst; eapply Ns; econstructor; [eassumption|constructor]).
    apply Skip; [exact H|intros v A; eapply Nv, A|]. unfold goodHit. splits.
    + destruct h; try discriminate. eauto.
    + intros s Hs. exfalso. eapply Ns, Hs.
    + intros v Hv. exfalso. eapply Nv, Hv.
  - eapply Stop; [reflexivity|exact H|]. intros ((m & ->) & _). discriminate.
Qed.

(** A search succeeds with the values of the hits in order behind the caller's rows when every hit is well formed. *)
Theorem C104_search_rows W run srv c it l o rq rows out j hits vs : parseOk W -> faithful run srv -> requests (searchCmd W c it l o) rq ->
  srv rq = Some out -> out <> [] -> wParse W out = Some j -> at_path [B "hits"; B "hits"] j (JArr hits) -> Forall goodHit hits -> hitValues hits vs ->
  search run W c it l o rows = FtReply (true, rows ++ vs).
Proof.
  intros HP F R E N P A G V. unfold search, runCheck. rewrite (F _ _ R), E. destruct out as [|b out]; [contradiction|]. f_equal. unfold result. rewrite P.
  pose proof (HP _ _ P) as U. inversion A as [|? ? m h ? Hi Ah]; subst. assert (A1 : at_path [B "hits"] (JObj m) h) by (econstructor; [eassumption|constructor]).
  apply jfind_spec in A1; [|exact U]. rewrite A1. pose proof (jfind_unique _ _ _ U A1) as Uh. apply jfind_spec in Ah; [|exact Uh]. rewrite Ah.
  pose proof (uniqueKeys_arr _ (jfind_unique _ _ _ Uh Ah)) as Ul. destruct (resultLoop hits rows) as [b' rows'] eqn:L.
  destruct (resultLoop_spec hits Ul _ _ _ L) as (l1 & l2 & vs' & -> & HV & -> & Hb & Hf & _).
  destruct b'; [|destruct (Hf eq_refl) as (h' & r & -> & NG); exfalso; apply NG; rewrite Forall_forall in G; apply G, in_or_app; right; left; reflexivity].
  rewrite (proj1 Hb eq_refl) in *. rewrite app_nil_r in *. do 2 f_equal. clear - V HV Ul.
  revert vs' HV. induction V as [|h v l vs C V IH|h l vs C V IH]; intros vs' HV; inversion HV; subst; inversion Ul; subst; try reflexivity.
  - f_equal; [|auto]. match goal with X : carries h ?w |- ?w = v => pose proof (at_path_unique _ _ _ _ ltac:(eassumption) X C) as Q; congruence end.
  - exfalso. match goal with X : forall v, ~ carries h v |- _ => exact (X _ C) end.
  - exfalso. eapply C. eassumption.
  - auto.
Qed.
Print Assumptions C104_search_rows.
(** Whatever the answer, the caller's rows stay in front, what is added are values of the first hits, and success means all hits were read. *)
Theorem C104_search_any W run c it l o rows b rows' : parseOk W ->
  search run W c it l o rows = FtReply (b, rows') ->
  exists vs, rows' = rows ++ vs /\
    (vs = [] \/ exists out j l1 l2, run (cstr (searchCmd W c it l o)) = Some out /\ wParse W out = Some j /\ at_path [B "hits"; B "hits"] j (JArr (l1 ++ l2)) /\
       hitValues l1 vs /\ Forall goodHit l1 /\ (b = true -> l2 = [])).
Proof.
  intros HP H. unfold search, runCheck in H. destruct (run (cstr (searchCmd W c it l o))) as [[|x out]|] eqn:E; try discriminate. injection H as H. unfold result in H.
  assert (Z0 : forall bb, (bb, rows) = (b, rows') -> exists vs, rows' = rows ++ vs /\
    (vs = [] \/ exists out0 j l1 l2, Some (x :: out) = Some out0 /\ wParse W out0 = Some j /\ at_path [B "hits"; B "hits"] j (JArr (l1 ++ l2)) /\ hitValues l1 vs /\ Forall goodHit l1 /\ (b = true -> l2 = []))).
  { intros bb X. injection X as <- <-. exists []. rewrite app_nil_r. auto. }
  destruct (wParse W (x :: out)) as [j|] eqn:P; [|eapply Z0; exact H]. pose proof (HP _ _ P) as U.
  destruct (jfind "hits" j) as [[h|]|] eqn:E1; [|eapply Z0; exact H..]. pose proof (jfind_unique _ _ _ U E1) as Uh.
  destruct (jfind "hits" h) as [[[| | | |hits|]|]|] eqn:E2; try (eapply Z0; exact H).
  pose proof (uniqueKeys_arr _ (jfind_unique _ _ _ Uh E2)) as Ul.
  destruct (resultLoop_spec hits Ul _ _ _ H) as (l1 & l2 & vs & -> & HV & -> & Hb & _ & HG).
  exists vs. split; [reflexivity|]. right. exists (x :: out), j, l1, l2. splits; [reflexivity|exact P| |exact HV|exact HG|apply Hb].
  eapply jfind_path; [exact E1|]. apply jfind_spec; assumption.
Qed.
Print Assumptions C104_search_any.
(** When a search succeeds: exactly when the answer is an object whose member hits is an object that has no member hits, or an array of well formed hits. *)
Theorem C104_search_outcome W run srv c it l o rq rows : parseOk W -> faithful run srv -> requests (searchCmd W c it l o) rq ->
  ((exists rows', search run W c it l o rows = FtReply (true, rows')) <->
   exists out j m, srv rq = Some out /\ out <> [] /\ wParse W out = Some j /\ at_path [B "hits"] j (JObj m) /\
     ((forall v, ~ at_path [B "hits"] (JObj m) v) \/ exists hits, at_path [B "hits"] (JObj m) (JArr hits) /\ Forall goodHit hits)) /\
  (search run W c it l o rows = FtError <-> srv rq = None \/ srv rq = Some []).
Proof.
  intros HP F R. unfold search, runCheck. rewrite (F _ _ R). destruct (srv rq) as [[|b out]|].
  - split; [split; [intros [? ?]; discriminate|intros (o' & j & s & E & N & _); injection E as <-; contradiction]|split; auto].
  - split; [|split; [discriminate|intros [E | E]; discriminate]]. split.
    + intros [rows' H]. injection H as H. unfold result in H. destruct (wParse W (b :: out)) as [j|] eqn:E; [|discriminate]. pose proof (HP _ _ E) as U.
      destruct (jfind "hits" j) as [[h|]|] eqn:E1; try discriminate. pose proof (jfind_unique _ _ _ U E1) as Uh.
      destruct (jfind "hits" h) as [oh|] eqn:E2; [|discriminate]. assert (exists m, h = JObj m) as [m ->] by (destruct h; try discriminate; eauto).
      exists (b :: out), j, m. splits; [reflexivity|discriminate|exact E|apply jfind_spec; assumption|]. destruct oh as [v|].
      * right. destruct v as [| | | |hits|]; try discriminate. exists hits. split; [apply jfind_spec; assumption|].
        pose proof (uniqueKeys_arr _ (jfind_unique _ _ _ Uh E2)) as Ul. destruct (resultLoop_spec hits Ul _ _ _ H) as (l1 & l2 & vs & -> & _ & _ & Hb & _ & HG).
        rewrite (proj1 Hb eq_refl), app_nil_r. exact HG.
      * left. intros v A. apply jfind_spec in A; [|exact Uh]. rewrite E2 in A. discriminate.
    + intros (out' & j & m & E & _ & P & A & S). injection E as <-. unfold result. rewrite P. pose proof (HP _ _ P) as U. apply (jfind_spec "hits") in A; [|exact U]. rewrite A.
      pose proof (jfind_unique _ _ _ U A) as Uh. destruct S as [S | (hits & Ah & G)].
      * destruct (jfind "hits" (JObj m)) as [[v|]|] eqn:E2; [exfalso; apply (S v), jfind_spec; assumption|eexists; reflexivity|discriminate].
      * apply (jfind_spec "hits") in Ah; [|exact Uh]. rewrite Ah. pose proof (uniqueKeys_arr _ (jfind_unique _ _ _ Uh Ah)) as Ul.
        destruct (resultLoop hits rows) as [b' rows'] eqn:L. destruct (resultLoop_spec hits Ul _ _ _ L) as (l1 & l2 & vs & -> & _ & _ & _ & Hf & _).
        destruct b'; [eexists; reflexivity|]. exfalso. destruct (Hf eq_refl) as (h' & r & -> & NG). apply NG. rewrite Forall_forall in G. apply G, in_or_app. right. left. reflexivity.
  - split; [split; [intros [? ?]; discriminate|intros (o' & j & s & E & _); discriminate]|split; auto].
Qed.
Print Assumptions C104_search_outcome.
Example C104_no_hits : search (fun _ => Some (B "{""hits"":{""total"":0}}")) ftW ftClient (mkDocItem (B "i") (B "c") 1 (B "a")) (mkLimitItem 1 1) OpPrefix [B "z"] = FtReply (true, [B "z"]) /\
  search (fun _ => Some (B "{""error"":1}")) ftW ftClient (mkDocItem (B "i") (B "c") 1 (B "a")) (mkLimitItem 1 1) OpPrefix [B "z"] = FtReply (false, [B "z"]).
Proof. split; vm_compute; reflexivity. Qed.
(** A search that reports failure may already have added rows. *)
Definition ftAnswer : str := B "{""hits"":{""hits"":[{""_source"":{""value"":""a""}},{""_source"":{}},{""_source"":{""value"":1}},{""_source"":{""value"":""b""}}]}}".
Definition ftGood : str := B "{""took"":1,""hits"":{""total"":2,""hits"":[{""_source"":{""value"":""a""}},{""_id"":""x""},{""_source"":{""value"":""b""}}]}}".
Theorem C104_failed_rows_refuted :
  exists W run c it l o rows', parseOk W /\ search run W c it l o [] = FtReply (false, rows') /\ rows' <> [].
Proof.
  exists (mkFtWorld (wMd5 ftW) (wOrder ftW) (fun s => if strEqb s ftAnswer then readJson s else None)), (fun _ => Some ftAnswer), ftClient, (mkDocItem (B "i") (B "c") 1 (B "a")), (mkLimitItem 1 1), OpPrefix, [B "a"].
  splits; [|vm_compute; reflexivity|discriminate]. intros s j H. cbn [wParse] in H. destruct (strEqb s ftAnswer) eqn:E; [|discriminate]. apply strEqb_true in E. subst.
  vm_compute in H. injection H as <-. cbn. splits; repeat constructor; cbn; intros X; repeat (destruct X as [X | X]; try discriminate); contradiction.
Qed.
Print Assumptions C104_failed_rows_refuted.
Example C104_search_case : search (fun _ => Some ftGood) ftW ftClient (mkDocItem (B "i") (B "c") 1 (B "a")) (mkLimitItem 1 1) OpPrefix [B "z"] = FtReply (true, [B "z"; B "a"; B "b"]).
Proof. vm_compute. reflexivity. Qed.
Example C104_put_case : put (fun _ => Some (B "{""result"":""created"",""_version"":1}")) ftW ftClient (mkDocItem (B "i") (B "c") 1 (B "a")) = FtReply true /\
  put (fun _ => Some (B "{""result"":""noop""}")) ftW ftClient (mkDocItem (B "i") (B "c") 1 (B "a")) = FtReply false /\
  put (fun _ => Some []) ftW ftClient (mkDocItem (B "i") (B "c") 1 (B "a")) = FtError.
Proof. splits; vm_compute; reflexivity. Qed.
(** a shell that follows the specification, and a parser with the keys checked, meet the hypotheses *)
Definition specRun (srv : httpRequest -> option str) (line : str) : option str :=
  match shell line with Some [ws] => match curl ws with Some rq => srv rq | None => None end | _ => None end.
Example C104_faithful srv : faithful (specRun srv) srv.
Proof.
  intros cmd rq (ws & S & C). unfold specRun. assert (shell (cstr cmd) = shell cmd) as ->.
  { unfold shell. f_equal. apply cstr_id. clear. induction cmd as [|x cmd IH]; cbn; [auto|]. destruct (Z.eqb_spec x 0); cbn; [auto|]. intros [X | X]; auto. }
  rewrite S, C. reflexivity.
Qed.
Definition ftCreated : str := B "{""result"":""created"",""_version"":1}".
Definition ftParse (s : str) : option json := if strEqb s ftGood || strEqb s ftCreated then readJson s else None.
Definition ftW2 : ftWorld := mkFtWorld (wMd5 ftW) (wOrder ftW) ftParse.
Example C104_parse : parseOk ftW2 /\ worldOk ftW2.
Proof.
  split; [|apply ftW_ok]. intros s j H. cbn [wParse ftW2] in H. unfold ftParse in H. destruct (strEqb s ftGood || strEqb s ftCreated) eqn:E; [|discriminate]. apply orb_prop in E. rewrite !strEqb_true in E.
  destruct E as [-> | ->]; vm_compute in H; injection H as <-; cbn; splits; repeat constructor; cbn; intros X; repeat (destruct X as [X | X]; try discriminate); contradiction.
Qed.
(** a search through the shell of the specification to a server that answers every GET with two values *)
Definition ftServer (rq : httpRequest) : option str := if strEqb (rqMethod rq) (B "GET") then Some ftGood else Some ftCreated.
Example C104_search_whole :
  search (specRun ftServer) ftW2 ftClient (mkDocItem (B "idx") (B "col") 1 (B "it's")) (mkLimitItem 1 1) OpPrefix [B "z"] = FtReply (true, [B "z"] ++ [B "a"; B "b"]).
Proof.
  set (it := mkDocItem (B "idx") (B "col") 1 (B "it's")).
  destruct (C100_search_request ftW2 ftClient it (mkLimitItem 1 1) OpPrefix (proj2 C104_parse) ftClient_plain) as (data & R & _); [reflexivity|vm_compute; bytes|exact I|].
  assert (P : exists a b c, wParse ftW2 ftGood = Some (JObj [(B "took", JInt 1); (B "hits", JObj [(B "total", JInt 2); (B "hits", JArr [a; b; c])])]) /\
    a = JObj [(B "_source", JObj [(B "value", JStr (B "a"))])] /\ b = JObj [(B "_id", JStr (B "x"))] /\ c = JObj [(B "_source", JObj [(B "value", JStr (B "b"))])]).
  { eexists _, _, _. splits; vm_compute; reflexivity. }
  destruct P as (a & b & c & P & Ea & Eb & Ec).
  assert (U : uniqueKeys a /\ uniqueKeys b /\ uniqueKeys c) by (apply (proj1 C104_parse) in P; cbn in P; tauto).
  assert (Ca : carries a (B "a")) by (subst a; econstructor; [left; reflexivity|]; econstructor; [left; reflexivity|]; constructor).
  assert (Cc : carries c (B "b")) by (subst c; econstructor; [left; reflexivity|]; econstructor; [left; reflexivity|]; constructor).
  assert (Nb : forall s, ~ at_path [B "_source"] b s) by (intros s X; subst b; inversion X as [|? ? ? ? ? Y]; subst; destruct Y as [Y | []]; discriminate).
  assert (G : forall h v m m', uniqueKeys h -> h = JObj m -> In (B "_source", JObj m') m -> carries h v -> goodHit h).
  { intros h v m m' Uh -> Hi Cv. split; [eauto|]. split.
    - intros s Hs. assert (Q : at_path [B "_source"] (JObj m) (JObj m')) by (econstructor; [exact Hi|constructor]). rewrite (at_path_unique _ _ _ _ Uh Hs Q). eauto.
    - intros w Hw. rewrite (at_path_unique _ _ _ _ Uh Hw Cv). eauto. }
  eapply (C104_search_rows ftW2 (specRun ftServer) ftServer ftClient it (mkLimitItem 1 1) OpPrefix _ [B "z"] ftGood _ [a; b; c]); [apply C104_parse|apply C104_faithful|exact R|reflexivity|discriminate|exact P| | |].
  - econstructor; [right; left; reflexivity|]. econstructor; [right; left; reflexivity|]. constructor.
  - constructor; [eapply G; [apply U|exact Ea|left; reflexivity|exact Ca]|]. constructor; [|constructor; [eapply G; [apply U|exact Ec|left; reflexivity|exact Cc]|constructor]].
    unfold goodHit. splits; [eauto|intros s Hs; exfalso; exact (Nb s Hs)|]. intros v Hv. exfalso. inversion Hv as [|? ? m j ? Hi Hp Ek Em]; eapply Nb. rewrite <- Em. econstructor; [exact Hi|constructor].
  - apply hv_some; [exact Ca|]. apply hv_none; [|apply hv_some; [exact Cc|constructor]]. intros v Hv. inversion Hv as [|? ? m j ? Hi Hp Ek Em]; eapply Nb. rewrite <- Em. econstructor; [exact Hi|constructor].
Qed.
