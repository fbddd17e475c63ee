(** Properties C173 (ports) and C174 (network devices and host names). *)
From Coq Require Import String.
From Coq Require Import List.
From Verif Require Import Prelude ValueBase ValueProofs EvalModel DecProofs NetModel NetProps AssocModel ProcModel ProcProps PortModel.
Import ListNotations.
Local Open Scope Z_scope.
Local Open Scope list_scope.

(** * C173: specification *)
(** a character as a hexadecimal digit; the number that digits write, the last one counting once *)
Definition isHex (c d : Z) : Prop := (48 <= c <= 57 /\ d = c - 48) \/ (65 <= c <= 70 /\ d = c - 55).
Inductive hexNum : str -> Z -> Prop :=
| hn_none : hexNum [] 0
| hn_snoc g v c d : hexNum g v -> isHex c d -> hexNum (g ++ [c]) (16 * v + d).
(** the line of a socket with local port p (proc(5)): number, address, port, and behind it something else than a digit; the head of the table has no colon *)
Definition socketLine (l : str) (p : Z) : Prop := exists idx addr g c rest,
  l = idx ++ [58] ++ addr ++ [58] ++ g ++ c :: rest /\ idx <> [] /\ ~ In 58 idx /\ addr <> [] /\ ~ In 58 addr /\ g <> [] /\ hexNum g p /\ p <= 65535 /\
  (forall d, ~ isHex c d) /\ c <> 10 /\ c <> 13.
Inductive table : list str -> list Z -> Prop :=
| tb_end : table [] []
| tb_head l ls ps : ~ In 58 l -> table ls ps -> table (l :: ls) ps
| tb_socket l p ls ps : socketLine l p -> table ls ps -> table (l :: ls) (p :: ps).
(** the ports of a file: those of its table, or none if there is no such file *)
Definition fileOf (fs : fsys) (path : str) (ps : list Z) : Prop :=
  (exists p s ls, resolves fs path p /\ fsType fs p = FRegular /\ fsFile fs p = Some s /\ fileLines s ls /\ table ls ps) \/ (fsType fs path = FNotExist /\ ps = []).

Lemma hexDigit_iff c d : hexDigit c = Some d <-> isHex c d.
Proof.
  unfold hexDigit, isHex. destruct (Z.leb_spec 48 c), (Z.leb_spec c 57); cbn [andb]; [split; [intros E; injection E as <-; lia|intros [[? ->]|[? ->]]; [reflexivity|lia]]|..];
    (destruct (Z.leb_spec 65 c), (Z.leb_spec c 70); cbn [andb]; [split; [intros E; injection E as <-; lia|intros [[? ->]|[? ->]]; [lia|reflexivity]]|..]; split; try discriminate; lia).
Qed.
Lemma hexDigit_none c : (forall d, ~ isHex c d) -> hexDigit c = None.
Proof. intros H. destruct (hexDigit c) as [d|] eqn:E; [|reflexivity]. apply hexDigit_iff in E. destruct (H d E). Qed.
Lemma hexNum_value g v : hexNum g v -> hexValue g = v /\ 0 <= v.
Proof.
  induction 1 as [|g v c d H [IH P] D]; [split; [reflexivity|lia]|]. unfold hexValue in *. rewrite fold_left_app. cbn [fold_left]. rewrite IH.
  rewrite (proj2 (hexDigit_iff c d) D). split; [reflexivity|]. destruct D as [[? ->]|[? ->]]; lia.
Qed.
Lemma hexNum_all g v : hexNum g v -> Forall (fun c => hexDigit c <> None) g.
Proof.
  induction 1 as [|g v c d H IH D]; [constructor|]. apply Forall_app. split; [exact IH|]. constructor; [|constructor]. apply hexDigit_iff in D. congruence.
Qed.
Lemma hexRun_app g c rest : Forall (fun c => hexDigit c <> None) g -> hexDigit c = None -> hexRun (g ++ c :: rest) = g.
Proof.
  intros H N. induction H as [|x g X H IH]; cbn [app hexRun]; [rewrite N; reflexivity|]. destruct (hexDigit x); [|congruence]. rewrite IH. reflexivity.
Qed.
Lemma splitFirst_app a r : ~ In 58 a -> splitFirst 58 (a ++ [58] ++ r) = Some (a, r).
Proof.
  induction a as [|x a IH]; intros H; [reflexivity|]. cbn [app splitFirst]. destruct (Z.eqb_spec x 58) as [->|N]; [destruct H; left; reflexivity|].
  cbn [app] in IH. rewrite IH by (intros X; apply H; right; exact X). reflexivity.
Qed.
Lemma splitFirst_none s : ~ In 58 s -> splitFirst 58 s = None.
Proof.
  induction s as [|x s IH]; intros H; [reflexivity|]. cbn [splitFirst]. destruct (Z.eqb_spec x 58) as [->|N]; [destruct H; left; reflexivity|].
  rewrite IH by (intros X; apply H; right; exact X). reflexivity.
Qed.
Lemma portPat_head s : ~ In 58 s -> portPat s = None.
Proof.
  induction s as [|x s IH]; intros H; [reflexivity|]. cbn [portPat]. unfold portHere. rewrite splitFirst_none by exact H. apply IH. intros X; apply H; right; exact X.
Qed.
Lemma portPat_socket l p : socketLine l p -> exists g, portPat l = Some g /\ stoul16 g = Ret p /\ 0 <= p <= 65535.
Proof.
  intros (idx & addr & g & c & rest & -> & Ni & Ii & Na & Ia & Ng & H & P & D & C1 & C2). exists g. destruct (hexNum_value _ _ H) as [V P0].
  assert (E : portHere (idx ++ [58] ++ addr ++ [58] ++ g ++ c :: rest) = Some g).
  { unfold portHere. rewrite splitFirst_app by exact Ii. destruct idx as [|i idx]; [congruence|]. rewrite splitFirst_app by exact Ia. destruct addr as [|a addr]; [congruence|].
    unfold hexGroup. rewrite (hexRun_app g c rest (hexNum_all _ _ H) (hexDigit_none c D)).
    rewrite skipn_app, skipn_all2, Nat.sub_diag by lia. cbn [skipn app].
    assert ((c =? 10) = false) as -> by (apply Z.eqb_neq; exact C1). assert ((c =? 13) = false) as -> by (apply Z.eqb_neq; exact C2).
    cbn [orb negb]. destruct g; [congruence|reflexivity]. }
  splits; [|unfold stoul16; rewrite V; destruct (Z.ltb_spec p 18446744073709551616); [reflexivity|lia]|lia|exact P].
  destruct idx as [|i idx]; [congruence|]. cbn [app] in *. cbn [portPat]. rewrite E. reflexivity.
Qed.
Lemma table_ports ls ps : table ls ps -> portsIn (found (Some portPat) ls) = Ret ps.
Proof.
  induction 1 as [|l ls ps N H IH|l p ls ps N H IH]; [reflexivity| |].
  - unfold found in *. cbn [flat_map]. rewrite (portPat_head l N). exact IH.
  - destruct (portPat_socket l p N) as (g & E & V & P). unfold found in *. cbn [flat_map]. rewrite E. cbn [app portsIn]. rewrite V. cbn [obind]. rewrite IH. cbn [obind].
    unfold u16. rewrite Z.mod_small by lia. reflexivity.
Qed.
(** The ports in use are exactly the local ports of all sockets of the six tables, whatever the tables hold and whichever of them are missing. *)
Theorem C173_in_use : forall fs pss, Forall2 (fileOf fs) (map B ["/proc/net/tcp"; "/proc/net/tcp6"; "/proc/net/udp"; "/proc/net/udp6"; "/proc/net/raw"; "/proc/net/raw6"]%string) pss ->
  exists n, forall fuel, (n <= fuel)%nat -> getPortsInUse fs fuel = Ret (concat pss).
Proof.
  intros fs pss H. unfold getPortsInUse. change procFiles with (map B ["/proc/net/tcp"; "/proc/net/tcp6"; "/proc/net/udp"; "/proc/net/udp6"; "/proc/net/raw"; "/proc/net/raw6"]%string).
  induction H as [|path ps paths pss F H (n & IH)]; [exists O; reflexivity|].
  destruct F as [(p & s & ls & R & T & O & L & Tb)|[T ->]].
  - exists (max n (List.length ls)). intros fuel Lf. cbn [portsOfFiles]. rewrite (C125_file fs _ path p s ls fuel R T O L ltac:(lia)). cbn [obind].
    rewrite (table_ports ls ps Tb). cbn [obind]. rewrite IH by lia. reflexivity.
  - exists n. intros fuel Lf. cbn [portsOfFiles]. rewrite C125_unreadable by (rewrite T; (discriminate || intros [Q _]; discriminate Q)). cbn [obind portsIn]. rewrite IH by lia. reflexivity.
Qed.

(** ** The range *)
Lemma dropSpace_id s : (match s with c :: _ => isSpace c = false | [] => True end) -> dropSpace s = s.
Proof. destruct s as [|c s]; [reflexivity|]. cbn. intros ->. reflexivity. Qed.
Lemma dropSpace_app w s : forallb isSpace w = true -> (match s with c :: _ => isSpace c = false | [] => True end) -> dropSpace (w ++ s) = s.
Proof.
  induction w as [|c w IH]; intros W S; [apply dropSpace_id; exact S|]. cbn [forallb] in W. apply andb_prop in W. destruct W as [W1 W2]. cbn [app dropSpace]. rewrite W1. apply IH; assumption.
Qed.
Lemma decZ_head a : 0 <= a -> exists c r, decZ a = c :: r /\ 48 <= c <= 57.
Proof.
  intros H. destruct (decZ_nonneg a H) as (N & D & _). destruct (decZ a) as [|c r]; [congruence|]. exists c, r. split; [reflexivity|]. cbn in D. apply andb_prop in D. unfold isDigit in D. lia.
Qed.
Lemma scan_dec a t w : 0 <= a <= 65535 -> forallb isSpace w = true -> stops t = true -> scanHu (w ++ decZ a ++ t) = Some (a, t).
Proof.
  intros H W T. unfold scanHu. destruct (decZ_head a ltac:(lia)) as (c & r & E & C). destruct (decZ_nonneg a ltac:(lia)) as (N & _ & D). specialize (D t T).
  assert (Sp : isSpace c = false) by (unfold isSpace; lia). rewrite dropSpace_app; [|exact W|rewrite E; exact Sp].
  assert (Sg : takeSign (decZ a ++ t) = (false, decZ a ++ t)).
  { rewrite E. cbn [app]. unfold takeSign. destruct c as [|q|q]; try reflexivity. do 6 (destruct q as [q|q|]; try reflexivity); lia. }
  rewrite Sg. rewrite D. destruct (List.length (decZ a)) as [|n] eqn:L; [rewrite E in L; discriminate L|]. rewrite <- L.
  destruct (Z.ltb_spec 18446744073709551615 a); [lia|]. unfold u16. rewrite Z.mod_small by lia. do 2 f_equal.
  rewrite skipn_app, skipn_all2, Nat.sub_diag by lia. reflexivity.
Qed.
(** The two numbers of the file are the range, whatever blanks are around them. *)
Theorem C173_range : forall a b w0 w t, 0 <= a <= 65535 -> 0 <= b <= 65535 -> forallb isSpace w0 = true -> forallb isSpace w = true -> w <> [] -> stops t = true ->
  getDynamicPortRange (Some (w0 ++ decZ a ++ w ++ decZ b ++ t)) true = Some (a, b).
Proof.
  intros a b w0 w t A Bb W0 W Nw T. unfold getDynamicPortRange. rewrite (scan_dec a); [|exact A|exact W0|].
  - rewrite (scan_dec b t w Bb W T). reflexivity.
  - destruct w as [|c w]; [congruence|]. cbn in W |- *. apply andb_prop in W. unfold isSpace, isDigit in *. lia.
Qed.
(** Without digits there (no such file, say) it is the range that IANA gives, and only a pipe that fails is an error. *)
Theorem C173_range_default : forall s, Forall (fun c => isDigit c = false) s -> getDynamicPortRange (Some s) true = Some (49152, 65535).
Proof.
  intros s H. unfold getDynamicPortRange. assert (E : scanHu s = None); [|rewrite E; reflexivity].
  unfold scanHu. assert (D : Forall (fun c => isDigit c = false) (dropSpace s)).
  { clear -H. induction H as [|c s C H IH]; [constructor|]. cbn [dropSpace]. destruct (isSpace c); [exact IH|constructor; assumption]. }
  destruct (takeSign (dropSpace s)) as [neg s2] eqn:T. assert (D2 : Forall (fun c => isDigit c = false) s2).
  { unfold takeSign in T. destruct (dropSpace s) as [|c r]; [injection T as <- <-; constructor|].
    assert (Q : s2 = c :: r \/ s2 = r) by (destruct c as [|q|q]; try (injection T as <- <-; auto); do 6 (destruct q as [q|q|]; try (injection T as <- <-; auto))).
    destruct Q as [->| ->]; [exact D|inversion D; assumption]. }
  assert (digits s2 0 = (O, 0)) as ->; [|reflexivity].
  destruct D2 as [|c r C D2]; [reflexivity|]. cbn [digits]. unfold isDigit in C. rewrite C. reflexivity.
Qed.
Theorem C173_range_fails : forall out closed, getDynamicPortRange out closed = None <-> out = None \/ closed = false.
Proof.
  intros [s|] []; cbn; split; intros H; try discriminate H; auto; destruct H as [H|H]; discriminate H.
Qed.

(** ** The port *)
Lemma range_u16 out closed low high : getDynamicPortRange out closed = Some (low, high) -> 0 <= low <= 65535.
Proof.
  unfold getDynamicPortRange. destruct out as [s|]; [|discriminate]. assert (Q : forall s a r, scanHu s = Some (a, r) -> 0 <= a <= 65535).
  { clear. intros s a r. unfold scanHu. destruct (takeSign (dropSpace s)) as [neg s2]. destruct (digits s2 0) as [n z]. destruct n; [discriminate|]. intros E. injection E as <- <-. unfold u16. lia. }
  destruct (scanHu s) as [[a s1]|] eqn:E1; [destruct (scanHu s1) as [[b s2]|] eqn:E2|]; destruct closed; intros E; try discriminate E; injection E as <- <-; try lia.
  exact (Q _ _ _ E1).
Qed.
Lemma in_existsb p l : existsb (Z.eqb p) l = true <-> In p l.
Proof. rewrite existsb_exists. split; [intros (x & I & E); apply Z.eqb_eq in E; congruence|intros I; exists p; split; [exact I|apply Z.eqb_refl]]. Qed.
Definition drawn (low w : Z) : Z := 1025 + w mod (low - 1025).
Lemma availLoop_S f draw low used n : 1025 < low <= 65535 ->
  availLoop (S f) draw low used n =
  (if existsb (Z.eqb (drawn low (draw n))) used || existsb (Z.eqb (drawn low (draw n) + 1)) used then availLoop f draw low used (S n) else Ret (drawn low (draw n))).
Proof.
  intros L. cbn [availLoop]. unfold rand32Between. assert ((1025 =? low) = false) as -> by lia. assert ((1025 <? low) = true) as -> by lia. cbn [obind]. fold (drawn low (draw n)).
  assert (R : 1025 <= drawn low (draw n) < low) by (unfold drawn; pose proof (Z.mod_pos_bound (draw n) (low - 1025)); lia).
  unfold u16. rewrite !(Z.mod_small (drawn low (draw n))), Z.mod_small by lia.
  destruct (existsb (Z.eqb (drawn low (draw n))) used); [reflexivity|]. cbn [orb]. reflexivity.
Qed.
Definition pairFree (low : Z) (used : list Z) (p : Z) : Prop := 1025 <= p < low /\ ~ In p used /\ ~ In (p + 1) used.
(** If the range of the system begins above 1025: the port is from 1025 on and below that range, and neither it nor the next one is in use. *)
Theorem C173_free : forall fs lines out closed draw fuel low high used p, getDynamicPortRange out closed = Some (low, high) -> 1025 < low ->
  getPortsInUse fs lines = Ret used -> getAvailablePort fs lines out closed draw fuel = Ret p -> 1025 <= p < low /\ ~ In p used /\ ~ In (p + 1) used.
Proof.
  intros fs lines out closed draw fuel low high used p R L U. unfold getAvailablePort. rewrite R, U. cbn [obind]. generalize O. pose proof (range_u16 _ _ _ _ R) as B16.
  induction fuel as [|f IH]; intros n; [discriminate|]. rewrite availLoop_S by lia.
  destruct (existsb (Z.eqb (drawn low (draw n))) used) eqn:E1; [apply IH|]. destruct (existsb (Z.eqb (drawn low (draw n) + 1)) used) eqn:E2; [apply IH|]. cbn [orb].
  intros E. apply Ret_inj in E. subst p. splits.
  - unfold drawn. pose proof (Z.mod_pos_bound (draw n) (low - 1025)). lia.
  - unfold drawn. pose proof (Z.mod_pos_bound (draw n) (low - 1025)). lia.
  - rewrite <- in_existsb. congruence.
  - rewrite <- in_existsb. congruence.
Qed.
(** It is found as soon as the generator draws a port that will do, and if there is none the loop never ends. *)
Theorem C173_found : forall fs lines out closed draw fuel low high used n, getDynamicPortRange out closed = Some (low, high) -> 1025 < low ->
  getPortsInUse fs lines = Ret used -> pairFree low used (1025 + draw n mod (low - 1025)) -> (n < fuel)%nat ->
  exists p, getAvailablePort fs lines out closed draw fuel = Ret p.
Proof.
  intros fs lines out closed draw fuel low high used n R L U F N. unfold getAvailablePort. rewrite R, U. cbn [obind]. pose proof (range_u16 _ _ _ _ R) as B16.
  assert (Q : forall f k, (k <= n < k + f)%nat -> exists p, availLoop f draw low used k = Ret p); [|apply Q; lia].
  induction f as [|f IH]; intros k K; [lia|]. rewrite availLoop_S by lia. destruct (Nat.eq_dec k n) as [->|Nk].
  - fold (drawn low (draw n)) in F. destruct F as (_ & F1 & F2). rewrite <- in_existsb in F1, F2. apply not_true_is_false in F1, F2. rewrite F1, F2. eexists. reflexivity.
  - destruct (_ || _); [apply IH; lia|eexists; reflexivity].
Qed.
Theorem C173_never : forall fs lines out closed draw fuel low high used, getDynamicPortRange out closed = Some (low, high) -> 1025 < low ->
  getPortsInUse fs lines = Ret used -> (forall p, ~ pairFree low used p) -> getAvailablePort fs lines out closed draw fuel = Diverge.
Proof.
  intros fs lines out closed draw fuel low high used R L U F. unfold getAvailablePort. rewrite R, U. cbn [obind]. generalize O. pose proof (range_u16 _ _ _ _ R) as B16.
  induction fuel as [|f IH]; intros n; [reflexivity|]. rewrite availLoop_S by lia. specialize (F (drawn low (draw n))). unfold pairFree in F. rewrite <- !in_existsb in F.
  destruct (existsb (Z.eqb (drawn low (draw n))) used); [apply IH|]. destruct (existsb (Z.eqb (drawn low (draw n) + 1)) used); [apply IH|]. exfalso. apply F.
  splits; try discriminate; unfold drawn; pose proof (Z.mod_pos_bound (draw n) (low - 1025)); lia.
Qed.
(** But where the range begins at 1024, a usual setting, or below, there is nothing to draw from: undefined.  Where it begins at 1025 the port is 0. *)
Theorem C173_low_refuted : forall fs lines high draw fuel used, 0 <= high <= 65535 -> getPortsInUse fs lines = Ret used ->
  (forall low, 0 <= low < 1025 -> getAvailablePort fs lines (Some (decZ low ++ [9] ++ decZ high ++ [10])) true draw (S fuel) = UB) /\
  (~ In 0 used -> ~ In 1 used -> getAvailablePort fs lines (Some (decZ 1025 ++ [9] ++ decZ high ++ [10])) true draw (S fuel) = Ret 0).
Proof.
  intros fs lines high draw fuel used H U.
  assert (E : forall low, 0 <= low <= 65535 -> getDynamicPortRange (Some (decZ low ++ [9] ++ decZ high ++ [10])) true = Some (low, high)).
  { intros low Hl. apply (C173_range low high [] [9] [10]); auto. discriminate. }
  split.
  - intros low Hl. unfold getAvailablePort. rewrite E by lia. rewrite U. cbn [obind availLoop]. unfold rand32Between. assert ((1025 =? low) = false) as -> by lia.
    assert ((1025 <? low) = false) as -> by lia. reflexivity.
  - intros N0 N1. unfold getAvailablePort. rewrite E by lia. rewrite U. cbn [obind availLoop]. change (rand32Between 1025 1025 (draw 0%nat)) with (Ret 0). cbn [obind].
    change (u16 0) with 0. change (u16 (0 + 1)) with 1. rewrite <- in_existsb in N0, N1. apply not_true_is_false in N0, N1. rewrite N0, N1. reflexivity.
Qed.
Example C173_case :
  let tcp := B "  sl  local_address rem_address" ++ [10] ++ B "   0: 0100007F:13AD 00000000:0000 0A" ++ [10] ++ B "   1: 00000000:0401 00000000:0000 0A" ++ [10] in
  let fs := mkFs (fun p => if strEqb p (B "/proc/net/tcp") then FRegular else FNotExist) (fun _ => None) (fun _ => Some tcp) (fun _ => None) in
  getPortsInUse fs 9 = Ret [5037; 1025] /\
  getAvailablePort fs 9 (Some (B "32768" ++ [9] ++ B "60999" ++ [10])) true (fun n => Z.of_nat n + 4011) 9 = Ret 5038.
Proof. cbv zeta. split; vm_compute; reflexivity. Qed.
Example C173_case_line : socketLine (B "   1: 00000000:0401 00000000:0000 0A") 1025.
Proof.
  exists (B "   1"), (B " 00000000"), (B "0401"), 32, (B "00000000:0000 0A"). splits; try reflexivity; try discriminate; try lia.
  - cbn. lia.
  - cbn. lia.
  - change (B "0401") with (((([] ++ [48]) ++ [52]) ++ [48]) ++ [49]). change 1025 with (16 * (16 * (16 * (16 * 0 + 0) + 4) + 0) + 1). repeat constructor; unfold isHex; lia.
  - intros d [[? _]|[? _]]; lia.
Qed.
Example C173_case_never : forall p, ~ pairFree 1026 [1026] p.
Proof. intros p ((A & Bb) & _ & N). apply N. left. lia. Qed.

(** * C174 *)
(** the last IPv4 address of a device in the list of the system *)
Definition byte (b : Z) : Prop := 0 <= b <= 255.
Definition isAddr (x : sockAddr) : Prop := match x with In4 a b c d => byte a /\ byte b /\ byte c /\ byte d | OtherFamily => True end.
Inductive lastAddr (dev : str) : list (str * option sockAddr) -> sockAddr -> Prop :=
| la_here pre a b c d post : (forall x, ~ In (dev, Some x) post \/ x = OtherFamily) -> lastAddr dev (pre ++ (dev, Some (In4 a b c d)) :: post) (In4 a b c d).
(** the text of an address: four numbers without leading zeros, separated by dots (C57) *)
Definition isText (x : sockAddr) (s : str) : Prop :=
  match x with In4 a b c d => exists ta tb tc td, s = ta ++ [46] ++ tb ++ [46] ++ tc ++ [46] ++ td /\ group ta a /\ group tb b /\ group tc c /\ group td d | OtherFamily => False end.
Lemma dec_group v : 0 <= v <= 255 -> group (decZ v) v.
Proof.
  intros H. assert (K : forallb (fun i => groupB (decZ (Z.of_nat i)) (Z.of_nat i)) (seq 0 256) = true) by (vm_compute; reflexivity).
  rewrite forallb_forall in K. specialize (K (Z.to_nat v)). assert (G : groupB (decZ (Z.of_nat (Z.to_nat v))) (Z.of_nat (Z.to_nat v)) = true) by (apply K, in_seq; lia).
  rewrite Z2Nat.id in G by lia. unfold groupB in G. rewrite !andb_true_iff in G. destruct G as [[[[G1 G2] G3] G4] G5]. unfold group. splits; auto; try lia.
  - intros E. rewrite E in G1. discriminate.
  - intros E. apply orb_prop in G5. destruct G5 as [G5 | G5]; [rewrite E in G5; discriminate|]. apply strEqb_eq, G5.
Qed.
Lemma text_ntoa a b c d : isAddr (In4 a b c d) -> isText (In4 a b c d) (inetNtoa a b c d).
Proof. intros (A & Bb & C & D). exists (decZ a), (decZ b), (decZ c), (decZ d). splits; [reflexivity|apply dec_group; assumption..]. Qed.
Lemma strEqb_iff a b : strEqb a b = true <-> a = b.
Proof. split; [apply strEqb_eq|intros ->; apply strEqb_refl]. Qed.
(** the map after the loop *)
Fixpoint lastOf (dev : str) (l : list (str * option sockAddr)) : option str :=
  match l with
  | [] => None
  | (n, Some (In4 a b c d)) :: t => match lastOf dev t with Some s => Some s | None => if strEqb dev n then Some (inetNtoa a b c d) else None end
  | _ :: t => lastOf dev t
  end.
Definition present (l : list (str * option sockAddr)) : Prop := forall n, ~ In (n, None) l.
Lemma devLoop_ok l : forall m, present l -> exists m', devLoop l m = Ret m' /\ (forall dev, aget strEqb dev m' = match lastOf dev l with Some s => Some s | None => aget strEqb dev m end) /\
  (NoDup (map fst m) -> NoDup (map fst m')) /\ (m <> [] -> m' <> []).
Proof.
  induction l as [|[n [x|]] l IH]; intros m P.
  - exists m. splits; auto.
  - destruct x as [a b c d|]; cbn [devLoop lastOf].
    + destruct (IH (aset strEqb n (inetNtoa a b c d) m)) as (m' & E & G & N & Ne); [intros k K; apply (P k); right; exact K|]. exists m'. splits; auto.
      * intros dev. rewrite G. destruct (lastOf dev l); [reflexivity|]. rewrite (aget_aset strEqb strEqb_iff). destruct (strEqb dev n); reflexivity.
      * intros D. apply N. apply (aset_keys strEqb strEqb_iff). exact D.
      * intros _. apply Ne. destruct m as [|[k v] m]; [discriminate|]. cbn. destruct (strEqb n k); discriminate.
    + apply IH. intros k K. apply (P k). right. exact K.
  - destruct (P n). left. reflexivity.
Qed.
Lemma lastOf_some dev l s : lastOf dev l = Some s -> exists x, lastAddr dev l x /\ match x with In4 a b c d => s = inetNtoa a b c d | OtherFamily => False end.
Proof.
  induction l as [|[n [x|]] l IH]; intros E; [discriminate E| |].
  - assert (Up : lastOf dev l = Some s -> exists y, lastAddr dev ((n, Some x) :: l) y /\ match y with In4 a b c d => s = inetNtoa a b c d | OtherFamily => False end).
    { intros Q. destruct (IH Q) as (y & L & T). exists y. split; [|exact T]. destruct L as [pre a b c d post L]. apply (la_here dev ((n, Some x) :: pre)). exact L. }
    destruct x as [a b c d|]; cbn [lastOf] in E; [|exact (Up E)]. destruct (lastOf dev l) as [s'|] eqn:E'; [exact (Up E)|].
    destruct (strEqb dev n) eqn:Q; [|discriminate E]. injection E as <-. apply strEqb_eq in Q. subst n. exists (In4 a b c d). split; [|reflexivity]. apply (la_here dev []).
    clear -E'. induction l as [|[k [y|]] l IH]; intros x; [left; intros []| |].
    + destruct y as [a b c d|]; cbn [lastOf] in E'.
      * destruct (lastOf dev l) as [s'|] eqn:E2; [discriminate E'|]. destruct (strEqb dev k) eqn:K; [discriminate E'|].
        destruct (IH eq_refl x) as [N| ->]; [|right; reflexivity]. left. intros [Q|Q]; [|exact (N Q)]. injection Q as -> <-. rewrite strEqb_refl in K. discriminate K.
      * destruct (IH E' x) as [N| ->]; [|right; reflexivity]. destruct x as [a b c d|]; [|right; reflexivity]. left. intros [Q|Q]; [discriminate Q|exact (N Q)].
    + destruct (IH E' x) as [N| ->]; [|right; reflexivity]. left. intros [Q|Q]; [discriminate Q|exact (N Q)].
  - cbn [lastOf] in E. destruct (IH E) as (y & L & T). exists y. split; [|exact T]. destruct L as [pre a b c d post L]. apply (la_here dev ((n, None) :: pre)). exact L.
Qed.
Lemma lastOf_none dev l : lastOf dev l = None <-> forall a b c d, ~ In (dev, Some (In4 a b c d)) l.
Proof.
  induction l as [|[n [x|]] l IH]; [split; [intros _ a b c d []|reflexivity]| |].
  - destruct x as [a b c d|]; cbn [lastOf].
    + destruct (lastOf dev l) as [s|] eqn:E.
      * split; [discriminate|]. intros Q. assert (Q' : Some s = None) by (apply IH; intros a' b' c' d' I; apply (Q a' b' c' d'); right; exact I). discriminate Q'.
      * destruct (strEqb dev n) eqn:K.
        -- apply strEqb_eq in K. subst n. split; [discriminate|]. intros Q. destruct (Q a b c d). left. reflexivity.
        -- split; [|reflexivity]. intros _ a' b' c' d' [Q|Q]; [injection Q as -> <- <- <- <-; rewrite strEqb_refl in K; discriminate K|]. apply (proj1 IH eq_refl) in Q. exact Q.
    + rewrite IH. split; intros Q a b c d; [intros [X|X]; [discriminate X|exact (Q a b c d X)]|intros X; exact (Q a b c d (or_intror X))].
  - cbn [lastOf]. rewrite IH. split; intros Q a b c d; [intros [X|X]; [discriminate X|exact (Q a b c d X)]|intros X; exact (Q a b c d (or_intror X))].
Qed.
Lemma lastAddr_In dev l x : lastAddr dev l x -> In (dev, Some x) l.
Proof. intros [pre a b c d post _]. apply in_or_app. right. left. reflexivity. Qed.
(** If every device of the list has an address: a device is answered with the text of its last IPv4 address, and fails exactly if it has none. *)
Theorem C174_device : forall l dev, present l -> (forall n x, In (n, Some x) l -> isAddr x) -> dev <> B "any" ->
  ((forall a b c d, ~ In (dev, Some (In4 a b c d)) l) /\ getIPv4FromDevice (Some l) dev = Ret None) \/
  (exists x s, lastAddr dev l x /\ isText x s /\ getIPv4FromDevice (Some l) dev = Ret (Some s)).
Proof.
  intros l dev P A Na. unfold getIPv4FromDevice. assert (strEqb dev (B "any") = false) as ->.
  { destruct (strEqb dev (B "any")) eqn:E; [|reflexivity]. apply strEqb_eq in E. congruence. }
  unfold listDeviceAndIPv4s. destruct (devLoop_ok l [] P) as (m & -> & G & _). cbn [obind]. specialize (G dev). destruct (lastOf dev l) as [s|] eqn:E.
  - right. destruct (lastOf_some dev l s E) as (x & L & T). exists x, s. splits; [exact L| |].
    + destruct x as [a b c d|]; [|destruct T]. subst s. apply text_ntoa. apply (A dev). apply lastAddr_In. exact L.
    + destruct m as [|e m]; [cbn in G; discriminate G|]. rewrite G. reflexivity.
  - left. split; [apply lastOf_none; exact E|]. destruct m as [|e m]; [reflexivity|]. rewrite G. reflexivity.
Qed.
Theorem C174_any : forall ifs, getIPv4FromDevice ifs (B "any") = Ret (Some (B "0.0.0.0")).
Proof. reflexivity. Qed.
(** The list of all devices has every device with an IPv4 address once, and the list of addresses is that of one address for each. *)
Theorem C174_list : forall l, present l -> exists r, listDeviceAndIPv4s (Some l) = Ret r /\ listIPv4s (Some l) = Ret (option_map (map snd) r) /\
  (r = None <-> forall n a b c d, ~ In (n, Some (In4 a b c d)) l) /\
  (forall m, r = Some m -> NoDup (map fst m) /\ forall dev, (exists a b c d, In (dev, Some (In4 a b c d)) l) <-> In dev (map fst m)).
Proof.
  intros l P. unfold listIPv4s, listDeviceAndIPv4s. destruct (devLoop_ok l [] P) as (m & -> & G & N & _). cbn [obind].
  assert (K : forall dev, (exists a b c d, In (dev, Some (In4 a b c d)) l) <-> In dev (map fst m)).
  { intros dev. specialize (G dev). split.
    - intros (a & b & c & d & I). destruct (lastOf dev l) as [s|] eqn:E; [|apply lastOf_none with (a := a) (b := b) (c := c) (d := d) in E; destruct (E I)].
      apply (aget_In strEqb strEqb_iff) in G. apply in_map_iff. exists (dev, s). split; [reflexivity|exact G].
    - intros I. destruct (lastOf dev l) as [s|] eqn:E.
      + destruct (lastOf_some dev l s E) as ([a b c d|] & L & T); [|destruct T]. exists a, b, c, d. apply lastAddr_In. exact L.
      + cbn in G. apply (aget_None strEqb strEqb_iff) in G. destruct (G I). }
  eexists. splits; [reflexivity|reflexivity| |].
  - destruct m as [|[k v] m]; (split; [try discriminate|]).
    + intros _ n a b c d I. assert (Q : In n (map fst (@nil (str * str)))) by (apply K; eauto). destruct Q.
    + reflexivity.
    + intros Q. destruct (proj2 (K k)) as (a & b & c & d & I); [left; reflexivity|]. destruct (Q k a b c d I).
  - intros m' E. destruct m as [|e m]; [discriminate E|]. injection E as <-. split; [apply N; constructor|exact K].
Qed.
(** "All addresses are listed" is false: a device with two addresses gives one. *)
Theorem C174_all_refuted : exists l, present l /\ In (B "eth0", Some (In4 10 0 0 1)) l /\
  listIPv4s (Some l) = Ret (Some [B "127.0.0.1"; B "10.0.0.2"]).
Proof.
  exists [(B "lo", Some (In4 127 0 0 1)); (B "eth0", Some (In4 10 0 0 1)); (B "eth0", Some (In4 10 0 0 2)); (B "eth0", Some OtherFamily)]. splits.
  - intros n Q. cbn in Q. intuition discriminate.
  - cbn. auto.
  - vm_compute. reflexivity.
Qed.
(** A device without an address makes every question about devices but any undefined. *)
Theorem C174_null_refuted : forall l n dev, In (n, None) l -> dev <> B "any" ->
  listDeviceAndIPv4s (Some l) = UB /\ listIPv4s (Some l) = UB /\ getIPv4FromDevice (Some l) dev = UB.
Proof.
  intros l n dev I Na. assert (E : forall m, devLoop l m = UB).
  { induction l as [|[k [x|]] l IH]; intros m; [destruct I| |reflexivity]. destruct I as [Q|I]; [discriminate Q|]. destruct x; cbn [devLoop]; apply IH; exact I. }
  assert (Q : listDeviceAndIPv4s (Some l) = UB) by (unfold listDeviceAndIPv4s; rewrite E; reflexivity).
  splits; [exact Q|unfold listIPv4s; rewrite Q; reflexivity|]. unfold getIPv4FromDevice. rewrite Q.
  destruct (strEqb dev (B "any")) eqn:S; [apply strEqb_eq in S; congruence|reflexivity].
Qed.

(** ** Host names *)
Inductive resolved (port : Z) : list sockAddr -> list hostAddr -> Prop :=
| rs_none : resolved port [] []
| rs_other l r : resolved port l r -> resolved port (OtherFamily :: l) r
| rs_ip a b c d s l r : isText (In4 a b c d) s -> resolved port l r -> resolved port (In4 a b c d :: l) (NetModel.mkHost s port :: r).
Lemma htonl_octets a b c d : byte a -> byte b -> byte c -> byte d ->
  0 <= htonl (sAddr a b c d) < 2 ^ 32 /\ octet (htonl (sAddr a b c d)) 3 = a /\ octet (htonl (sAddr a b c d)) 2 = b /\ octet (htonl (sAddr a b c d)) 1 = c /\ octet (htonl (sAddr a b c d)) 0 = d.
Proof.
  unfold byte. intros A Bb C D. assert (E : htonl (sAddr a b c d) = a * 16777216 + b * 65536 + c * 256 + d).
  { unfold htonl, sAddr. assert ((a + 256 * b + 65536 * c + 16777216 * d) mod 256 = a) as -> by lia.
    assert ((a + 256 * b + 65536 * c + 16777216 * d) / 256 = b + 256 * c + 65536 * d) as -> by lia.
    assert ((a + 256 * b + 65536 * c + 16777216 * d) / 65536 = c + 256 * d) as -> by lia.
    assert ((a + 256 * b + 65536 * c + 16777216 * d) / 16777216 = d) as -> by lia.
    assert ((b + 256 * c + 65536 * d) mod 256 = b) as -> by lia. assert ((c + 256 * d) mod 256 = c) as -> by lia. rewrite (Z.mod_small d) by lia. reflexivity. }
  rewrite E. unfold octet. change (2 ^ 32) with 4294967296. change (256 ^ 3) with 16777216. change (256 ^ 2) with 65536. change (256 ^ 1) with 256. change (256 ^ 0) with 1. splits; lia.
Qed.
(** A host name resolves to all its IPv4 addresses, in order, each as its text with the given port, and fails exactly if there is none. *)
Theorem C174_resolve : forall l port, (forall x, In x l -> isAddr x) -> exists r, resolved port l r /\
  resolveHost (Some l) port = Ret (match r with [] => None | _ => Some r end) /\ (r = [] <-> forall a b c d, ~ In (In4 a b c d) l).
Proof.
  intros l port A. assert (Q : exists r, resolved port l r /\ resolveLoop l port = Ret r).
  { induction l as [|x l IH]; [exists []; split; [constructor|reflexivity]|]. destruct IH as (r & R & E); [intros y Y; apply A; right; exact Y|].
    destruct x as [a b c d|]; [|exists r; split; [constructor; exact R|exact E]].
    destruct (A (In4 a b c d) (or_introl eq_refl)) as (Ba & Bb & Bc & Bd). destruct (htonl_octets a b c d Ba Bb Bc Bd) as (H & O3 & O2 & O1 & O0).
    destruct (C57_four_octets _ H) as (ta & tb & tc & td & T & Ga & Gb & Gc & Gd). rewrite O3 in Ga. rewrite O2 in Gb. rewrite O1 in Gc. rewrite O0 in Gd.
    eexists. split; [|cbn [resolveLoop]; rewrite T, E; reflexivity]. constructor; [|exact R]. exists ta, tb, tc, td. splits; auto. }
  destruct Q as (r & R & E). exists r. splits; [exact R| |].
  - unfold resolveHost. rewrite E. reflexivity.
  - clear -R. induction R as [|l r R IH|a b c d s l r T R IH].
    + split; [intros _ a b c d []|reflexivity].
    + rewrite IH. split; intros Q a b c d; [intros [X|X]; [discriminate X|exact (Q a b c d X)]|intros X; exact (Q a b c d (or_intror X))].
    + split; [discriminate|]. intros Q. destruct (Q a b c d). left. reflexivity.
Qed.
(** The text is the one that the listing of the devices would give, and only that: an address has one text. *)
Theorem C174_one_text : forall x s s', isText x s -> isText x s' -> s = s'.
Proof.
  assert (U : forall v s, group s v -> s = decZ v).
  { assert (D : forall c, isDigit c = true -> In c [48; 49; 50; 51; 52; 53; 54; 55; 56; 57]) by (intros c E; unfold isDigit in E; cbn; lia).
    set (ds := [48; 49; 50; 51; 52; 53; 54; 55; 56; 57]) in *.
    assert (K1 : forallb (fun a => strEqb [a] (decZ (dotted [a] 0 0))) ds = true) by (vm_compute; reflexivity).
    assert (K2 : forallb (fun a => forallb (fun b => (a =? 48) || strEqb [a; b] (decZ (dotted [a; b] 0 0))) ds) ds = true) by (vm_compute; reflexivity).
    assert (K3 : forallb (fun a => forallb (fun b => forallb (fun c => (a =? 48) || strEqb [a; b; c] (decZ (dotted [a; b; c] 0 0))) ds) ds) ds = true) by (vm_compute; reflexivity).
    intros v s (N & L & Dg & V & _ & Z0). subst v. destruct s as [|a [|b [|c [|e s]]]]; [congruence| | | |cbn in L; lia]; cbn [forallb] in Dg; rewrite ?andb_true_iff in Dg.
    - rewrite forallb_forall in K1. apply strEqb_eq, K1, D. apply Dg.
    - rewrite forallb_forall in K2. specialize (K2 a (D a (proj1 Dg))). rewrite forallb_forall in K2. specialize (K2 b (D b (proj1 (proj2 Dg)))). apply orb_prop in K2.
      destruct K2 as [K2|K2]; [apply Z.eqb_eq in K2; discriminate (Z0 K2)|apply strEqb_eq, K2].
    - rewrite forallb_forall in K3. specialize (K3 a (D a (proj1 Dg))). rewrite forallb_forall in K3. specialize (K3 b (D b (proj1 (proj2 Dg)))).
      rewrite forallb_forall in K3. specialize (K3 c (D c (proj1 (proj2 (proj2 Dg))))). apply orb_prop in K3.
      destruct K3 as [K3|K3]; [apply Z.eqb_eq in K3; discriminate (Z0 K3)|apply strEqb_eq, K3]. }
  intros [a b c d|] s s'; [|intros []]. intros (ta & tb & tc & td & -> & A & Bb & C & D) (ua & ub & uc & ud & -> & A' & B' & C' & D').
  apply U in A, Bb, C, D, A', B', C', D'. congruence.
Qed.
Example C174_case :
  let l := [(B "lo", Some (In4 127 0 0 1)); (B "tun0", Some OtherFamily); (B "eth0", Some (In4 192 168 8 5))] in
  getIPv4FromDevice (Some l) (B "eth0") = Ret (Some (B "192.168.8.5")) /\ getIPv4FromDevice (Some l) (B "tun0") = Ret None /\
  resolveHost (Some [OtherFamily; In4 192 168 8 5]) 3699 = Ret (Some [NetModel.mkHost (B "192.168.8.5") 3699]) /\ resolveHost (Some [OtherFamily]) 1 = Ret None.
Proof. cbv zeta. splits; vm_compute; reflexivity. Qed.

Print Assumptions C173_in_use.
Print Assumptions C173_range.
Print Assumptions C173_range_default.
Print Assumptions C173_range_fails.
Print Assumptions C173_free.
Print Assumptions C173_found.
Print Assumptions C173_never.
Print Assumptions C173_low_refuted.
Print Assumptions C174_device.
Print Assumptions C174_any.
Print Assumptions C174_list.
Print Assumptions C174_all_refuted.
Print Assumptions C174_null_refuted.
Print Assumptions C174_resolve.
Print Assumptions C174_one_text.
