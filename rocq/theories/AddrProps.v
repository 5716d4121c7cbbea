(** Properties C14 and C15: node and MAC addresses, backoff. *)
From Verif Require Import Base Dict AddrModel PacketProofs.

(** *** Specification *)
Definition digit (c : Z) : Prop := 48 <= c <= 57.
Definition number (s : list Z) : Prop := s <> [] /\ Forall digit s.
(** Positional value. *)
Fixpoint dval (s : list Z) : Z :=
  match s with [] => 0 | c :: t => (c - 48) * 10 ^ zlen t + dval t end.
Definition maybe_newline (s : list Z) : Prop := s = [] \/ s = [10].
(** Valid node addresses: area 0..63, node 1..1023, or zero. *)
Definition valid_node (a n : Z) : Prop := 0 <= a <= 63 /\ 0 <= n <= 1023 /\ (n = 0 -> a = 0).
Definition valid_id (v : Z) : Prop := exists a n, valid_node a n /\ v = a * 1024 + n.

Lemma int10_acc : forall s a, fold_left (fun acc c => acc * 10 + (c - 48)) s a = a * 10 ^ zlen s + dval s.
Proof.
  induction s as [|c s IH]; intros a; cbn [fold_left dval].
  - unfold zlen. cbn [length]. change (Z.of_nat 0) with 0. rewrite Z.pow_0_r. lia.
  - rewrite IH, zlen_cons, Z.pow_add_r by (try apply zlen_nonneg; lia). change (10 ^ 1) with 10. ring.
Qed.
Lemma int10_dval : forall s, int10 s = dval s.
Proof. intros. unfold int10. rewrite int10_acc. lia. Qed.
Lemma dval_nonneg : forall s, Forall digit s -> 0 <= dval s.
Proof.
  induction s as [|c s IH]; intros H; cbn [dval]; [lia|]. inversion H; subst. unfold digit in *.
  assert (0 < 10 ^ zlen s) by (apply Z.pow_pos_nonneg; try apply zlen_nonneg; lia). specialize (IH H3). nia.
Qed.
Lemma is_digit_spec : forall c, is_digit c = true <-> digit c.
Proof. intros. unfold is_digit, digit. lia. Qed.

Lemma str10_loop_spec : forall fuel v acc, 0 <= v -> v < 10 ^ Z.of_nat fuel ->
  exists d, str10_loop fuel v acc = d ++ acc /\ Forall digit d /\ dval d = v /\ ((1 <= fuel)%nat -> d <> []).
Proof.
  induction fuel as [|f IH]; intros v acc H0 H.
  - exists []. cbn in *. repeat split; auto; lia.
  - rewrite Nat2Z.inj_succ, Z.pow_succ_r in H by lia. cbn [str10_loop]. destruct (Z.eqb_spec (v / 10) 0).
    + exists [48 + v mod 10]. repeat split.
      * constructor; auto. unfold digit. lia.
      * cbn [dval]. unfold zlen. cbn [length]. change (Z.of_nat 0) with 0. rewrite Z.pow_0_r. lia.
      * discriminate.
    + destruct (IH (v / 10) ((48 + v mod 10) :: acc)) as (d & E & Fd & Dv & _); [lia|lia|].
      exists (d ++ [48 + v mod 10]). rewrite E, <- app_assoc. repeat split; auto.
      * apply Forall_app. split; auto. constructor; auto. unfold digit. lia.
      * rewrite <- int10_dval in *. unfold int10 in *. rewrite fold_left_app. cbn [fold_left]. rewrite Dv. lia.
      * intros _ X. apply app_eq_nil in X as [_ X]. discriminate.
Qed.
Lemma str10_spec : forall v, 0 <= v -> number (str10 v) /\ dval (str10 v) = v.
Proof.
  intros v H. unfold str10. destruct (str10_loop_spec (S (Z.to_nat (Z.log2 v))) v []) as (d & E & Fd & Dv & N); auto.
  - pose proof (Z.log2_nonneg v). rewrite Nat2Z.inj_succ, Z2Nat.id by lia.
    destruct (Z.eq_dec v 0) as [->|]; [reflexivity|].
    pose proof (Z.log2_spec v ltac:(lia)) as [_ L]. apply Z.lt_le_trans with (1 := L). apply Z.pow_le_mono_l. lia.
  - rewrite E, app_nil_r. split; auto. split; auto. apply N. lia.
Qed.

Lemma span_digits_app : forall d r, Forall digit d -> (forall c, hd_error r = Some c -> ~ digit c) ->
  span_digits (d ++ r) = (d, r).
Proof.
  induction d as [|c d IH]; intros r F H; cbn [app].
  - destruct r as [|c r]; auto. cbn [span_digits]. destruct (is_digit c) eqn:E; auto.
    apply is_digit_spec in E. exfalso. apply (H c); auto.
  - inversion F; subst. cbn [span_digits]. rewrite (proj2 (is_digit_spec c)) by auto. rewrite IH; auto.
Qed.
Lemma span_digits_inv : forall s d r, span_digits s = (d, r) -> s = d ++ r /\ Forall digit d.
Proof.
  induction s as [|c s IH]; intros d r H; cbn [span_digits] in H.
  - injection H as <- <-. auto.
  - destruct (is_digit c) eqn:E.
    + destruct (span_digits s) as [d' r'] eqn:S. injection H as <- <-. destruct (IH d' r' eq_refl) as [-> F].
      split; auto. constructor; auto. apply is_digit_spec. auto.
    + injection H as <- <-. auto.
Qed.
Lemma at_end_spec : forall s, at_end s = true <-> maybe_newline s.
Proof.
  intros s. unfold maybe_newline. destruct s as [|c [|? ?]]; cbn [at_end].
  - tauto.
  - rewrite Z.eqb_eq. split; [intros ->; auto|intros [H|H]; [discriminate|injection H; auto]].
  - split; [discriminate|intros [H|H]; discriminate].
Qed.
Lemma newline_head : forall nl c, maybe_newline nl -> hd_error nl = Some c -> ~ digit c.
Proof. intros nl c [->| ->] H; cbn in H; [discriminate|]. injection H as <-. unfold digit. lia. Qed.

(** The regular expression accepts exactly the two documented forms (and a
    trailing newline, which Python's [$] lets through). *)
Lemma nodeid_re_bare : forall n nl, number n -> maybe_newline nl -> nodeid_re (n ++ nl) = Some (None, n).
Proof.
  intros n nl [Nn Fn] M. unfold nodeid_re. rewrite span_digits_app by (auto; intros; eapply newline_head; eauto).
  destruct n; [contradiction|]. rewrite (proj2 (at_end_spec nl)) by auto. reflexivity.
Qed.
Lemma nodeid_re_dotted : forall a n nl, number a -> number n -> maybe_newline nl ->
  nodeid_re (a ++ [46] ++ n ++ nl) = Some (Some a, n).
Proof.
  intros a n nl [Na Fa] [Nn Fn] M. unfold nodeid_re.
  rewrite span_digits_app; auto; [|intros c E; cbn in E; injection E as <-; unfold digit; lia].
  destruct a; [contradiction|]. cbn [app at_end]. destruct (n ++ nl) eqn:E.
  { apply app_eq_nil in E as [-> _]. contradiction. }
  rewrite <- E. rewrite span_digits_app by (auto; intros; eapply newline_head; eauto).
  destruct n; [contradiction|]. rewrite (proj2 (at_end_spec nl)) by auto. reflexivity.
Qed.
Lemma nodeid_re_inv : forall s r, nodeid_re s = Some r ->
  exists nl, maybe_newline nl /\
  ((exists n, r = (None, n) /\ number n /\ s = n ++ nl) \/
   (exists a n, r = (Some a, n) /\ number a /\ number n /\ s = a ++ [46] ++ n ++ nl)).
Proof.
  intros s r H. unfold nodeid_re in H. destruct (span_digits s) as [d1 r1] eqn:S1.
  apply span_digits_inv in S1 as [-> F1]. destruct d1 as [|c1 d1]; [discriminate|].
  destruct (at_end r1) eqn:A1.
  - injection H as <-. apply at_end_spec in A1. exists r1. split; auto. left. eexists. split; auto. split; auto.
    split; auto. discriminate.
  - destruct r1 as [|c r1]; [discriminate|].
    assert (c = 46 \/ c <> 46) as [->|Nc] by lia.
    + destruct (span_digits r1) as [d2 r2] eqn:S2. apply span_digits_inv in S2 as [-> F2].
      destruct d2 as [|c2 d2]; [discriminate|]. destruct (at_end r2) eqn:A2; [|discriminate]. injection H as <-.
      apply at_end_spec in A2. exists r2. split; auto. right. do 2 eexists. split; auto.
      split; [split; auto; discriminate|]. split; [split; auto; discriminate|]. reflexivity.
    + exfalso. destruct c as [|p|p]; try discriminate H.
      do 6 (destruct p as [p|p|]; try discriminate H; try (apply Nc; reflexivity)).
Qed.

Lemma nid_finish_ok : forall a n v, 0 <= a -> 0 <= n ->
  (nid_finish a n 0 false = Ok v <-> valid_node a n /\ v = a * 1024 + n).
Proof.
  intros a n v Ha Hn. unfold nid_finish, valid_node. rewrite Z.shiftl_mul_pow2 by lia. change (2 ^ 10) with 1024.
  destruct (Z.ltb_spec 63 a); [split; [discriminate|lia]|].
  destruct (Z.ltb_spec 1023 n); [split; [discriminate|lia]|]. cbn [orb negb].
  destruct (Z.eqb_spec n 0); destruct (Z.eqb_spec a 0); cbn [andb negb]; split; intros E; try discriminate.
  all: try (injection E as <-; lia). all: try (f_equal; lia). all: lia.
Qed.

(** C14: the strings accepted, and their values. *)
Theorem nodeid_string : forall s v, nodeid (NStr s) false 0 = Ok v <->
  exists nl, maybe_newline nl /\
   ((exists n, number n /\ s = n ++ nl /\ dval n <= 65535 /\ valid_node (dval n / 1024) (dval n mod 1024) /\ v = dval n) \/
    (exists a n, number a /\ number n /\ s = a ++ [46] ++ n ++ nl /\ valid_node (dval a) (dval n) /\
                 v = dval a * 1024 + dval n)).
Proof.
  intros s v. cbn [nodeid]. split.
  - destruct (nodeid_re s) as [r|] eqn:E; [|discriminate]. apply nodeid_re_inv in E as (nl & M & [(n & -> & Nn & ->)|(a & n & -> & Na & Nn & ->)]).
    + intros H. rewrite int10_dval in H. pose proof (dval_nonneg n (proj2 Nn)).
      apply nid_finish_ok in H as [V ->]; [|lia|lia]. exists nl. split; auto. left. exists n. repeat split; auto; try apply Nn; try apply V.
      * unfold valid_node in V. lia.
      * lia.
    + intros H. rewrite !int10_dval in H. pose proof (dval_nonneg n (proj2 Nn)). pose proof (dval_nonneg a (proj2 Na)).
      apply nid_finish_ok in H as [V ->]; [|lia|lia]. exists nl. split; auto. right. exists a, n. auto 10.
  - intros (nl & M & [(n & Nn & -> & L & V & ->)|(a & n & Na & Nn & -> & V & ->)]).
    + rewrite nodeid_re_bare by auto. rewrite int10_dval. pose proof (dval_nonneg n (proj2 Nn)).
      apply nid_finish_ok; [lia|lia|]. split; auto. lia.
    + rewrite nodeid_re_dotted by auto. rewrite !int10_dval. pose proof (dval_nonneg n (proj2 Nn)). pose proof (dval_nonneg a (proj2 Na)).
      apply nid_finish_ok; auto.
Qed.
Print Assumptions nodeid_string.

(** Printing then parsing is the identity. *)
Theorem nodeid_print_parse : forall v, valid_id v -> nodeid (NStr (nid_str v)) false 0 = Ok v.
Proof.
  intros v (a & n & V & ->). pose proof V as (Ha & Hn & Hz). apply nodeid_string. exists []. split; [left; auto|].
  unfold nid_str. replace ((a * 1024 + n) / 1024) with a by lia. replace ((a * 1024 + n) mod 1024) with n by lia.
  destruct (str10_spec n ltac:(lia)) as [N1 N2]. destruct (Z.eqb_spec a 0) as [->|].
  - left. exists (str10 n). rewrite app_nil_r, N2. repeat split; auto; try apply N1; lia.
  - right. exists (str10 a), (str10 n). destruct (str10_spec a ltac:(lia)) as [A1 A2]. rewrite app_nil_r, A2, N2.
    repeat split; auto; try apply N1; try apply A1; lia.
Qed.
Print Assumptions nodeid_print_parse.
(** Distinct addresses print differently. *)
Theorem nodeid_print_inj : forall v w, valid_id v -> valid_id w -> nid_str v = nid_str w -> v = w.
Proof.
  intros v w Hv Hw E. apply nodeid_print_parse in Hv, Hw. rewrite E in Hv. congruence.
Qed.

(** Every way of making a Nodeid yields a valid id, except from negative
    integers. *)
Definition nonneg_arg (x : nid_arg) : Prop :=
  match x with
  | NStr _ => True
  | NInt a None => 0 <= a
  | NInt a (Some n) => 0 <= a /\ 0 <= n
  | NMac m => bytes_ok m
  | NBytes b => bytes_ok b
  end.
Theorem nodeid_valid : forall x v, nonneg_arg x -> nodeid x false 0 = Ok v -> valid_id v.
Proof.
  intros x v N H. destruct x as [s|a [n|]|m|b]; cbn [nonneg_arg] in N.
  - apply nodeid_string in H as (nl & _ & [(n & Nn & _ & _ & V & ->)|(a & n & _ & _ & _ & V & ->)]).
    + exists (dval n / 1024), (dval n mod 1024). split; auto. lia.
    + exists (dval a), (dval n). auto.
  - cbn [nodeid] in H. apply nid_finish_ok in H as [V ->]; try tauto. exists a, n. auto.
  - cbn [nodeid] in H. apply nid_finish_ok in H as [V ->]; [|lia|lia]. exists (a / 1024), (a mod 1024). auto.
  - cbn [nodeid] in H. destruct (negb (leqb (upto 4 m) hiord)); [discriminate|].
    destruct (_ || _); [discriminate|]. pose proof (le_dec_range _ (bytes_ok_from 4 m N)).
    apply nid_finish_ok in H as [V ->]; [|lia|lia]. exists (le_dec (from 4 m) / 1024), (le_dec (from 4 m) mod 1024). auto.
  - cbn [nodeid] in H. destruct (negb (zlen b =? 2)); [discriminate|]. destruct (_ && _); [discriminate|].
    pose proof (le_dec_range _ N). apply nid_finish_ok in H as [V ->]; [|lia|lia].
    exists (le_dec b / 1024), (le_dec b mod 1024). auto.
Qed.
Print Assumptions nodeid_valid.
Theorem nodeid_negative_refuted : nodeid (NInt (-5) None) false 0 = Ok (-5) /\ nid_encode (-5) = Err EOverflow.
Proof. vm_compute. auto. Qed.
(** With a default area, node number zero becomes area.0, which is otherwise
    refused. *)
Theorem nodeid_area_refuted : nodeid (NStr [48]) false 5 = Ok 5120 /\ nodeid (NInt 5120 None) false 0 = Err EValue.
Proof. vm_compute. auto. Qed.
(** Area zero with a dot is accepted although it is not a valid area. *)
Theorem nodeid_area0_refuted : nodeid (NStr [48; 46; 53]) false 0 = Ok 5.
Proof. vm_compute. auto. Qed.

(** Area and node number are recovered, and the two byte form round trips
    with any following data. *)
Theorem nodeid_parts : forall a n, valid_node a n ->
  nid_area (a * 1024 + n) = a /\ nid_tid (a * 1024 + n) = n /\ nodeid (NInt a (Some n)) false 0 = Ok (a * 1024 + n) /\
  nodeid (NInt (a * 1024 + n) None) false 0 = Ok (a * 1024 + n).
Proof.
  intros a n V. pose proof V as (Ha & Hn & Hz). unfold nid_area, nid_tid.
  rewrite Z.shiftr_div_pow2 by lia. change 1023 with (Z.ones 10). rewrite Z.land_ones by lia.
  change (2 ^ 10) with 1024. repeat split; try lia.
  - cbn [nodeid]. apply nid_finish_ok; auto; lia.
  - cbn [nodeid]. replace ((a * 1024 + n) / 1024) with a by lia. replace ((a * 1024 + n) mod 1024) with n by lia.
    apply nid_finish_ok; auto; lia.
Qed.
Print Assumptions nodeid_parts.
Theorem nodeid_bytes : forall v rest, valid_id v -> v <> 0 ->
  exists b, nid_encode v = Ok b /\ zlen b = 2 /\ nid_decode (b ++ rest) = Ok (v, rest).
Proof.
  intros v rest (a & n & V & ->) Nz. pose proof V as (Ha & Hn & Hz). exists (le_enc 2 (a * 1024 + n)).
  assert (R : 0 <= a * 1024 + n < 256 ^ Z.of_nat 2) by (change (256 ^ Z.of_nat 2) with 65536; lia).
  unfold nid_encode. rewrite to_bytes_ok by auto. split; auto. split; [apply zlen_le_enc|].
  unfold nid_decode, require. rewrite zlen_app, zlen_le_enc. pose proof (zlen_nonneg _ rest).
  destruct (Z.ltb_spec (Z.of_nat 2 + zlen rest) 2); [lia|]. cbn [bind].
  rewrite upto_app_exact, from_app_exact by (rewrite zlen_le_enc; reflexivity).
  cbn [nodeid]. rewrite zlen_le_enc. cbn [Z.of_nat Z.eqb Pos.eqb negb]. rewrite le_dec_enc by auto.
  replace ((a * 1024 + n) / 1024) with a by lia. replace ((a * 1024 + n) mod 1024) with n by lia.
  destruct (Z.eqb_spec n 0); [lia|]. cbn [andb].
  rewrite (proj2 (nid_finish_ok a n (a * 1024 + n) ltac:(lia) ltac:(lia))) by auto. reflexivity.
Qed.
Print Assumptions nodeid_bytes.
(** The MAC address of a node determines it. *)
Theorem nodeid_mac : forall a n, valid_node a n -> a <> 0 ->
  exists m, mac_of_nodeid (a * 1024 + n) = Ok m /\ zlen m = 6 /\ bytes_ok m /\
    nodeid (NMac m) false 0 = Ok (a * 1024 + n).
Proof.
  intros a n V Nz. pose proof V as (Ha & Hn & Hz). exists (hiord ++ le_enc 2 (a * 1024 + n)).
  assert (R : 0 <= a * 1024 + n < 256 ^ Z.of_nat 2) by (change (256 ^ Z.of_nat 2) with 65536; lia).
  unfold mac_of_nodeid, nid_encode. rewrite to_bytes_ok by auto. split; auto. split; [reflexivity|].
  split; [repeat constructor; unfold byte_ok; lia|]. cbn [nodeid].
  rewrite upto_app_exact, from_app_exact by reflexivity. rewrite (proj2 (leqb_eq hiord hiord) eq_refl). cbn [negb].
  rewrite le_dec_enc by auto. replace ((a * 1024 + n) / 1024) with a by lia. replace ((a * 1024 + n) mod 1024) with n by lia.
  destruct (Z.eqb_spec n 0); [lia|]. destruct (Z.eqb_spec a 0); [lia|]. cbn [orb]. apply nid_finish_ok; auto; lia.
Qed.
Print Assumptions nodeid_mac.

(** NiceNode round trip, for names of at most 127 characters. *)
Theorem nicenode_round_trip : forall v name ex rest, valid_id v -> bytes_ok name -> zlen name <= 127 ->
  exists b, nicenode_encode v name ex = Ok b /\ nicenode_decode (b ++ rest) = Ok ((v, name, ex), rest).
Proof.
  intros v name ex rest (a & n & V & ->) Bn Ln. pose proof V as (Ha & Hn & Hz). pose proof (zlen_nonneg _ name) as L0.
  set (v := a * 1024 + n). set (l := zlen name + (if ex then 128 else 0)).
  assert (Rv : 0 <= v < 256 ^ Z.of_nat 2) by (change (256 ^ Z.of_nat 2) with 65536; unfold v; lia).
  assert (Rl : 0 <= l < 256 ^ Z.of_nat 1) by (change (256 ^ Z.of_nat 1) with 256; unfold l; destruct ex; lia).
  exists (le_enc 2 v ++ le_enc 1 l ++ name). unfold nicenode_encode, nid_encode. fold l.
  rewrite !to_bytes_ok by auto. cbn [bind]. split; auto.
  unfold nicenode_decode. rewrite <- !app_assoc.
  assert (N2 : nth_error (le_enc 2 v ++ le_enc 1 l ++ name ++ rest) 2 = Some l).
  { cbn [le_enc app nth_error]. f_equal. change (256 ^ Z.of_nat 1) with 256 in Rl. lia. }
  rewrite N2. rewrite upto_app_exact by reflexivity. rewrite le_dec_enc by auto.
  assert (E : negb (Z.land l 128 =? 0) = ex).
  { assert (T : Z.land l 128 = 128 * ((l / 128) mod 2)).
    { apply Z.bits_inj'. intros i Hi. rewrite Z.land_spec. change 128 with (2 ^ 7) at 1 2 3.
      rewrite Z.mul_comm, <- Z.shiftl_mul_pow2, Z.shiftl_spec, Z.pow2_bits_eqb, <- Z.shiftr_div_pow2 by lia.
      destruct (Z.eqb_spec 7 i) as [<-|Ni].
      - rewrite andb_true_r. replace (7 - 7) with 0 by lia. change 2 with (2 ^ 1) at 1. rewrite Z.mod_pow2_bits_low by lia.
        rewrite Z.shiftr_spec by lia. reflexivity.
      - rewrite andb_false_r. destruct (Z.lt_ge_cases i 7); [rewrite Z.testbit_neg_r by lia; reflexivity|].
        change 2 with (2 ^ 1) at 1. rewrite Z.mod_pow2_bits_high by lia. reflexivity. }
    rewrite T. unfold l. destruct ex.
    - replace ((zlen name + 128) / 128) with 1 by lia. reflexivity.
    - replace ((zlen name + 0) / 128) with 0 by lia. reflexivity. }
  assert (M : Z.land l 127 = zlen name).
  { change 127 with (Z.ones 7). rewrite Z.land_ones by lia. change (2 ^ 7) with 128. unfold l. destruct ex; lia. }
  rewrite E, M.
  assert (F3 : from 3 (le_enc 2 v ++ le_enc 1 l ++ name ++ rest) = name ++ rest) by reflexivity.
  rewrite F3, upto_app_exact by reflexivity.
  destruct (nodeid_parts a n V) as (_ & _ & _ & P). fold v in P. rewrite P. cbn [bind]. do 2 f_equal.
  rewrite from_from by lia. rewrite F3. apply from_app_exact. reflexivity.
Qed.
Print Assumptions nicenode_round_trip.
(** A name of 128 characters comes back as an empty executor name. *)
Theorem nicenode_long_refuted : exists b, nicenode_encode 1025 (repeat 65 128) false = Ok b /\
  exists rest, nicenode_decode b = Ok ((1025, [], true), rest).
Proof. eexists. split; [vm_compute; reflexivity|]. eexists. vm_compute. reflexivity. Qed.

(** MAC addresses: printing then parsing. *)
Lemma hexval_digit : forall d, 0 <= d < 16 -> hexval (hexdigit d) = Some d /\ hexdigit d <> 45 /\ hexdigit d <> 58.
Proof.
  intros d H. unfold hexval, hexdigit. destruct (Z.ltb_spec d 10).
  - destruct (Z.leb_spec 48 (48 + d)); [|lia]. destruct (Z.leb_spec (48 + d) 57); [|lia]. cbn [andb].
    split; [f_equal; lia|lia].
  - destruct (Z.leb_spec (87 + d) 57); [lia|]. rewrite andb_false_r.
    destruct (Z.leb_spec 97 (87 + d)); [|lia]. destruct (Z.leb_spec (87 + d) 102); [|lia]. cbn [andb].
    split; [f_equal; lia|lia].
Qed.
Lemma int16_hex2 : forall b, byte_ok b -> int16 (hex2 b) = Ok b.
Proof.
  intros b H. unfold byte_ok in H. unfold int16, hex2. cbn [fold_left bind].
  destruct (hexval_digit (b / 16) ltac:(lia)) as [-> _]. destruct (hexval_digit (b mod 16) ltac:(lia)) as [-> _]. cbn [bind].
  f_equal. lia.
Qed.
Lemma split_hex2 : forall b s, byte_ok b -> mac_split (hex2 b ++ [45] ++ s) = hex2 b :: mac_split s.
Proof.
  intros b s H. unfold byte_ok in H. unfold hex2. cbn [app mac_split].
  destruct (hexval_digit (b / 16) ltac:(lia)) as (_ & N1 & N2). destruct (hexval_digit (b mod 16) ltac:(lia)) as (_ & N3 & N4).
  rewrite !(proj2 (Z.eqb_neq _ _)) by auto. reflexivity.
Qed.
Lemma split_hex2_end : forall b, byte_ok b -> mac_split (hex2 b) = [hex2 b].
Proof.
  intros b H. unfold byte_ok in H. unfold hex2. cbn [app mac_split].
  destruct (hexval_digit (b / 16) ltac:(lia)) as (_ & N1 & N2). destruct (hexval_digit (b mod 16) ltac:(lia)) as (_ & N3 & N4).
  rewrite !(proj2 (Z.eqb_neq _ _)) by auto. reflexivity.
Qed.
Theorem mac_print_parse : forall m, bytes_ok m -> zlen m = 6 -> mac_of_str (mac_str m) = Ok m.
Proof.
  intros m B L.
  assert (S : forall l, bytes_ok l -> l <> [] -> mac_split (mac_str l) = map hex2 l).
  { induction l as [|b l IH]; intros Bl Nl; [contradiction|]. inversion Bl; subst. destruct l as [|b2 l].
    - cbn [mac_str map]. apply split_hex2_end. auto.
    - change (mac_str (b :: b2 :: l)) with (hex2 b ++ [45] ++ mac_str (b2 :: l)). rewrite split_hex2 by auto.
      cbn [map]. f_equal. apply IH; auto. discriminate. }
  assert (MB : forall l, bytes_ok l -> mac_bytes (map hex2 l) = Ok l).
  { induction l as [|b l IH]; intros Bl; auto. inversion Bl; subst. cbn [map mac_bytes]. rewrite int16_hex2 by auto.
    cbn [bind]. rewrite IH by auto. cbn [bind]. unfold byte_ok in *.
    destruct (Z.leb_spec 0 b); [|lia]. destruct (Z.ltb_spec b 256); [|lia]. reflexivity. }
  unfold mac_of_str. rewrite S; auto; [|intros ->; discriminate L]. rewrite map_length.
  unfold zlen in L. replace (length m) with 6%nat by lia. cbn [Nat.eqb negb]. apply MB. auto.
Qed.
Print Assumptions mac_print_parse.
(** The case of the hexadecimal digits does not matter. *)
Definition upper (c : Z) : Z := if (97 <=? c) && (c <=? 122) then c - 32 else c.
Theorem mac_case : forall s, length (mac_split s) = 1%nat \/ length (mac_split s) = 6%nat -> mac_of_str (map upper s) = mac_of_str s.
Proof.
  intros s LEN.
  assert (HV : forall c, hexval (upper c) = hexval c).
  { intros c. unfold upper, hexval. destruct ((97 <=? c) && (c <=? 122)) eqn:E; [|reflexivity].
    repeat match goal with |- context [if ?b then _ else _] => destruct b eqn:? end; try (f_equal; lia); lia. }
  assert (I16 : forall l, int16 (map upper l) = int16 l).
  { intros l. unfold int16. destruct l as [|a l]; [reflexivity|]. cbn [map]. change (upper a :: map upper l) with (map upper (a :: l)).
    generalize (a :: l) as k. clear a l. generalize (Ok 0 : res Z) as acc. intros acc k. revert acc. induction k as [|a k IH]; intros acc; [reflexivity|].
    cbn [map fold_left]. rewrite HV. apply IH. }
  assert (SP : forall l, mac_split (map upper l) = map (map upper) (mac_split l)).
  { induction l as [|a l IH]; [reflexivity|]. cbn [map mac_split]. rewrite IH.
    replace ((upper a =? 45) || (upper a =? 58)) with ((a =? 45) || (a =? 58)) by (unfold upper; destruct ((97 <=? a) && (a <=? 122)) eqn:E; [lia|reflexivity]).
    destruct ((a =? 45) || (a =? 58)); [reflexivity|]. destruct (mac_split l); reflexivity. }
  assert (MB : forall l, mac_bytes (map (map upper) l) = mac_bytes l).
  { induction l as [|a l IH]; [reflexivity|]. cbn [map mac_bytes]. rewrite I16, IH. reflexivity. }
  unfold mac_of_str. rewrite SP, map_length, I16, MB. destruct LEN as [-> | -> ]; reflexivity.
Qed.
Print Assumptions mac_case.
Example mac_case_ex : mac_of_str [65; 97; 45; 48; 48; 45; 48; 52; 45; 48; 48; 45; 49; 45; 102; 70] = Ok [170; 0; 4; 0; 1; 255].
Proof. reflexivity. Qed.
(** The node address string form that Macaddr documents is never accepted:
    a string without separators is always taken as hexadecimal. *)
Theorem mac_nodeid_string_refuted : forall a n, number a -> number n ->
  mac_of_str (a ++ [46] ++ n) = Err EValue.
Proof.
  intros a n [Na Fa] [Nn Fn]. unfold mac_of_str.
  assert (S : mac_split (a ++ [46] ++ n) = [a ++ [46] ++ n]).
  { assert (G : forall s, Forall (fun c => c <> 45 /\ c <> 58) s -> mac_split s = [s]).
    { induction s as [|c s IH]; intros F; auto. inversion F; subst. cbn [mac_split].
      rewrite !(proj2 (Z.eqb_neq _ _)) by tauto. cbn [orb]. rewrite IH by auto. reflexivity. }
    apply G. rewrite !Forall_app. repeat split; [|repeat constructor; lia|].
    - eapply Forall_impl; [|exact Fa]. unfold digit. intros. lia.
    - eapply Forall_impl; [|exact Fn]. unfold digit. intros. lia. }
  rewrite S. cbn [length Nat.eqb].
  assert (I : int16 (a ++ [46] ++ n) = Err EValue).
  { unfold int16. destruct a as [|c a]; [contradiction|]. set (f := fun (acc : res Z) c => _).
    change ((c :: a) ++ [46] ++ n) with (c :: (a ++ [46] ++ n)). cbv beta iota.
    change (c :: a ++ [46] ++ n) with ((c :: a) ++ [46] ++ n). rewrite !fold_left_app. cbn [fold_left].
    assert (E : forall s, fold_left f s (Err EValue) = Err EValue) by (induction s; auto).
    destruct (fold_left f a (f (Ok 0) c)) as [x|e] eqn:X.
    - unfold f at 2. cbn [bind]. change (hexval 46) with (@None Z). apply E.
    - assert (e = EValue).
      { assert (Q : forall s r, (exists v, r = Ok v) \/ r = Err EValue -> (exists v, fold_left f s r = Ok v) \/ fold_left f s r = Err EValue).
        { clear. induction s as [|c s IH]; intros r H; auto. cbn [fold_left]. apply IH.
          destruct H as [[v ->]| ->]; [|right; reflexivity]. unfold f. cbn [bind]. destruct (hexval c); eauto. }
        destruct (Q (c :: a) (Ok 0)) as [[v Y]|Y]; [left; eauto| |]; cbn [fold_left] in Y; rewrite X in Y; congruence. }
      subst e. unfold f at 2. cbn [bind]. apply E. }
  rewrite I. reflexivity.
Qed.
Print Assumptions mac_nodeid_string_refuted.

Example addr_demo : nid_str (42 * 1024 + 17) = [52; 50; 46; 49; 55] /\
  nodeid (NStr [52; 50; 46; 49; 55]) false 0 = Ok (42 * 1024 + 17) /\
  mac_of_nodeid (42 * 1024 + 17) = Ok [170; 0; 4; 0; 17; 168] /\ valid_node 42 17 /\
  mac_of_str (mac_str [170; 0; 4; 0; 17; 168]) = Ok [170; 0; 4; 0; 17; 168].
Proof. repeat split; try (vm_compute; reflexivity); try (vm_compute; discriminate). Qed.

(** *** C15: backoff.  The values returned since the last reset are
    low * 2^k limited to high. *)
Inductive bop := BNext | BReset.
Definition bstep (b : backoff) (o : bop) : backoff := match o with BNext => fst (backoff_next b) | BReset => backoff_reset b end.
Definition brun (b : backoff) (l : list bop) : backoff := fold_left bstep l b.
(** Number of [BNext] since the last reset. *)
Fixpoint since_reset (l : list bop) : nat :=
  match l with BNext :: t => S (since_reset t) | _ => O end.

Theorem backoff_values : forall lo hi b0 l, backoff_init lo (Some hi) = Ok b0 ->
  let b := brun b0 l in let k := Z.of_nat (since_reset (rev l)) in
  snd (backoff_next b) = Z.min (lo * 2 ^ k) hi /\ tries b = k /\
  lo <= snd (backoff_next b) <= hi /\
  snd (backoff_next b) <= snd (backoff_next (fst (backoff_next b))) <= 2 * snd (backoff_next b) /\
  snd (backoff_next (backoff_reset b)) = lo.
Proof.
  intros lo hi b0 l I. unfold backoff_init in I.
  destruct (Z.ltb_spec lo hi); [|discriminate]. destruct (Z.ltb_spec 0 lo); [|discriminate]. injection I as <-.
  cbv zeta. set (b0 := {| low := lo; high := hi; current := lo; tries := 0 |}).
  assert (X : current (brun b0 l) = Z.min (lo * 2 ^ Z.of_nat (since_reset (rev l))) hi /\
              low (brun b0 l) = lo /\ high (brun b0 l) = hi /\ tries (brun b0 l) = Z.of_nat (since_reset (rev l))).
  { induction l as [|o l IH] using rev_ind.
    - cbn [brun fold_left rev since_reset Z.of_nat current low high tries b0]. rewrite Z.pow_0_r. repeat split; lia.
    - unfold brun in *. rewrite fold_left_app, rev_unit. cbn [fold_left]. destruct IH as (C & L & Hh & T).
      set (b := fold_left bstep l b0) in *. destruct o; cbn [bstep since_reset backoff_next backoff_reset fst current low high tries].
      + rewrite C, Hh, T, Nat2Z.inj_succ, Z.pow_succ_r by lia.
        assert (0 < 2 ^ Z.of_nat (since_reset (rev l))) by (apply Z.pow_pos_nonneg; lia). repeat split; auto; nia.
      + rewrite L, Hh. change (Z.of_nat 0) with 0. rewrite Z.pow_0_r. repeat split; lia. }
  destruct X as (C & L & Hh & T). unfold backoff_next, backoff_reset. cbn [fst snd current high low tries].
  rewrite C, L, Hh, T.
  assert (1 <= 2 ^ Z.of_nat (since_reset (rev l))) by (pose proof (Z.pow_pos_nonneg 2 (Z.of_nat (since_reset (rev l)))); lia).
  repeat split; try lia; nia.
Qed.
Print Assumptions backoff_values.
Theorem backoff_one_arg : forall hi, 1 < hi -> backoff_init hi None = backoff_init 1 (Some hi).
Proof. intros. reflexivity. Qed.
Example backoff_demo : exists b, backoff_init 5 (Some 120) = Ok b /\
  map (fun n => snd (backoff_next (brun b (repeat BNext n)))) [0;1;2;3;4;5;6]%nat = [5; 10; 20; 40; 80; 120; 120].
Proof. eexists. split; vm_compute; reflexivity. Qed.
