(** Properties C10 and C11: the CRC class (crc.py) and its DDCMP instance. *)
From Verif Require Import Base CrcModel PacketProofs CrcProofs CrcBits.

(** *** Specification *)
(** Bits of a buffer in the order they are processed. *)
Definition byte_bits (b : Z) : list bool := map (Z.testbit b) [0; 1; 2; 3; 4; 5; 6; 7].
Definition tbits (rv : bool) (data : list Z) : list bool :=
  flat_map (fun b => if rv then byte_bits b else rev (byte_bits b)) data.
(** [r] holds the coefficients of the register with the highest power in the
    most significant bit. *)
Definition coeffs (k : crc) (c r : Z) : Prop :=
  0 <= r < 2 ^ width k /\
  forall i, 0 <= i < width k -> Z.testbit r i = Z.testbit c (if reversed k then width k - 1 - i else i).
(** Polynomials over GF(2) as integers; [gmul q g] is the product, [pval m] the
    polynomial whose coefficients are the bits of [m], first bit highest power.
    The generator has the implicit top term. *)
Definition generator (k : crc) : Z := Z.lxor (2 ^ width k) (cpoly k).
Definition is_remainder (k : crc) (dividend r : Z) : Prop :=
  0 <= r < 2 ^ width k /\ exists q, Z.lxor (gmul q (generator k)) r = dividend.
(** Parameters for which creating the class makes sense. *)
Definition sensible (poly w : Z) (i f : option Z) : Prop :=
  1 <= w /\ 0 <= poly < 2 ^ w /\
  (forall x, i = Some x -> 0 <= x < 2 ^ w) /\ (forall x, f = Some x -> 0 <= x < 2 ^ w).

Lemma byte_bits_lsb : forall b, byte_bits b = bits_lsb 8 b.
Proof.
  intros. apply list_eq_nth; [reflexivity|]. intros i Hi. change (length (byte_bits b)) with 8%nat in Hi.
  rewrite bits_lsb_nth by auto. do 8 (destruct i as [|i]; [reflexivity|]). lia.
Qed.
Lemma tbits_zbits : forall k data, tbits (reversed k) data = zbits k data.
Proof.
  intros. unfold tbits, zbits. apply flat_map_ext. intros b. unfold dataz. rewrite byte_bits_lsb.
  destruct (reversed k); auto. apply (bits_lsb_rev 8).
Qed.
Lemma coeffs_regz : forall k c r, crc_wf k -> 0 <= c < 2 ^ width k -> coeffs k c r -> r = reverse (regz k c) (width k).
Proof.
  intros k c r W Hc [Hr E]. pose proof W as [Hw _ _ _ _]. apply Z.bits_inj'. intros i Hi. rewrite reverse_spec by lia.
  destruct (Z.ltb_spec i (width k)); cbn [andb].
  - rewrite E by lia. unfold regz. destruct (reversed k); auto. rewrite reverse_spec by lia.
    destruct (Z.ltb_spec (width k - 1 - i) (width k)); [|lia]. cbn [andb]. f_equal. lia.
  - apply small_testbit with (width k); lia.
Qed.
Lemma regz_coeffs : forall k c, crc_wf k -> 0 <= c < 2 ^ width k -> coeffs k c (reverse (regz k c) (width k)).
Proof.
  intros k c W Hc. pose proof W as [Hw _ _ _ _]. split; [apply reverse_range; lia|]. intros i Hi.
  rewrite reverse_spec by lia. destruct (Z.ltb_spec i (width k)); [|lia]. cbn [andb]. unfold regz.
  destruct (reversed k); auto. rewrite reverse_spec by lia.
  destruct (Z.ltb_spec (width k - 1 - i) (width k)); [|lia]. cbn [andb]. f_equal. lia.
Qed.

(** Creating a class with sensible parameters succeeds: in particular the
    RuntimeError "Unable to find good CRC check value" cannot happen. *)
Theorem crc_class_ok : forall poly w i f rv, sensible poly w i f ->
  exists k g, make_crc poly w i f rv = Ok (k, g) /\ width k = w /\ cpoly k = poly /\ reversed k = rv /\
    initial k = match i with Some x => x | None => 2 ^ w - 1 end /\
    final k = match f with Some x => x | None => 2 ^ w - 1 end /\
    crc_wf k /\ exists c0, 0 <= c0 < 2 ^ w /\ regz k c0 = residue k /\ g = value k c0.
Proof.
  intros poly w i f rv (Hw & Hp & Hi & Hf). unfold make_crc.
  destruct (Z.eqb_spec w 0); [lia|].
  assert (M : Z.shiftl 1 w - 1 = 2 ^ w - 1) by (rewrite Z.shiftl_mul_pow2 by lia; lia). rewrite M.
  destruct (Z.ltb_spec (2 ^ w - 1) poly); [lia|].
  set (k := {| width := w; cpoly := poly; initial := _; final := _; reversed := rv; crctable := _ |}).
  assert (W : crc_wf k).
  { split; cbn [width cpoly initial final reversed crctable k]; auto; try lia.
    - destruct i; [apply Hi; auto|]. lia.
    - destruct f; [apply Hf; auto|]. lia. }
  destruct (check_value_spec k [0] W) as (c1 & E1 & R1 & V1); [repeat constructor; unfold byte_ok; lia|].
  destruct (check_value_spec k [1; 66] W) as (c2 & E2 & R2 & V2); [repeat constructor; unfold byte_ok; lia|].
  rewrite E1, E2. cbn [bind].
  assert (c1 = c2) by (apply (regz_inj k); auto; congruence). subst c2. rewrite Z.eqb_refl.
  exists k, (value k c1). repeat split; auto; try apply W. exists c1. repeat split; auto; apply R1.
Qed.
Print Assumptions crc_class_ok.

(** C10: for every polynomial, width and bit order, every register value and
    every message, the table driven update computes the remainder of
    (message * x^width + register * x^(message length)) divided by the
    generator. *)
Theorem crc_is_division : forall poly w i f rv k g, sensible poly w i f ->
  make_crc poly w i f rv = Ok (k, g) ->
  forall c data, 0 <= c < 2 ^ w -> bytes_ok data ->
  exists c', update k c data = Ok c' /\ 0 <= c' < 2 ^ w /\
    forall r r', coeffs k c r -> coeffs k c' r' ->
      is_remainder k (Z.lxor (pval (tbits rv data) * 2 ^ w) (r * 2 ^ (8 * zlen data))) r'.
Proof.
  intros poly w i f rv k g S E c data Hc Hd.
  destruct (crc_class_ok poly w i f rv S) as (k' & g' & E' & Kw & Kp & Kr & _ & _ & W & _).
  rewrite E in E'. injection E' as <- <-. subst w rv.
  destruct (update_spec k data c W Hc Hd) as (c' & U & R & V). exists c'. split; auto. split; auto.
  intros r r' C C'. apply coeffs_regz in C; auto. pose proof (proj1 C') as Rr. apply coeffs_regz in C'; auto.
  split; auto. rewrite tbits_zbits. rewrite C, C', V.
  destruct (serial_division k (regz k c) (zbits k data) W (regz_range k c W Hc)) as (q & _ & Q).
  exists q. unfold generator. rewrite Q, zbits_length. do 2 f_equal. f_equal. unfold zlen. lia.
Qed.
Print Assumptions crc_is_division.

(** The remainder is unique, so the previous theorem determines the result;
    and every register has coefficients. *)
Theorem crc_remainder_unique : forall k d r1 r2, crc_wf k ->
  is_remainder k d r1 -> is_remainder k d r2 -> r1 = r2.
Proof.
  intros k d r1 r2 W [R1 (q1 & E1)] [R2 (q2 & E2)]. pose proof W as [Hw Hp _ _ _].
  apply (remainder_unique (width k) (cpoly k) d q1 q2 r1 r2); auto. lia.
Qed.
Print Assumptions crc_remainder_unique.
Theorem crc_coeffs_exist : forall k c, crc_wf k -> 0 <= c < 2 ^ width k -> exists r, coeffs k c r.
Proof. intros. eexists. apply regz_coeffs; auto. Qed.

(** Updating in pieces. *)
Theorem crc_update_app : forall k c a b,
  update k c (a ++ b) = match update k c a with Ok c1 => update k c1 b | Err e => Err e end.
Proof. intros. apply update_app. Qed.
Print Assumptions crc_update_app.

(** update_bits processes the first [bits] bits serially, when [bits] is not a
    multiple of 8 or the buffer has exactly that many bits. *)
Theorem crc_update_bits : forall k c data bits, crc_wf k -> 0 <= c < 2 ^ width k -> bytes_ok data ->
  0 <= bits <= 8 * zlen data -> (bits mod 8 = 0 -> bits = 8 * zlen data) ->
  exists c', update_bits_bytes k c data bits = Ok c' /\ 0 <= c' < 2 ^ width k /\
    forall r r', coeffs k c r -> coeffs k c' r' ->
      is_remainder k (Z.lxor (pval (firstn (Z.to_nat bits) (tbits (reversed k) data)) * 2 ^ width k) (r * 2 ^ bits)) r'.
Proof.
  intros k c data bits W Hc Hd Hb Hz. destruct (update_bits_spec k c data bits W Hc Hd Hb Hz) as (c' & U & R & V).
  exists c'. split; auto. split; auto. intros r r' C C'. apply coeffs_regz in C; auto.
  pose proof (proj1 C') as Rr. apply coeffs_regz in C'; auto. split; auto. rewrite tbits_zbits, C, C', V.
  destruct (serial_division k (regz k c) (firstn (Z.to_nat bits) (zbits k data)) W (regz_range k c W Hc)) as (q & _ & Q).
  exists q. unfold generator. rewrite Q. do 2 f_equal. f_equal. rewrite firstn_length, zbits_length. unfold zlen in Hb. lia.
Qed.
Print Assumptions crc_update_bits.
(** Otherwise the whole buffer is processed, contrary to its description. *)
Theorem crc_update_bits_refuted : exists k g, make_crc16 = Ok (k, g) /\
  update_bits_bytes k 0 [1; 2] 8 = update k 0 [1; 2] /\ update_bits_bytes k 0 [1; 2] 8 <> update k 0 [1].
Proof.
  destruct make_crc16 as [[k g]|e] eqn:E; [|vm_compute in E; discriminate]. exists k, g.
  vm_compute in E. injection E as <- <-. split; [reflexivity|]. split; [vm_compute; reflexivity|].
  vm_compute. discriminate.
Qed.
Print Assumptions crc_update_bits_refuted.

(** A concrete class: CRC-16 as used by DDCMP, and the standard check value. *)
Example crc16_class : sensible crc16_poly 16 (Some 0) (Some 0) /\ crc16_poly = 32773 /\
  exists k g, make_crc16 = Ok (k, g) /\ g = 0 /\ width k = 16 /\
    update k 0 [49; 50; 51; 52; 53; 54; 55; 56; 57] = Ok 47933.
Proof.
  split; [|split; [vm_compute; reflexivity|]].
  - unfold sensible. split; [lia|]. split; [split; vm_compute; congruence|].
    split; intros x E; injection E as <-; split; vm_compute; congruence.
  - destruct make_crc16 as [[k g]|e] eqn:E; [|vm_compute in E; discriminate]. exists k, g.
    vm_compute in E. injection E as <- <-. repeat split; vm_compute; reflexivity.
Qed.

(** *** C11 *)
(** A message followed by its CRC is accepted, for every class with a whole
    number of bytes. *)
Theorem crc_accepts : forall poly w i f rv k g, sensible poly w i f -> w mod 8 = 0 ->
  make_crc poly w i f rv = Ok (k, g) ->
  forall data, bytes_ok data ->
  exists c b, update k (initial k) data = Ok c /\ crc_bytes k c = Ok b /\ bytes_ok b /\ zlen b = w / 8 /\
    exists c', update k (initial k) (data ++ b) = Ok c' /\ good k g c' = true.
Proof.
  intros poly w i f rv k g S M E data Hd.
  destruct (crc_class_ok poly w i f rv S) as (k' & g' & E' & Kw & Kp & Kr & _ & _ & W & c0 & R0 & V0 & G).
  rewrite E in E'. injection E' as <- <-. subst w rv. pose proof W as [Hw _ Hi Hf _].
  destruct (update_spec k data (initial k) W Hi Hd) as (c & U & R & V).
  destruct (own_value k c W R) as (c' & U' & R' & V').
  assert (VR : 0 <= value k c < 2 ^ width k) by (apply lxor_range; auto; lia).
  unfold update_bits_int in U'. rewrite M, Z.eqb_refl in U'.
  replace ((width k + 7) / 8) with (width k / 8) in U' by lia.
  assert (T : to_bytes (Z.to_nat (width k / 8)) (value k c) = Ok (le_enc (Z.to_nat (width k / 8)) (value k c))).
  { apply to_bytes_ok. rewrite pow_256_2, Z2Nat.id by lia. replace (8 * (width k / 8)) with (width k) by lia. auto. }
  assert (B : exists b, (if reversed k then to_bytes (Z.to_nat (width k / 8)) (value k c)
                         else to_bytes_be (Z.to_nat (width k / 8)) (value k c)) = Ok b /\ bytes_ok b /\ zlen b = width k / 8).
  { unfold to_bytes_be. rewrite T. destruct (reversed k); cbn [bind]; eexists; (split; [reflexivity|]).
    - split; [apply le_enc_bytes|rewrite zlen_le_enc; lia].
    - split; [apply Forall_rev, le_enc_bytes|]. unfold zlen. rewrite rev_length, le_enc_length. lia. }
  destruct B as (b & EB & BB & LB). exists c, b. split; auto. unfold crc_bytes. rewrite M, Z.eqb_refl, EB.
  split; auto. split; auto. split; auto. rewrite EB in U'. cbn [bind] in U'. unfold update_bits_bytes in U'.
  rewrite M, Z.eqb_refl in U'. destruct (Z.ltb_spec (zlen b) ((width k + 7) / 8)); [discriminate|].
  exists c'. rewrite update_app, U. cbn [bind]. split; auto.
  apply (good_spec k g c' c0); auto.
Qed.
Print Assumptions crc_accepts.

(** When the width is not a whole number of bytes and the bit order is forward,
    [__bytes__] returns the CRC in the wrong alignment for [update_bits]. *)
Theorem crc_bytes_refuted : exists k g c b c', make_crc 2063 12 (Some 0) (Some 0) false = Ok (k, g) /\
  update k 0 [49; 50] = Ok c /\ crc_bytes k c = Ok b /\ update_bits_bytes k c b 12 = Ok c' /\ good k g c' = false.
Proof.
  destruct (make_crc 2063 12 (Some 0) (Some 0) false) as [[k g]|e] eqn:E; [|vm_compute in E; discriminate].
  exists k, g. vm_compute in E. injection E as <- <-. do 3 eexists.
  split; [reflexivity|]. split; [vm_compute; reflexivity|]. split; [vm_compute; reflexivity|].
  split; vm_compute; reflexivity.
Qed.
Print Assumptions crc_bytes_refuted.

(** Error detection for any generator with a constant term: two messages of
    the same length whose bits differ only within a window of at most [width]
    bits are never both good. *)
Theorem crc_burst : forall poly w i f rv k g, sensible poly w i f -> Z.odd poly = true ->
  make_crc poly w i f rv = Ok (k, g) ->
  forall d d' pre m m' post c c', bytes_ok d -> bytes_ok d' ->
  tbits rv d = pre ++ m ++ post -> tbits rv d' = pre ++ m' ++ post ->
  length m = length m' -> Z.of_nat (length m) <= w -> m <> m' ->
  update k (initial k) d = Ok c -> update k (initial k) d' = Ok c' ->
  good k g c = true -> good k g c' = false.
Proof.
  intros poly w i f rv k g S O E d d' pre m m' post c c' Hd Hd' T T' L Lw Ne U U' Gd.
  destruct (crc_class_ok poly w i f rv S) as (k' & g' & E' & Kw & Kp & Kr & _ & _ & W & c0 & R0 & V0 & G).
  rewrite E in E'. injection E' as <- <-. subst w rv. pose proof W as [Hw Hp Hi Hf _].
  destruct (update_spec k d (initial k) W Hi Hd) as (c1 & U1 & R1 & V1). rewrite U in U1. injection U1 as <-.
  destruct (update_spec k d' (initial k) W Hi Hd') as (c2 & U2 & R2 & V2). rewrite U' in U2. injection U2 as <-.
  rewrite tbits_zbits in T, T'. rewrite T in V1. rewrite T' in V2.
  destruct (good k g c') eqn:Gd'; auto. exfalso.
  apply (good_spec k g c c0) in Gd; auto. apply (good_spec k g c' c0) in Gd'; auto.
  assert (T0 : Z.testbit (rp k) (width k - 1) = true).
  { unfold rp. rewrite reverse_spec by lia. destruct (Z.ltb_spec (width k - 1) (width k)); [|lia]. cbn [andb].
    replace (width k - 1 - (width k - 1)) with 0 by lia. rewrite Kp, Z.bit0_odd. auto. }
  apply (burst_serial (rp k) (width k) (regz k (initial k)) pre m m' post
    Hw (rp_range k W) T0 (regz_range k _ W Hi) L Lw Ne). congruence.
Qed.
Print Assumptions crc_burst.

(** DDCMP: a message with its CRC, damaged by a single bit or by a burst of at
    most 16 bits anywhere in message or CRC, is rejected. *)
Theorem ddcmp_crc_burst : forall k g, make_crc16 = Ok (k, g) ->
  forall data c b, bytes_ok data -> update k 0 data = Ok c -> crc_bytes k c = Ok b ->
  (exists cg, update k 0 (data ++ b) = Ok cg /\ good k g cg = true) /\
  forall d', bytes_ok d' -> forall pre m m' post,
    tbits true (data ++ b) = pre ++ m ++ post -> tbits true d' = pre ++ m' ++ post ->
    length m = length m' -> (length m <= 16)%nat -> m <> m' ->
    exists c', update k 0 d' = Ok c' /\ good k g c' = false.
Proof.
  intros k g E data c b Hd U B. destruct crc16_class as (S & _ & _).
  assert (E16 : make_crc crc16_poly 16 (Some 0) (Some 0) true = Ok (k, g)) by exact E.
  destruct (crc_class_ok _ _ _ _ true S) as (k' & g' & E' & Kw & Kp & Kr & Ki & Kf & W & c0 & R0 & V0 & G).
  rewrite E16 in E'. injection E' as <- <-.
  destruct (crc_accepts _ _ _ _ _ k g S eq_refl E16 data Hd) as (c1 & b1 & U1 & B1 & Bok & _ & c2 & U2 & G2).
  rewrite Ki in *. rewrite U in U1. injection U1 as <-. rewrite B in B1. injection B1 as <-.
  split; [eauto|]. intros d' Hd' pre m m' post T T' L L16 Ne.
  destruct (update_spec k d' 0 W) as (c' & U' & R' & _); auto.
  { rewrite Kw. split; [lia|]. vm_compute. reflexivity. }
  exists c'. split; auto.
  apply (crc_burst _ _ _ _ _ k g S ltac:(vm_compute; reflexivity) E16 (data ++ b) d' pre m m' post c2 c'); auto; try lia.
  - apply bytes_ok_app; auto.
  - rewrite Ki. auto.
  - rewrite Ki. auto.
Qed.
Print Assumptions ddcmp_crc_burst.

Lemma odd_ones_xorl : forall a b, length a = length b -> odd_ones (xorl a b) = xorb (odd_ones a) (odd_ones b).
Proof.
  induction a as [|x a IH]; destruct b as [|y b]; intros LL; try discriminate; auto. cbn [xorl odd_ones].
  rewrite IH by (cbn in LL; lia). destruct x, y, (odd_ones a), (odd_ones b); reflexivity.
Qed.
(** DDCMP: any odd number of bit errors anywhere is rejected as well. *)
Theorem ddcmp_crc_odd : forall k g, make_crc16 = Ok (k, g) ->
  forall d d' c c', bytes_ok d -> bytes_ok d' -> length d = length d' ->
  odd_ones (xorl (tbits true d) (tbits true d')) = true ->
  update k 0 d = Ok c -> update k 0 d' = Ok c' -> good k g c = true -> good k g c' = false.
Proof.
  intros k g E d d' c c' Hd Hd' L O U U' Gd. destruct crc16_class as (S & _ & _).
  assert (E16 : make_crc crc16_poly 16 (Some 0) (Some 0) true = Ok (k, g)) by exact E.
  destruct (crc_class_ok _ _ _ _ true S) as (k' & g' & E' & Kw & Kp & Kr & Ki & Kf & W & c0 & R0 & V0 & G).
  rewrite E16 in E'. injection E' as <- <-.
  assert (Z0 : 0 <= 0 < 2 ^ width k) by (rewrite Kw; split; [lia|]; vm_compute; reflexivity).
  destruct (update_spec k d 0 W Z0 Hd) as (c1 & U1 & R1 & V1). rewrite U in U1. injection U1 as <-.
  destruct (update_spec k d' 0 W Z0 Hd') as (c2 & U2 & R2 & V2). rewrite U' in U2. injection U2 as <-.
  destruct (good k g c') eqn:Gd'; auto. exfalso. rewrite Kw in *.
  apply (good_spec k g c c0) in Gd; auto; try (rewrite Kw; auto). apply (good_spec k g c' c0) in Gd'; auto; try (rewrite Kw; auto).
  rewrite <- tbits_zbits, Kr in V1, V2.
  assert (RP : rp k = 40961) by (unfold rp; rewrite Kp, Kw; vm_compute; reflexivity). rewrite RP in *.
  assert (P1 : parity_n 16 (regz k c) = odd_ones (tbits true d)).
  { rewrite V1. rewrite parity_serial; [unfold regz; rewrite Kr; change (parity_n 16 0) with false; apply xorb_false_l|lia|vm_compute; reflexivity| |].
    - split; [lia|vm_compute; reflexivity].
    - unfold regz; rewrite Kr. split; [lia|vm_compute; reflexivity]. }
  assert (P2 : parity_n 16 (regz k c') = odd_ones (tbits true d')).
  { rewrite V2. rewrite parity_serial; [unfold regz; rewrite Kr; change (parity_n 16 0) with false; apply xorb_false_l|lia|vm_compute; reflexivity| |].
    - split; [lia|vm_compute; reflexivity].
    - unfold regz; rewrite Kr. split; [lia|vm_compute; reflexivity]. }
  rewrite odd_ones_xorl in O by (rewrite <- Kr, !tbits_zbits, !zbits_length, L; reflexivity).
  rewrite <- P1, <- P2, Gd, Gd', xorb_nilpotent in O. discriminate O.
Qed.
Print Assumptions ddcmp_crc_odd.

(** DDCMP: two bit errors up to 32766 bits apart are rejected (the frame of a
    576 byte routing packet has fewer than 4800 bits). *)
Fixpoint order_above (n : nat) (p v : Z) : bool :=
  match n with O => true | S m => negb (shift_bit p v =? 1) && order_above m p (shift_bit p v) end.
Lemma order_above_spec : forall n p v, order_above n p v = true ->
  forall j, (1 <= j <= n)%nat -> iter j (shift_bit p) v <> 1.
Proof.
  induction n as [|n IH]; intros p v H j Hj; [lia|]. cbn [order_above] in H. apply andb_true_iff in H as [H1 H2].
  destruct j as [|j]; [lia|]. cbn [iter]. destruct j as [|j].
  - cbn [iter]. apply negb_true_iff, Z.eqb_neq in H1. auto.
  - apply (IH p (shift_bit p v) H2). lia.
Qed.
Lemma bstep_flip : forall p c b, Z.lxor (bstep p c b) (bstep p c (negb b)) = shift_bit p 1.
Proof.
  intros. unfold bstep. rewrite <- shift_bit_xor. f_equal. rewrite lxor_move. destruct b; reflexivity.
Qed.
Lemma crc16_order_check : order_above (Z.to_nat 32766) 40961 1 = true.
Proof. vm_compute. reflexivity. Qed.
Lemma crc16_order : forall j, 1 <= Z.of_nat j <= 32766 -> iter j (shift_bit 40961) 1 <> 1.
Proof.
  intros j Hj. apply (order_above_spec _ _ _ crc16_order_check). split; [lia|].
  apply Nat2Z.inj_le. rewrite Z2Nat.id by (apply Z.leb_le; reflexivity). apply Hj.
Qed.
Theorem ddcmp_crc_double : forall k g, make_crc16 = Ok (k, g) ->
  forall d d' pre a mid b post c c', bytes_ok d -> bytes_ok d' ->
  tbits true d = pre ++ [a] ++ mid ++ [b] ++ post ->
  tbits true d' = pre ++ [negb a] ++ mid ++ [negb b] ++ post ->
  Z.of_nat (length mid) < 32766 ->
  update k 0 d = Ok c -> update k 0 d' = Ok c' -> good k g c = true -> good k g c' = false.
Proof.
  intros k g E d d' pre a mid b post c c' Hd Hd' T T' L U U' Gd. destruct crc16_class as (S & _ & _).
  assert (E16 : make_crc crc16_poly 16 (Some 0) (Some 0) true = Ok (k, g)) by exact E.
  destruct (crc_class_ok _ _ _ _ true S) as (k' & g' & E' & Kw & Kp & Kr & Ki & Kf & W & c0 & R0 & V0 & G).
  rewrite E16 in E'. injection E' as <- <-.
  assert (Z0 : 0 <= 0 < 2 ^ width k) by (rewrite Kw; split; [lia|]; vm_compute; reflexivity).
  destruct (update_spec k d 0 W Z0 Hd) as (c1 & U1 & R1 & V1). rewrite U in U1. injection U1 as <-.
  destruct (update_spec k d' 0 W Z0 Hd') as (c2 & U2 & R2 & V2). rewrite U' in U2. injection U2 as <-.
  destruct (good k g c') eqn:Gd'; auto. exfalso. rewrite Kw in *.
  apply (good_spec k g c c0) in Gd; auto; try (rewrite Kw; auto). apply (good_spec k g c' c0) in Gd'; auto; try (rewrite Kw; auto).
  rewrite <- tbits_zbits, Kr in V1, V2.
  assert (RP : rp k = 40961) by (unfold rp; rewrite Kp, Kw; vm_compute; reflexivity). rewrite RP, T in V1. rewrite RP, T' in V2.
  assert (Q : Z.lxor (regz k c) (regz k c') = 0) by (rewrite Gd, Gd'; apply Z.lxor_nilpotent).
  rewrite V1, V2 in Q. unfold serial in Q. rewrite !fold_left_app in Q. cbn [fold_left] in Q.
  set (s := fold_left (bstep 40961) pre (regz k 0)) in *.
  set (x := fold_left (bstep 40961) mid (bstep 40961 s a)) in *.
  set (y := fold_left (bstep 40961) mid (bstep 40961 s (negb a))) in *.
  pose proof (serial_diff 40961 post (bstep 40961 x b) (bstep 40961 y (negb b))) as D. unfold serial in D. rewrite Q in D.
  assert (Dxy : Z.lxor x y = iter (Datatypes.S (length mid)) (shift_bit 40961) 1).
  { pose proof (serial_diff 40961 mid (bstep 40961 s a) (bstep 40961 s (negb a))) as SD. unfold serial in SD.
    fold x y in SD. rewrite bstep_flip in SD. exact SD. }
  assert (O : Z.lxor x y <> 1).
  { rewrite Dxy. apply crc16_order. lia. }
  assert (Rxy : 0 <= Z.lxor x y < 2 ^ 16).
  { rewrite Dxy. pose proof (iter_range 40961 16 (Datatypes.S (length mid)) 1 16) as R.
    change (2 ^ Z.max 16 16) with 65536 in R. change (2 ^ 16) with 65536 in *.
    specialize (R ltac:(lia) ltac:(lia) ltac:(lia) ltac:(lia)).
    assert (2 ^ Z.max 16 (16 - Z.of_nat (Datatypes.S (length mid))) = 65536).
    { replace (Z.max 16 (16 - Z.of_nat (Datatypes.S (length mid)))) with 16 by lia. reflexivity. }
    lia. }
  assert (B : Z.lxor (bstep 40961 x b) (bstep 40961 y (negb b)) = shift_bit 40961 (Z.lxor (Z.lxor x y) 1)).
  { unfold bstep. rewrite <- shift_bit_xor. f_equal.
    apply Z.bits_inj'. intros n Hn. rewrite !Z.lxor_spec. destruct b; cbn [negb Z.b2z]; rewrite ?Z.bits_0;
      destruct (Z.testbit x n), (Z.testbit y n), (Z.testbit 1 n); reflexivity. }
  rewrite B in D. symmetry in D.
  assert (X1 : Z.lxor (Z.lxor x y) 1 = 0).
  { refine (iter_inj0 40961 16 (Datatypes.S (length post)) _ ltac:(lia) _ eq_refl _ D).
    - split; [apply Z.leb_le|apply Z.ltb_lt]; reflexivity.
    - apply lxor_range; [lia|exact Rxy|]. split; [apply Z.leb_le|apply Z.ltb_lt]; reflexivity. }
  apply Z.lxor_eq in X1. auto.
Qed.
Print Assumptions ddcmp_crc_double.

(** The hypotheses are met: a message, its CRC and a 15 bit burst in it. *)
Example ddcmp_crc_demo : exists k g c b, make_crc16 = Ok (k, g) /\ update k 0 [129; 7; 64] = Ok c /\
  crc_bytes k c = Ok b /\ b = [83; 232] /\
  tbits true [129; 7; 64; 83; 232] = firstn 10 (tbits true [129; 7; 64; 83; 232]) ++
     [true; false; false; false; false; false; false; false; false; false; false; false; true; false; true] ++
     skipn 25 (tbits true [129; 7; 64; 83; 232]).
Proof.
  destruct make_crc16 as [[k g]|e] eqn:E; [|vm_compute in E; discriminate]. exists k, g.
  vm_compute in E. injection E as <- <-. do 2 eexists. split; [reflexivity|]. split; [vm_compute; reflexivity|].
  split; [vm_compute; reflexivity|]. split; vm_compute; reflexivity.
Qed.
