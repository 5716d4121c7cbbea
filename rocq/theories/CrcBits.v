(** update_bits, class creation and error detection. *)
From Verif Require Import Base CrcModel PacketProofs CrcProofs.

Lemma bits_lsb_length : forall n v, length (bits_lsb n v) = n.
Proof. induction n; intros; cbn [bits_lsb length]; auto. Qed.
Lemma bits_lsb_nth : forall n v i, (i < n)%nat -> nth_error (bits_lsb n v) i = Some (Z.testbit v (Z.of_nat i)).
Proof.
  induction n as [|n IH]; intros v i H; [lia|]. destruct i as [|i]; cbn [bits_lsb nth_error].
  - rewrite Z.bit0_odd. reflexivity.
  - rewrite IH by lia. rewrite Z.div2_spec, Z.shiftr_spec by lia. do 2 f_equal. lia.
Qed.
Lemma list_eq_nth : forall (A : Type) (a b : list A), length a = length b ->
  (forall i, (i < length a)%nat -> nth_error a i = nth_error b i) -> a = b.
Proof.
  induction a as [|x a IH]; destruct b as [|y b]; intros L H; try discriminate; auto.
  pose proof (H 0%nat ltac:(cbn; lia)) as H0. cbn in H0. injection H0 as ->. f_equal. apply IH.
  - cbn in L. lia.
  - intros i Hi. apply (H (S i)). cbn. lia.
Qed.
Lemma nth_error_rev : forall (A : Type) (l : list A) i, (i < length l)%nat ->
  nth_error (rev l) i = nth_error l (length l - 1 - i).
Proof.
  intros A l i H. destruct l as [|d l0] eqn:E; [cbn in H; lia|]. rewrite <- E in *.
  rewrite (nth_error_nth' (rev l) d) by (rewrite rev_length; auto).
  rewrite rev_nth by auto. rewrite (nth_error_nth' l d) by lia. do 2 f_equal. lia.
Qed.
Lemma bits_lsb_rev : forall n v, rev (bits_lsb n v) = bits_lsb n (reverse v (Z.of_nat n)).
Proof.
  intros. apply list_eq_nth; [rewrite rev_length, !bits_lsb_length; auto|].
  intros i Hi. rewrite rev_length, bits_lsb_length in Hi.
  rewrite nth_error_rev by (rewrite bits_lsb_length; auto). rewrite bits_lsb_length.
  rewrite !bits_lsb_nth by lia. rewrite reverse_spec by lia.
  destruct (Z.ltb_spec (Z.of_nat i) (Z.of_nat n)); [|lia]. cbn [andb]. do 2 f_equal. lia.
Qed.
Lemma bits_lsb_app : forall n m v, bits_lsb (n + m) v = bits_lsb n v ++ bits_lsb m (Z.shiftr v (Z.of_nat n)).
Proof.
  intros. apply list_eq_nth; [rewrite app_length, !bits_lsb_length; auto|].
  intros i Hi. rewrite bits_lsb_length in Hi. rewrite bits_lsb_nth by auto.
  destruct (Nat.lt_ge_cases i n).
  - rewrite nth_error_app1 by (rewrite bits_lsb_length; auto). rewrite bits_lsb_nth by auto. reflexivity.
  - rewrite nth_error_app2 by (rewrite bits_lsb_length; auto). rewrite bits_lsb_length, bits_lsb_nth by lia.
    rewrite Z.shiftr_spec by lia. do 2 f_equal. lia.
Qed.
Lemma bits_lsb_mod : forall n v, bits_lsb n (v mod 2 ^ Z.of_nat n) = bits_lsb n v.
Proof.
  intros. apply list_eq_nth; [rewrite !bits_lsb_length; auto|]. intros i Hi. rewrite bits_lsb_length in Hi.
  rewrite !bits_lsb_nth by auto. rewrite Z.mod_pow2_bits_low by lia. reflexivity.
Qed.

Lemma flat_le : forall n v, flat_map (bits_lsb 8) (le_enc n v) = bits_lsb (8 * n) v.
Proof.
  induction n as [|n IH]; intros v; auto.
  replace (8 * S n)%nat with (8 + 8 * n)%nat by lia. rewrite bits_lsb_app.
  cbn [le_enc flat_map]. rewrite IH. f_equal.
  - apply (bits_lsb_mod 8).
  - f_equal. rewrite Z.shiftr_div_pow2 by lia. reflexivity.
Qed.
Lemma flat_map_rev : forall (l : list Z), flat_map (fun b => rev (bits_lsb 8 b)) (rev l) = rev (flat_map (bits_lsb 8) l).
Proof.
  induction l as [|b l IH]; auto. cbn [rev flat_map]. rewrite flat_map_app, IH, rev_app_distr. cbn [flat_map].
  rewrite app_nil_r. reflexivity.
Qed.
Lemma zbits_length : forall k d, length (zbits k d) = (8 * length d)%nat.
Proof.
  intros k. induction d as [|b d IH]; auto. unfold zbits in *. cbn [flat_map]. rewrite app_length, IH, bits_lsb_length.
  cbn [length]. lia.
Qed.
Lemma zbits_app : forall k a b, zbits k (a ++ b) = zbits k a ++ zbits k b.
Proof. intros. apply flat_map_app. Qed.

Lemma iter_S : forall A n (f : A -> A) x, iter (S n) f x = f (iter n f x).
Proof. induction n as [|n IH]; intros; auto. cbn [iter] in *. rewrite <- IH. reflexivity. Qed.

Lemma bits_rev_spec : forall n p b v, bits_rev n p b v = serial p v (bits_lsb n b).
Proof.
  induction n as [|n IH]; intros p b v; auto. cbn [bits_rev bits_lsb]. rewrite IH. rewrite Z.div2_spec.
  unfold serial. cbn [fold_left]. f_equal. unfold bstep, shift_bit. rewrite !land1, !Z.lxor_spec, Z.b2z_bit0.
  rewrite Z.bit0_odd. rewrite (xorb_comm (Z.odd b)). 
  assert (E : Z.shiftr (Z.lxor v (Z.b2z (Z.odd b))) 1 = Z.shiftr v 1).
  { rewrite Z.shiftr_lxor. replace (Z.shiftr (Z.b2z (Z.odd b)) 1) with 0 by (destruct (Z.odd b); reflexivity).
    apply Z.lxor_0_r. }
  rewrite E. reflexivity.
Qed.

Lemma bits_fwd_step : forall k v b, crc_wf k -> 0 <= v < 2 ^ width k ->
  let v' := Z.land (if xorb b (Z.testbit v (width k - 1)) then Z.lxor (Z.shiftl v 1) (cpoly k) else Z.shiftl v 1)
              (crcmask k) in
  0 <= v' < 2 ^ width k /\ reverse v' (width k) = bstep (rp k) (reverse v (width k)) b.
Proof.
  intros k v b W Hv. pose proof W as [Hw Hp _ _ _]. set (w := width k) in *. cbv zeta.
  assert (RB : 0 <= bstep (rp k) (reverse v w) b < 2 ^ w).
  { pose proof (serial_range k [b] (reverse v w) W (reverse_range v w ltac:(lia))) as X. exact X. }
  assert (M : crcmask k = Z.ones w).
  { unfold crcmask. rewrite Z.ones_equiv, Z.shiftl_mul_pow2 by lia. fold w. lia. }
  pose proof (reverse_bstep k (reverse v w) b W (reverse_range v w ltac:(lia))) as E. cbv zeta in E. fold w in E.
  rewrite reverse_invol in E by lia.
  assert (Q : Z.land (if xorb b (Z.testbit v (w - 1)) then Z.lxor (Z.shiftl v 1) (cpoly k) else Z.shiftl v 1)
              (crcmask k) = reverse (bstep (rp k) (reverse v w) b) w).
  { apply Z.bits_inj'. intros i Hi. rewrite M, Z.land_spec. destruct (Z.lt_ge_cases i w).
    - rewrite Z.ones_spec_low, andb_true_r by lia. rewrite E. rewrite xorb_comm.
      assert (S2 : 2 * v = Z.shiftl v 1) by (rewrite Z.shiftl_mul_pow2 by lia; lia). rewrite S2.
      assert (B0 : Z.testbit (Z.b2z b * 2 ^ w) i = false).
      { rewrite <- Z.shiftl_mul_pow2, Z.shiftl_spec by lia. apply Z.testbit_neg_r. lia. }
      rewrite !Z.lxor_spec, B0, xorb_false_r. destruct (xorb (Z.testbit v (w - 1)) b).
      + rewrite !Z.lxor_spec, Z.pow2_bits_false, xorb_false_l by lia. reflexivity.
      + rewrite Z.bits_0, xorb_false_r. reflexivity.
    - rewrite Z.ones_spec_high, andb_false_r by lia. symmetry. apply small_testbit with w; [apply reverse_range|]; lia. }
  rewrite Q. split; [apply reverse_range; lia|]. apply reverse_invol; lia.
Qed.

Lemma bits_fwd_spec : forall k n i b v, crc_wf k -> 0 <= v < 2 ^ width k -> 0 <= i -> i + Z.of_nat n <= 8 ->
  0 <= bits_fwd k n i b v < 2 ^ width k /\
  reverse (bits_fwd k n i b v) (width k) =
    serial (rp k) (reverse v (width k)) (map (fun j => Z.testbit b (7 - i - Z.of_nat j)) (seq 0 n)).
Proof.
  intros k. induction n as [|n IH]; intros i b v W Hv Hi Hn.
  - cbn [bits_fwd seq map]. auto.
  - cbn [bits_fwd]. pose proof (bits_fwd_step k v (Z.testbit b (7 - i)) W Hv) as [S1 S2]. cbv zeta in S1, S2.
    set (v1 := Z.land (if xorb (Z.testbit b (7 - i)) (Z.testbit v (width k - 1)) then Z.lxor (Z.shiftl v 1) (cpoly k)
                       else Z.shiftl v 1) (crcmask k)) in *.
    assert (E : Z.land (if Z.land (Z.lxor (Z.shiftr b (7 - i)) (Z.shiftr v (width k - 1))) 1 =? 0
                        then Z.shiftl v 1 else Z.lxor (Z.shiftl v 1) (cpoly k)) (crcmask k) = v1).
    { unfold v1. rewrite land1, Z.lxor_spec, !Z.shiftr_spec by lia. rewrite !Z.add_0_l.
      destruct (xorb _ _); reflexivity. }
    rewrite E. destruct (IH (i + 1) b v1 W S1 ltac:(lia) ltac:(lia)) as [R1 R2]. split; auto.
    rewrite R2, S2. cbn [seq map]. unfold serial. cbn [fold_left]. replace (7 - i - Z.of_nat 0) with (7 - i) by lia.
    rewrite <- seq_shift, map_map. f_equal. apply map_ext. intros j. f_equal. lia.
Qed.

Lemma upto_nth : forall (l : list Z) n, 0 <= n < zlen l -> exists b, index l n = Ok b /\
  l = upto n l ++ b :: from (n + 1) l.
Proof.
  intros l n H. unfold index, upto, from, zlen in *. destruct (Z.ltb_spec n 0); [lia|].
  destruct (nth_error l (Z.to_nat n)) as [b|] eqn:E.
  - exists b. split; auto. apply nth_error_split in E as (l1 & l2 & -> & L). rewrite <- L.
    replace (Z.to_nat (n + 1)) with (S (length l1)) by lia. rewrite firstn_app, Nat.sub_diag, firstn_all. cbn [firstn].
    rewrite app_nil_r. f_equal. rewrite skipn_app. rewrite skipn_all2 by lia. replace (S (length l1) - length l1)%nat with 1%nat by lia.
    reflexivity.
  - apply nth_error_None in E. lia.
Qed.

(** update_bits on a buffer, for a bit count that is not a whole number of
    bytes, or a buffer of exactly that many bytes. *)
Lemma update_bits_spec : forall k c data bits, crc_wf k -> 0 <= c < 2 ^ width k -> bytes_ok data ->
  0 <= bits <= 8 * zlen data -> (bits mod 8 = 0 -> bits = 8 * zlen data) ->
  exists c', update_bits_bytes k c data bits = Ok c' /\ 0 <= c' < 2 ^ width k /\
    regz k c' = serial (rp k) (regz k c) (firstn (Z.to_nat bits) (zbits k data)).
Proof.
  intros k c data bits W Hc Hd Hb Hz. unfold update_bits_bytes.
  destruct (Z.ltb_spec (zlen data) ((bits + 7) / 8)); [lia|].
  destruct (Z.eqb_spec (bits mod 8) 0) as [E|E].
  - specialize (Hz E). destruct (update_spec k data c W Hc Hd) as (c' & U & R & V). exists c'. repeat split; auto; try lia.
    rewrite V. f_equal. symmetry. apply firstn_all2. rewrite zbits_length. unfold zlen in Hz. lia.
  - assert (Hn : 0 <= bits / 8 < zlen data) by lia.
    destruct (upto_nth data (bits / 8) Hn) as (b & I & D).
    assert (Hu : bytes_ok (upto (bits / 8) data)) by (apply bytes_ok_upto; auto).
    assert (Bb : byte_ok b).
    { rewrite D in Hd. apply bytes_ok_app in Hd as [_ Hd]. inversion Hd; auto. }
    destruct (update_spec k (upto (bits / 8) data) c W Hc Hu) as (v & U & R & V). rewrite U. cbn [bind].
    rewrite I. cbn [bind].
    assert (F : firstn (Z.to_nat bits) (zbits k data) =
                zbits k (upto (bits / 8) data) ++ bits_lsb (Z.to_nat (bits mod 8)) (dataz k b)).
    { rewrite D at 1. rewrite zbits_app. rewrite firstn_app, zbits_length.
      assert (LU : length (upto (bits / 8) data) = Z.to_nat (bits / 8)).
      { pose proof (zlen_upto _ (bits / 8) data ltac:(lia)). unfold zlen in *. lia. }
      rewrite LU. rewrite firstn_all2 by (rewrite zbits_length, LU; lia). f_equal.
      unfold zbits. cbn [flat_map]. rewrite firstn_app, bits_lsb_length.
      replace (Z.to_nat bits - 8 * Z.to_nat (bits / 8))%nat with (Z.to_nat (bits mod 8)) by lia.
      replace (Z.to_nat (bits mod 8) - 8)%nat with 0%nat by lia. rewrite firstn_O, app_nil_r.
      replace 8%nat with (Z.to_nat (bits mod 8) + (8 - Z.to_nat (bits mod 8)))%nat at 1 by lia.
      rewrite bits_lsb_app. rewrite firstn_app, bits_lsb_length, Nat.sub_diag, firstn_O, app_nil_r.
      apply firstn_all2. rewrite bits_lsb_length. lia. }
    rewrite F. unfold serial. rewrite fold_left_app. fold (serial (rp k) (regz k c) (zbits k (upto (bits / 8) data))).
    rewrite <- V. destruct (reversed k) eqn:RV.
    + destruct (table_spec k 128 W) as (t & T1 & T2 & T3); [unfold byte_ok; lia|]. rewrite T1. cbn [bind].
      assert (t = rp k).
      { unfold regz, dataz in T3. rewrite RV in T3. rewrite T3, iter_S.
        replace 128 with (Z.shiftl 1 (Z.of_nat 7)) by reflexivity. rewrite iter_shl. rewrite shift_bit_alt.
        change (Z.shiftr 1 1) with 0. change (Z.testbit 1 0) with true. apply Z.lxor_0_l. }
      subst t. eexists. split; [reflexivity|]. rewrite bits_rev_spec. split; [apply serial_range; auto|].
      unfold regz, dataz. rewrite RV. reflexivity.
    + cbn [bind]. eexists. split; [reflexivity|].
      destruct (bits_fwd_spec k (Z.to_nat (bits mod 8)) 0 b v W R ltac:(lia) ltac:(lia)) as [F1 F2].
      split; auto. unfold regz, dataz. rewrite RV. rewrite F2. unfold serial. f_equal.
      apply list_eq_nth; [rewrite map_length, seq_length, bits_lsb_length; auto|].
      intros i Hi. rewrite map_length, seq_length in Hi. rewrite bits_lsb_nth by auto.
      rewrite nth_error_map. rewrite (nth_error_nth' _ 0%nat) by (rewrite seq_length; auto).
      rewrite seq_nth by auto. cbn [option_map Nat.add]. rewrite reverse_spec by lia.
      destruct (Z.ltb_spec (Z.of_nat i) 8); [|lia]. cbn [andb]. do 2 f_equal; lia.
Qed.

(** update_bits with an integer of the stated number of bits. *)
Lemma update_bits_int_spec : forall k c v bits, crc_wf k -> 0 <= c < 2 ^ width k ->
  0 <= bits -> 0 <= v < 2 ^ bits ->
  exists c', update_bits_int k c v bits = Ok c' /\ 0 <= c' < 2 ^ width k /\
    regz k c' = iter (Z.to_nat bits) (shift_bit (rp k))
                  (Z.lxor (regz k c) (if reversed k then v else reverse v bits)).
Proof.
  intros k c v bits W Hc Hbits Hv. unfold update_bits_int.
  set (tb := Z.to_nat ((bits + 7) / 8)).
  assert (TB : Z.of_nat tb = (bits + 7) / 8) by (unfold tb; lia).
  destruct (reversed k) eqn:RV.
  - rewrite to_bytes_ok.
    2:{ rewrite pow_256_2. split; [lia|]. apply Z.lt_le_trans with (2 ^ bits); [lia|]. apply Z.pow_le_mono_r; lia. }
    cbn [bind].
    destruct (update_bits_spec k c (le_enc tb v) bits W Hc (le_enc_bytes _ _)) as (c' & U & R & V);
      [rewrite zlen_le_enc; lia|rewrite zlen_le_enc; lia|].
    exists c'. repeat split; auto; try lia. rewrite V.
    rewrite <- serial_iter by (rewrite Z2Nat.id by lia; lia). f_equal.
    assert (Z1 : zbits k (le_enc tb v) = bits_lsb (8 * tb) v).
    { unfold zbits, dataz. rewrite RV. apply flat_le. }
    rewrite Z1. replace (8 * tb)%nat with (Z.to_nat bits + (8 * tb - Z.to_nat bits))%nat by lia.
    rewrite bits_lsb_app, firstn_app, bits_lsb_length, Nat.sub_diag, firstn_O, app_nil_r. apply firstn_all2.
    rewrite bits_lsb_length. lia.
  - set (s := if bits mod 8 =? 0 then 0 else 8 - bits mod 8).
    assert (HS : 0 <= s /\ bits + s = 8 * Z.of_nat tb).
    { unfold s. destruct (Z.eqb_spec (bits mod 8) 0); lia. }
    replace (if bits mod 8 =? 0 then v else Z.shiftl v (8 - bits mod 8)) with (Z.shiftl v s).
    2:{ unfold s. destruct (bits mod 8 =? 0); [apply Z.shiftl_0_r|reflexivity]. }
    assert (RS : 0 <= Z.shiftl v s < 256 ^ Z.of_nat tb).
    { rewrite pow_256_2. destruct HS as [HS <-]. rewrite Z.pow_add_r, Z.shiftl_mul_pow2 by lia.
      assert (0 < 2 ^ s) by (apply Z.pow_pos_nonneg; lia). nia. }
    unfold to_bytes_be. rewrite to_bytes_ok by auto. cbn [bind].
    assert (LR : zlen (rev (le_enc tb (Z.shiftl v s))) = Z.of_nat tb).
    { unfold zlen. rewrite rev_length, le_enc_length. lia. }
    destruct (update_bits_spec k c (rev (le_enc tb (Z.shiftl v s))) bits W Hc) as (c' & U & R & V);
      [apply Forall_rev, le_enc_bytes|rewrite LR; lia|rewrite LR; lia|].
    exists c'. repeat split; auto; try lia. rewrite V.
    rewrite <- serial_iter by (rewrite Z2Nat.id by lia; apply reverse_range; lia). f_equal.
    assert (Z1 : zbits k (rev (le_enc tb (Z.shiftl v s))) = rev (bits_lsb (8 * tb) (Z.shiftl v s))).
    { unfold zbits, dataz. rewrite RV. rewrite <- flat_le, <- flat_map_rev. apply flat_map_ext. intros b.
      rewrite (bits_lsb_rev 8). reflexivity. }
    rewrite Z1. replace (8 * tb)%nat with (Z.to_nat s + Z.to_nat bits)%nat by lia.
    rewrite bits_lsb_app, rev_app_distr. rewrite Z2Nat.id by lia.
    rewrite Z.shiftr_shiftl_r by lia. replace (s - s) with 0 by lia. rewrite Z.shiftr_0_r.
    rewrite firstn_app, rev_length, bits_lsb_length, Nat.sub_diag, firstn_O, app_nil_r.
    rewrite firstn_all2 by (rewrite rev_length, bits_lsb_length; lia).
    rewrite bits_lsb_rev, Z2Nat.id by lia. reflexivity.
Qed.

(** Feeding a register its own value leaves a constant. *)
Definition residue (k : crc) : Z := iter (Z.to_nat (width k)) (shift_bit (rp k)) (regz k (final k)).
Lemma own_value : forall k c, crc_wf k -> 0 <= c < 2 ^ width k ->
  exists c', update_bits_int k c (value k c) (width k) = Ok c' /\ 0 <= c' < 2 ^ width k /\
    regz k c' = residue k.
Proof.
  intros k c W Hc. pose proof W as [Hw _ _ Hf _].
  assert (V : 0 <= value k c < 2 ^ width k) by (apply lxor_range; auto; lia).
  destruct (update_bits_int_spec k c (value k c) (width k) W Hc ltac:(lia) V) as (c' & U & R & E).
  exists c'. repeat split; auto; try lia. rewrite E. unfold residue. f_equal.
  unfold value, regz. destruct (reversed k).
  - rewrite <- Z.lxor_assoc, Z.lxor_nilpotent. apply Z.lxor_0_l.
  - rewrite reverse_xor by lia. rewrite <- Z.lxor_assoc, Z.lxor_nilpotent. apply Z.lxor_0_l.
Qed.

(** Class creation always succeeds on sensible parameters. *)
Lemma check_value_spec : forall k data, crc_wf k -> bytes_ok data ->
  exists c, check_value k data = Ok (value k c) /\ 0 <= c < 2 ^ width k /\ regz k c = residue k.
Proof.
  intros k data W Hd. unfold check_value. pose proof W as [_ _ Hi _ _].
  destruct (update_spec k data (initial k) W Hi Hd) as (c & U & R & _). rewrite U. cbn [bind].
  destruct (own_value k c W R) as (c' & U' & R' & E). rewrite U'. cbn [bind]. eauto.
Qed.

Lemma good_spec : forall k g c c0, crc_wf k -> 0 <= c < 2 ^ width k -> 0 <= c0 < 2 ^ width k ->
  regz k c0 = residue k -> g = value k c0 -> (good k g c = true <-> regz k c = residue k).
Proof.
  intros k g c c0 W Hc Hc0 E ->. unfold good. rewrite Z.eqb_eq. unfold value. split.
  - intros H. apply (f_equal (fun z => Z.lxor z (final k))) in H. rewrite !Z.lxor_assoc, !Z.lxor_nilpotent, !Z.lxor_0_r in H.
    congruence.
  - intros H. rewrite <- E in H. apply regz_inj in H; auto. congruence.
Qed.

(** *** Error detection *)
Lemma shift_bit_inj0 : forall p w c, 1 <= w -> 0 <= p < 2 ^ w -> Z.testbit p (w - 1) = true ->
  0 <= c < 2 ^ w -> shift_bit p c = 0 -> c = 0.
Proof.
  intros p w c Hw Hp Ht Hc E. rewrite shift_bit_alt in E. destruct (Z.testbit c 0) eqn:B.
  - exfalso. apply (f_equal (fun z => Z.testbit z (w - 1))) in E. rewrite Z.lxor_spec, Z.bits_0, Ht in E.
    rewrite Z.shiftr_spec in E by lia. replace (w - 1 + 1) with w in E by lia.
    rewrite (small_testbit c w) in E by lia. discriminate.
  - rewrite Z.lxor_0_r in E. apply Z.bits_inj'. intros i Hi. rewrite Z.bits_0.
    destruct (Z.eq_dec i 0) as [->|]; auto.
    apply (f_equal (fun z => Z.testbit z (i - 1))) in E. rewrite Z.bits_0, Z.shiftr_spec in E by lia.
    replace (i - 1 + 1) with i in E by lia. auto.
Qed.
Lemma bstep_diff : forall p c d b, Z.lxor (bstep p c b) (bstep p d b) = shift_bit p (Z.lxor c d).
Proof.
  intros. unfold bstep. rewrite <- shift_bit_xor. f_equal.
  rewrite (Z.lxor_comm d), Z.lxor_assoc, <- (Z.lxor_assoc (Z.b2z b)), Z.lxor_nilpotent, Z.lxor_0_l. reflexivity.
Qed.
Lemma serial_diff : forall p l c d, Z.lxor (serial p c l) (serial p d l) = iter (length l) (shift_bit p) (Z.lxor c d).
Proof.
  induction l as [|b l IH]; intros c d; auto. unfold serial in *. cbn [fold_left length iter].
  rewrite IH, bstep_diff. reflexivity.
Qed.
(** Value of a bit string, first bit least significant. *)
Fixpoint lval (l : list bool) : Z := match l with [] => 0 | b :: t => Z.b2z b + 2 * lval t end.
Lemma lval_range : forall l, 0 <= lval l < 2 ^ Z.of_nat (length l).
Proof.
  induction l as [|b l IH]; [cbn; lia|]. cbn [lval length]. rewrite Nat2Z.inj_succ, Z.pow_succ_r by lia.
  destruct b; cbn [Z.b2z]; lia.
Qed.
Lemma bits_lval : forall l, bits_lsb (length l) (lval l) = l.
Proof.
  induction l as [|b l IH]; auto. cbn [length lval bits_lsb]. f_equal.
  - rewrite Z.odd_add, Z.odd_mul. cbn [Z.odd andb]. rewrite xorb_false_r. destruct b; reflexivity.
  - replace (Z.div2 (Z.b2z b + 2 * lval l)) with (lval l); auto. rewrite Z.div2_div. destruct b; cbn [Z.b2z]; lia.
Qed.
Lemma lval_inj : forall a b, length a = length b -> lval a = lval b -> a = b.
Proof. intros a b L E. rewrite <- (bits_lval a), <- (bits_lval b), L, E. reflexivity. Qed.
Lemma serial_lval : forall p c l, serial p c l = iter (length l) (shift_bit p) (Z.lxor c (lval l)).
Proof. intros. rewrite <- serial_iter by apply lval_range. rewrite bits_lval. reflexivity. Qed.

Lemma iter_inj0 : forall p w n c, 1 <= w -> 0 <= p < 2 ^ w -> Z.testbit p (w - 1) = true ->
  0 <= c < 2 ^ w -> iter n (shift_bit p) c = 0 -> c = 0.
Proof.
  induction n as [|n IH]; intros c Hw Hp Ht Hc E; auto. cbn [iter] in E.
  apply (shift_bit_inj0 p w); auto. apply IH; auto.
  pose proof (shift_bit_range p c w (w - 1) ltac:(lia) ltac:(lia) Hp) as X.
  replace (Z.max w (w - 1)) with w in X by lia. apply X. replace (w - 1 + 1) with w by lia. auto.
Qed.

Lemma lxor_move : forall a b c, Z.lxor (Z.lxor a b) (Z.lxor a c) = Z.lxor b c.
Proof.
  intros. apply Z.bits_inj'. intros i _. rewrite !Z.lxor_spec.
  destruct (Z.testbit a i), (Z.testbit b i), (Z.testbit c i); reflexivity.
Qed.

Lemma iter_add : forall A a b (f : A -> A) x, iter (a + b) f x = iter b f (iter a f x).
Proof. induction a as [|a IH]; intros; cbn [Nat.add iter]; auto. Qed.

(** Bit strings that differ only inside a window of at most [width] bits lead
    to different registers. *)
Lemma burst_serial : forall p w c pre m m' post, 1 <= w -> 0 <= p < 2 ^ w -> Z.testbit p (w - 1) = true ->
  0 <= c < 2 ^ w -> length m = length m' -> Z.of_nat (length m) <= w -> m <> m' ->
  serial p c (pre ++ m ++ post) <> serial p c (pre ++ m' ++ post).
Proof.
  intros p w c pre m m' post Hw Hp Ht Hc L Lm Ne E. apply Ne. apply lval_inj; auto.
  unfold serial in E. rewrite !fold_left_app in E. set (s := fold_left (bstep p) pre c) in *.
  fold (serial p s m) (serial p s m') in E.
  fold (serial p (serial p s m) post) (serial p (serial p s m') post) in E.
  apply Z.lxor_eq_0_iff in E. rewrite serial_diff, !serial_lval, <- L, <- !iter_xor, lxor_move in E.
  set (d := Z.lxor (lval m) (lval m')) in *.
  assert (D : 0 <= d < 2 ^ w).
  { apply lxor_range; [lia| |].
    - pose proof (lval_range m). pose proof (Z.pow_le_mono_r 2 (Z.of_nat (length m)) w ltac:(lia) Lm). lia.
    - pose proof (lval_range m'). rewrite <- L in H. pose proof (Z.pow_le_mono_r 2 (Z.of_nat (length m)) w ltac:(lia) Lm). lia. }
  apply Z.lxor_eq. fold d.
  assert (E2 : iter (length m + length post) (shift_bit p) d = 0).
  { rewrite iter_add. exact E. }
  apply (iter_inj0 p w _ d Hw Hp Ht D E2).
Qed.

(** Parity is preserved when the generator has an even number of terms. *)
Fixpoint parity_n (n : nat) (v : Z) : bool :=
  match n with O => false | S m => xorb (Z.testbit v (Z.of_nat m)) (parity_n m v) end.
Lemma parity_xor : forall n a b, parity_n n (Z.lxor a b) = xorb (parity_n n a) (parity_n n b).
Proof.
  induction n as [|n IH]; intros; auto. cbn [parity_n]. rewrite IH, Z.lxor_spec.
  destruct (Z.testbit a (Z.of_nat n)), (Z.testbit b (Z.of_nat n)), (parity_n n a), (parity_n n b); reflexivity.
Qed.
Lemma parity_ext : forall n a b, (forall i, 0 <= i < Z.of_nat n -> Z.testbit a i = Z.testbit b i) -> parity_n n a = parity_n n b.
Proof.
  induction n as [|n IH]; intros a b H; auto. cbn [parity_n]. rewrite H by lia. f_equal. apply IH. intros. apply H. lia.
Qed.
Lemma parity_shift : forall n v, xorb (Z.testbit v 0) (parity_n n (Z.shiftr v 1)) = parity_n (S n) v.
Proof.
  induction n as [|n IH]; intros v.
  - reflexivity.
  - change (parity_n (S (S n)) v) with (xorb (Z.testbit v (Z.of_nat (S n))) (parity_n (S n) v)).
    rewrite <- (IH v). cbn [parity_n]. rewrite Z.shiftr_spec by lia. replace (Z.of_nat n + 1) with (Z.of_nat (S n)) by lia.
    destruct (Z.testbit v 0), (Z.testbit v (Z.of_nat (S n))), (parity_n n (Z.shiftr v 1)); reflexivity.
Qed.
Lemma parity_shift_bit : forall p n v, parity_n n p = true -> 0 <= v < 2 ^ Z.of_nat n ->
  parity_n n (shift_bit p v) = parity_n n v.
Proof.
  intros p n v Hp Hv. rewrite shift_bit_alt, parity_xor.
  assert (E : parity_n n v = xorb (Z.testbit v 0) (parity_n n (Z.shiftr v 1))).
  { rewrite parity_shift. cbn [parity_n]. rewrite (small_testbit v (Z.of_nat n)) by lia. rewrite xorb_false_l. reflexivity. }
  assert (P0 : parity_n n 0 = false).
  { clear. induction n as [|n IH]; auto. cbn [parity_n]. rewrite Z.bits_0, IH. reflexivity. }
  rewrite E. destruct (Z.testbit v 0); [rewrite Hp|rewrite P0]; destruct (parity_n n (Z.shiftr v 1)); reflexivity.
Qed.
Fixpoint odd_ones (l : list bool) : bool := match l with [] => false | b :: t => xorb b (odd_ones t) end.
Lemma parity_bstep : forall p n c b, (1 <= n)%nat -> parity_n n p = true -> 0 <= p < 2 ^ Z.of_nat n -> 0 <= c < 2 ^ Z.of_nat n ->
  0 <= bstep p c b < 2 ^ Z.of_nat n /\ parity_n n (bstep p c b) = xorb (parity_n n c) b.
Proof.
  intros p n c b Hn Hp Rp Rc. unfold bstep.
  assert (B : 0 <= Z.b2z b < 2 ^ Z.of_nat n).
  { assert (2 ^ 1 <= 2 ^ Z.of_nat n) by (apply Z.pow_le_mono_r; lia). change (2 ^ 1) with 2 in H. destruct b; cbn [Z.b2z]; lia. }
  assert (X : 0 <= Z.lxor c (Z.b2z b) < 2 ^ Z.of_nat n) by (apply lxor_range; auto; lia).
  split.
  - pose proof (shift_bit_range p (Z.lxor c (Z.b2z b)) (Z.of_nat n) (Z.of_nat n - 1) ltac:(lia) ltac:(lia) Rp) as Y.
    replace (Z.max (Z.of_nat n) (Z.of_nat n - 1)) with (Z.of_nat n) in Y by lia. apply Y.
    replace (Z.of_nat n - 1 + 1) with (Z.of_nat n) by lia. auto.
  - rewrite parity_shift_bit, parity_xor by auto. f_equal.
    clear - Hn. destruct n as [|n]; [lia|]. clear Hn. induction n as [|n IH].
    + cbn [parity_n]. rewrite xorb_false_r. apply Z.b2z_bit0.
    + change (parity_n (S (S n)) (Z.b2z b)) with (xorb (Z.testbit (Z.b2z b) (Z.of_nat (S n))) (parity_n (S n) (Z.b2z b))).
      rewrite IH. rewrite (small_testbit (Z.b2z b) 1); [apply xorb_false_l| |lia].
      change (2 ^ 1) with 2. destruct b; cbn; lia.
Qed.
Lemma parity_serial : forall p n l c, (1 <= n)%nat -> parity_n n p = true -> 0 <= p < 2 ^ Z.of_nat n -> 0 <= c < 2 ^ Z.of_nat n ->
  parity_n n (serial p c l) = xorb (parity_n n c) (odd_ones l).
Proof.
  induction l as [|b l IH]; intros c Hn Hp Rp Rc.
  - cbn. rewrite xorb_false_r. reflexivity.
  - destruct (parity_bstep p n c b Hn Hp Rp Rc) as [R P]. unfold serial in *. cbn [fold_left odd_ones].
    rewrite IH by auto. rewrite P. destruct (parity_n n c), b, (odd_ones l); reflexivity.
Qed.
