From Verif Require Import Base CrcModel PacketProofs.

(** *** Bit-level lemmas *)
Lemma land1 : forall i, Z.land i 1 = Z.b2z (Z.testbit i 0).
Proof.
  intros. change 1 with (Z.ones 1). rewrite Z.land_ones by lia. change (2 ^ 1) with 2.
  rewrite Z.bit0_odd, Zmod_odd. destruct (Z.odd i); reflexivity.
Qed.
Lemma shift_bit_alt : forall p i,
  shift_bit p i = Z.lxor (Z.shiftr i 1) (if Z.testbit i 0 then p else 0).
Proof.
  intros. unfold shift_bit. rewrite land1. destruct (Z.testbit i 0); cbn [Z.b2z Z.eqb]; auto.
  rewrite Z.lxor_0_r. reflexivity.
Qed.
Lemma shift_bit_testbit : forall p i n, 0 <= n ->
  Z.testbit (shift_bit p i) n = xorb (Z.testbit i (n + 1)) (Z.testbit i 0 && Z.testbit p n).
Proof.
  intros. rewrite shift_bit_alt, Z.lxor_spec, Z.shiftr_spec by lia.
  destruct (Z.testbit i 0); cbn [andb]; auto. rewrite Z.bits_0. reflexivity.
Qed.
Lemma shift_bit_xor : forall p a b, shift_bit p (Z.lxor a b) = Z.lxor (shift_bit p a) (shift_bit p b).
Proof.
  intros. apply Z.bits_inj'. intros n Hn. rewrite Z.lxor_spec, !shift_bit_testbit, !Z.lxor_spec by lia.
  destruct (Z.testbit a (n + 1)), (Z.testbit b (n + 1)), (Z.testbit a 0), (Z.testbit b 0), (Z.testbit p n); reflexivity.
Qed.
Lemma iter_xor : forall p k a b,
  iter k (shift_bit p) (Z.lxor a b) = Z.lxor (iter k (shift_bit p) a) (iter k (shift_bit p) b).
Proof. induction k as [|k IH]; intros; cbn [iter]; auto. rewrite shift_bit_xor. apply IH. Qed.
Lemma iter_0 : forall p k, iter k (shift_bit p) 0 = 0.
Proof. induction k; cbn [iter]; auto. Qed.
Lemma shift_bit_double : forall p x, shift_bit p (Z.shiftl x 1) = x.
Proof.
  intros. rewrite shift_bit_alt. rewrite Z.shiftl_spec_low by lia. rewrite Z.lxor_0_r.
  rewrite Z.shiftr_shiftl_r by lia. apply Z.shiftr_0_r.
Qed.
Lemma iter_shl : forall p k x, iter k (shift_bit p) (Z.shiftl x (Z.of_nat k)) = x.
Proof.
  induction k as [|k IH]; intros x; cbn [iter].
  - apply Z.shiftl_0_r.
  - replace (Z.of_nat (S k)) with (Z.of_nat k + 1) by lia. rewrite <- Z.shiftl_shiftl by lia.
    rewrite shift_bit_double. apply IH.
Qed.
Lemma shift_bit_nonneg : forall p i, 0 <= p -> 0 <= i -> 0 <= shift_bit p i.
Proof.
  intros. unfold shift_bit. destruct (Z.land i 1 =? 0).
  - apply Z.shiftr_nonneg. lia.
  - apply Z.lxor_nonneg. pose proof (Z.shiftr_nonneg i 1). lia.
Qed.
Lemma lt_pow_testbit : forall v n, 0 <= n -> 0 <= v ->
  (v < 2 ^ n <-> forall i, n <= i -> Z.testbit v i = false).
Proof.
  intros v n Hn Hv. split.
  - intros H i Hi. apply small_testbit with n; lia.
  - intros H. apply testbit_small; auto.
Qed.
Lemma shift_bit_range : forall p i w m, 0 <= w -> 0 <= m -> 0 <= p < 2 ^ w -> 0 <= i < 2 ^ (m + 1) ->
  0 <= shift_bit p i < 2 ^ Z.max w m.
Proof.
  intros p i w m Hw Hm Hp Hi. assert (0 <= shift_bit p i) by (apply shift_bit_nonneg; lia).
  split; auto. apply lt_pow_testbit; [lia|auto|]. intros n Hn. rewrite shift_bit_testbit by lia.
  rewrite (small_testbit i (m + 1)) by lia. rewrite (small_testbit p w) by lia.
  destruct (Z.testbit i 0); reflexivity.
Qed.
Lemma iter_range : forall p w k i m, 0 <= w -> 0 <= p < 2 ^ w -> 0 <= m -> 0 <= i < 2 ^ Z.max w m ->
  0 <= iter k (shift_bit p) i < 2 ^ Z.max w (m - Z.of_nat k).
Proof.
  induction k as [|k IH]; intros i m Hw Hp Hm Hi.
  - cbn [iter]. replace (m - Z.of_nat 0) with m by lia. auto.
  - cbn [iter]. destruct (Z.eq_dec m 0) as [->|].
    + replace (Z.max w (0 - Z.of_nat (S k))) with (Z.max w (0 - Z.of_nat k)) by lia.
      apply IH; auto; try lia.
      destruct (Z.eq_dec w 0) as [->|].
      * cbn in Hi. assert (i = 0) by lia. subst. cbn in Hp. assert (p = 0) by lia. subst. cbn. lia.
      * replace (Z.max w 0) with (Z.max w (w - 1)) by lia. apply shift_bit_range; auto; try lia.
        replace (w - 1 + 1) with w by lia. replace (Z.max w 0) with w in Hi by lia. lia.
    + replace (m - Z.of_nat (S k)) with (m - 1 - Z.of_nat k) by lia.
      destruct (Z.le_gt_cases m w).
      * apply IH; auto; try lia. replace (Z.max w (m - 1)) with (Z.max w (w - 1)) by lia.
        apply shift_bit_range; auto; try lia. replace (w - 1 + 1) with w by lia.
        replace (Z.max w m) with w in Hi by lia. auto.
      * apply IH; auto; try lia. apply shift_bit_range; auto; try lia.
        replace (m - 1 + 1) with m by lia. replace (Z.max w m) with m in Hi by lia. auto.
Qed.

(** *** reverse *)
Lemma reverse_loop_spec : forall n ret v i, 0 <= i ->
  Z.testbit (reverse_loop n ret v) i =
  if i <? Z.of_nat n then Z.testbit v (Z.of_nat n - 1 - i) else Z.testbit ret (i - Z.of_nat n).
Proof.
  induction n as [|n IH]; intros ret v i Hi; cbn [reverse_loop].
  - destruct (Z.ltb_spec i (Z.of_nat 0)); [lia|]. f_equal. lia.
  - rewrite IH by auto. destruct (Z.ltb_spec i (Z.of_nat n)).
    + destruct (Z.ltb_spec i (Z.of_nat (S n))); [|lia]. rewrite Z.shiftr_spec by lia. f_equal. lia.
    + rewrite Z.lor_spec, Z.shiftl_spec, land1 by lia. destruct (Z.ltb_spec i (Z.of_nat (S n))).
      * assert (i = Z.of_nat n) by lia. subst i. rewrite Z.testbit_neg_r by lia. cbn [orb].
        replace (Z.of_nat n - Z.of_nat n) with 0 by lia. rewrite Z.b2z_bit0. f_equal. lia.
      * rewrite (small_testbit (Z.b2z _) 1) by (change (2 ^ 1) with 2; destruct (Z.testbit v 0); cbn; lia).
        rewrite orb_false_r. f_equal. lia.
Qed.
Lemma reverse_spec : forall v w i, 0 <= w -> 0 <= i ->
  Z.testbit (reverse v w) i = (i <? w) && Z.testbit v (w - 1 - i).
Proof.
  intros v w i Hw Hi. unfold reverse. rewrite reverse_loop_spec by auto. rewrite Z2Nat.id by auto.
  destruct (i <? w); cbn [andb]; auto. apply Z.bits_0.
Qed.
Lemma reverse_nonneg : forall v w, 0 <= reverse v w.
Proof.
  intros. unfold reverse. generalize (Z.to_nat w) as n.
  assert (H : forall n ret v, 0 <= ret -> 0 <= reverse_loop n ret v).
  { induction n as [|n IH]; intros ret x H; cbn [reverse_loop]; auto. apply IH.
    apply Z.lor_nonneg. split; [apply Z.shiftl_nonneg; auto|]. rewrite land1. destruct (Z.testbit x 0); cbn; lia. }
  intros. apply H. lia.
Qed.
Lemma reverse_range : forall v w, 0 <= w -> 0 <= reverse v w < 2 ^ w.
Proof.
  intros v w Hw. pose proof (reverse_nonneg v w). split; auto.
  apply lt_pow_testbit; auto. intros i Hi. rewrite reverse_spec by lia.
  destruct (Z.ltb_spec i w); [lia|reflexivity].
Qed.
Lemma reverse_invol : forall v w, 0 <= w -> 0 <= v < 2 ^ w -> reverse (reverse v w) w = v.
Proof.
  intros v w Hw Hv. apply Z.bits_inj'. intros i Hi. rewrite reverse_spec by lia.
  destruct (Z.ltb_spec i w); cbn [andb].
  - rewrite reverse_spec by lia. destruct (Z.ltb_spec (w - 1 - i) w); [|lia]. cbn [andb]. f_equal. lia.
  - symmetry. apply small_testbit with w; lia.
Qed.
Lemma reverse_xor : forall a b w, 0 <= w -> reverse (Z.lxor a b) w = Z.lxor (reverse a w) (reverse b w).
Proof.
  intros. apply Z.bits_inj'. intros i Hi. rewrite Z.lxor_spec, !reverse_spec by lia.
  destruct (i <? w); cbn [andb]; auto. apply Z.lxor_spec.
Qed.

(** *** Serial processing, least significant bit first, register reflected. *)
Definition bstep (rp c : Z) (b : bool) : Z := shift_bit rp (Z.lxor c (Z.b2z b)).
Definition serial (rp c : Z) (l : list bool) : Z := fold_left (bstep rp) l c.
Fixpoint bits_lsb (n : nat) (v : Z) : list bool :=
  match n with O => [] | S m => Z.odd v :: bits_lsb m (Z.div2 v) end.

Lemma serial_iter : forall rp n c v, 0 <= v < 2 ^ Z.of_nat n ->
  serial rp c (bits_lsb n v) = iter n (shift_bit rp) (Z.lxor c v).
Proof.
  induction n as [|n IH]; intros c v Hv.
  - change (2 ^ Z.of_nat 0) with 1 in Hv. assert (v = 0) by lia. subst. cbn. rewrite Z.lxor_0_r. reflexivity.
  - unfold serial in *. cbn [bits_lsb fold_left]. rewrite IH.
    2:{ rewrite Z.div2_div. replace (Z.of_nat (S n)) with (Z.of_nat n + 1) in Hv by lia.
        rewrite Z.pow_add_r in Hv by lia. change (2 ^ 1) with 2 in Hv. lia. }
    cbn [iter]. f_equal. unfold bstep.
    assert (E : v = Z.lxor (Z.b2z (Z.odd v)) (Z.shiftl (Z.div2 v) 1)).
    { rewrite (Z.div2_odd v) at 1. rewrite Z.shiftl_mul_pow2 by lia. change (2 ^ 1) with 2.
      rewrite <- Z.add_nocarry_lxor; [lia|]. apply Z.bits_inj'. intros i Hi. rewrite Z.land_spec, Z.bits_0.
      destruct (Z.eq_dec i 0) as [->|].
      - replace (Z.div2 v * 2) with (2 * Z.div2 v) by lia. rewrite Z.testbit_even_0. apply andb_false_r.
      - rewrite (small_testbit (Z.b2z _) 1) by (try (change (2 ^ 1) with 2; destruct (Z.odd v); cbn); lia). reflexivity. }
    replace (Z.lxor c v) with (Z.lxor (Z.lxor c (Z.b2z (Z.odd v))) (Z.shiftl (Z.div2 v) 1))
      by (rewrite Z.lxor_assoc, <- E; reflexivity).
    rewrite (shift_bit_xor _ (Z.lxor c _)), shift_bit_double. reflexivity.
Qed.

(** *** Well formed classes *)
Record crc_wf (k : crc) : Prop := {
  wf_width : 1 <= width k;
  wf_poly : 0 <= cpoly k < 2 ^ width k;
  wf_init : 0 <= initial k < 2 ^ width k;
  wf_final : 0 <= final k < 2 ^ width k;
  wf_table : crctable k = maketable (cpoly k) (width k) (reversed k) }.

Definition rp (k : crc) : Z := reverse (cpoly k) (width k).
Definition regz (k : crc) (c : Z) : Z := if reversed k then c else reverse c (width k).
Definition dataz (k : crc) (b : Z) : Z := if reversed k then b else reverse b 8.

Lemma rp_range : forall k, crc_wf k -> 0 <= rp k < 2 ^ width k.
Proof. intros k H. apply reverse_range. destruct H. lia. Qed.
Lemma regz_range : forall k c, crc_wf k -> 0 <= c < 2 ^ width k -> 0 <= regz k c < 2 ^ width k.
Proof. intros k c H Hc. unfold regz. destruct (reversed k); auto. apply reverse_range. destruct H. lia. Qed.
Lemma dataz_range : forall k b, byte_ok b -> byte_ok (dataz k b).
Proof. intros k b H. unfold dataz. destruct (reversed k); auto. unfold byte_ok. change 256 with (2 ^ 8). apply reverse_range. lia. Qed.
Lemma regz_inj : forall k c d, crc_wf k -> 0 <= c < 2 ^ width k -> 0 <= d < 2 ^ width k ->
  regz k c = regz k d -> c = d.
Proof.
  intros k c d H Hc Hd E. unfold regz in E. destruct (reversed k); auto. destruct H.
  rewrite <- (reverse_invol c (width k)), <- (reverse_invol d (width k)) by lia. congruence.
Qed.

Lemma nth_error_map_seq : forall (f : nat -> Z) n i, (i < n)%nat ->
  nth_error (map f (seq 0 n)) i = Some (f i).
Proof.
  intros f n i H. rewrite nth_error_map.
  assert (E : nth_error (seq 0 n) i = Some i).
  { rewrite (nth_error_nth' _ 0%nat) by (rewrite seq_length; auto). rewrite seq_nth; auto. }
  rewrite E. reflexivity.
Qed.

(** A table entry, in the reflected view. *)
Lemma table_spec : forall k i, crc_wf k -> byte_ok i ->
  exists t, index (crctable k) i = Ok t /\ 0 <= t < 2 ^ width k /\
    regz k t = iter 8 (shift_bit (rp k)) (dataz k i).
Proof.
  intros k i W Hi. pose proof W as [Hw Hp _ _ Ht]. unfold byte_ok in Hi. rewrite Ht.
  unfold index. destruct (Z.ltb_spec i 0); [lia|]. unfold maketable.
  rewrite nth_error_map_seq by lia. rewrite Z2Nat.id by lia. fold (rp k).
  assert (R : 0 <= iter 8 (shift_bit (rp k)) (dataz k i) < 2 ^ width k).
  { pose proof (rp_range k W). pose proof (dataz_range k i Hi) as D. unfold byte_ok in D.
    pose proof (iter_range (rp k) (width k) 8 (dataz k i) 8 ltac:(lia) ltac:(lia) ltac:(lia)) as X.
    replace (Z.max (width k) (8 - Z.of_nat 8)) with (width k) in X by lia. apply X.
    split; [lia|]. apply Z.lt_le_trans with (2 ^ 8); [change (2 ^ 8) with 256; lia|].
    apply Z.pow_le_mono_r; lia. }
  eexists. split; [reflexivity|]. unfold regz, dataz in *. destruct (reversed k).
  - auto.
  - split; [apply reverse_range; lia|]. apply reverse_invol; lia.
Qed.

Lemma iter8_split : forall p c b, iter 8 (shift_bit p) (Z.lxor c b) =
  Z.lxor (iter 8 (shift_bit p) (Z.lxor (Z.land c 255) b)) (Z.shiftr c 8).
Proof.
  intros.
  assert (E : Z.lxor c b = Z.lxor (Z.lxor (Z.land c 255) b) (Z.shiftl (Z.shiftr c 8) (Z.of_nat 8))).
  { apply Z.bits_inj'. intros i Hi. rewrite !Z.lxor_spec, Z.land_spec, Z.shiftl_spec by lia.
    change 255 with (Z.ones 8). change (Z.of_nat 8) with 8. destruct (Z.lt_ge_cases i 8).
    - rewrite Z.ones_spec_low by lia. rewrite (Z.testbit_neg_r _ (i - 8)) by lia.
      destruct (Z.testbit c i), (Z.testbit b i); reflexivity.
    - rewrite Z.ones_spec_high by lia. rewrite Z.shiftr_spec by lia. replace (i - 8 + 8) with i by lia.
      destruct (Z.testbit c i), (Z.testbit b i); reflexivity. }
  rewrite E, iter_xor, iter_shl. reflexivity.
Qed.

Lemma lxor_range : forall a b w, 0 <= w -> 0 <= a < 2 ^ w -> 0 <= b < 2 ^ w -> 0 <= Z.lxor a b < 2 ^ w.
Proof.
  intros a b w Hw Ha Hb. assert (0 <= Z.lxor a b) by (apply Z.lxor_nonneg; lia). split; auto.
  apply lt_pow_testbit; auto. intros i Hi. rewrite Z.lxor_spec, !(small_testbit _ w) by lia. reflexivity.
Qed.
Lemma land255 : forall c, byte_ok (Z.land c 255).
Proof. intros. change 255 with (Z.ones 8). rewrite Z.land_ones by lia. unfold byte_ok. change (2 ^ 8) with 256. lia. Qed.
Lemma land255_small : forall c, 0 <= c < 256 -> Z.land c 255 = c.
Proof. intros. change 255 with (Z.ones 8). rewrite Z.land_ones by lia. apply Z.mod_small. exact H. Qed.

Lemma upd_byte_spec : forall k c b, crc_wf k -> 0 <= c < 2 ^ width k -> byte_ok b ->
  exists c', upd_byte k c b = Ok c' /\ 0 <= c' < 2 ^ width k /\
    regz k c' = iter 8 (shift_bit (rp k)) (Z.lxor (regz k c) (dataz k b)).
Proof.
  intros k c b W Hc Hb. pose proof W as [Hw _ _ _ _]. unfold upd_byte.
  assert (X8 : forall x y, byte_ok x -> byte_ok y -> byte_ok (Z.lxor x y)).
  { intros x y. unfold byte_ok. change 256 with (2 ^ 8). apply lxor_range. lia. }
  destruct (reversed k) eqn:R; destruct (Z.leb_spec (width k) 8).
  - (* short reversed *)
    unfold upd_short_reversed.
    assert (byte_ok c). { unfold byte_ok. change 256 with (2 ^ 8). pose proof (Z.pow_le_mono_r 2 (width k) 8). lia. }
    destruct (table_spec k (Z.lxor c b) W) as (t & E & T & V); auto.
    exists t. repeat split; auto; try lia. rewrite V. unfold dataz, regz. rewrite R. reflexivity.
  - (* reversed *)
    unfold upd_reversed. destruct (table_spec k (Z.lxor (Z.land c 255) b) W) as (t & E & T & V).
    { apply X8; auto. apply land255. }
    rewrite E. cbn [bind]. eexists. split; [reflexivity|].
    assert (S : 0 <= Z.shiftr c 8 < 2 ^ width k).
    { rewrite Z.shiftr_div_pow2 by lia. change (2 ^ 8) with 256. lia. }
    split; [apply lxor_range; auto; lia|].
    unfold regz, dataz in *. rewrite R in *. rewrite V. rewrite (iter8_split _ c b). reflexivity.
  - (* short forward *)
    unfold upd_short_forward.
    destruct (table_spec k (Z.lxor (Z.land (Z.shiftl c (8 - width k)) 255) b) W) as (t & E & T & V).
    { apply X8; auto. apply land255. }
    exists t. repeat split; auto; try lia. rewrite V. unfold dataz, regz. rewrite R.
    rewrite reverse_xor by lia. do 2 f_equal.
    apply Z.bits_inj'. intros i Hi. rewrite !reverse_spec by lia.
    destruct (Z.ltb_spec i 8); cbn [andb].
    + rewrite Z.land_spec, Z.shiftl_spec by lia. change 255 with (Z.ones 8).
      rewrite Z.ones_spec_low, andb_true_r by lia.
      destruct (Z.ltb_spec i (width k)); cbn [andb]; [f_equal; lia|]. apply Z.testbit_neg_r. lia.
    + destruct (Z.ltb_spec i (width k)); [lia|reflexivity].
  - (* forward *)
    unfold upd_forward.
    assert (S : byte_ok (Z.shiftr c (width k - 8))).
    { unfold byte_ok. rewrite Z.shiftr_div_pow2 by lia.
      assert (0 < 2 ^ (width k - 8)) by (apply Z.pow_pos_nonneg; lia).
      assert (2 ^ width k = 2 ^ (width k - 8) * 256) by (change 256 with (2 ^ 8); rewrite <- Z.pow_add_r by lia; f_equal; lia).
      split; [apply Z.div_pos; lia|]. apply Z.div_lt_upper_bound; lia. }
    destruct (table_spec k (Z.lxor (Z.shiftr c (width k - 8)) b) W) as (t & E & T & V); auto.
    rewrite E. cbn [bind]. eexists. split; [reflexivity|].
    assert (M : crcmask k = Z.ones (width k)).
    { unfold crcmask. rewrite Z.ones_equiv, Z.shiftl_mul_pow2 by lia. lia. }
    rewrite M. split.
    { apply lxor_range; auto; [lia|]. rewrite Z.land_ones by lia. apply Z.mod_pos_bound. apply Z.pow_pos_nonneg; lia. }
    unfold regz, dataz in *. rewrite R in *. rewrite reverse_xor by lia. rewrite V.
    rewrite (iter8_split _ (reverse c (width k))). rewrite reverse_xor by lia. f_equal; [do 2 f_equal|].
    + apply Z.bits_inj'. intros i Hi. rewrite Z.land_spec, !reverse_spec by lia. change 255 with (Z.ones 8).
      destruct (Z.ltb_spec i 8); cbn [andb].
      * rewrite Z.ones_spec_low, Z.shiftr_spec, andb_true_r by lia.
        destruct (Z.ltb_spec i (width k)); [|lia]. cbn [andb]. f_equal. lia.
      * rewrite Z.ones_spec_high by lia. rewrite andb_false_r. reflexivity.
    + apply Z.bits_inj'. intros i Hi. rewrite Z.shiftr_spec, !reverse_spec by lia.
      destruct (Z.ltb_spec i (width k)); cbn [andb].
      * rewrite Z.land_spec, Z.shiftl_spec by lia. rewrite Z.ones_spec_low, andb_true_r by lia.
        destruct (Z.ltb_spec (i + 8) (width k)); cbn [andb]; [f_equal; lia|]. apply Z.testbit_neg_r. lia.
      * destruct (Z.ltb_spec (i + 8) (width k)); [lia|reflexivity].
Qed.

(** The bits of a buffer in transmission order. *)
Definition zbits (k : crc) (data : list Z) : list bool := flat_map (fun b => bits_lsb 8 (dataz k b)) data.

Lemma serial_app : forall p a b c, serial p c (a ++ b) = serial p (serial p c a) b.
Proof. intros. unfold serial. apply fold_left_app. Qed.

Lemma update_spec : forall k data c, crc_wf k -> 0 <= c < 2 ^ width k -> bytes_ok data ->
  exists c', update k c data = Ok c' /\ 0 <= c' < 2 ^ width k /\
    regz k c' = serial (rp k) (regz k c) (zbits k data).
Proof.
  intros k. induction data as [|b data IH]; intros c W Hc Hd.
  - exists c. cbn [update zbits flat_map]. auto.
  - inversion Hd as [|? ? Hb Hd']; subst. destruct (upd_byte_spec k c b W Hc Hb) as (c1 & E & R & V).
    destruct (IH c1 W R Hd') as (c2 & E2 & R2 & V2). exists c2. cbn [update]. rewrite E. cbn [bind].
    split; [exact E2|]. split; [exact R2|]. rewrite V2, V.
    assert (D8 : 0 <= dataz k b < 2 ^ Z.of_nat 8).
    { change (2 ^ Z.of_nat 8) with 256. exact (dataz_range k b Hb). }
    rewrite <- (serial_iter (rp k) 8 (regz k c) (dataz k b) D8).
    unfold zbits. cbn [flat_map]. rewrite serial_app. reflexivity.
Qed.

Lemma update_app : forall k a b c, update k c (a ++ b) = bind (update k c a) (fun c => update k c b).
Proof.
  induction a as [|x a IH]; intros b c; cbn [app update]; auto.
  destruct (upd_byte k c x); cbn [bind]; auto.
Qed.

(** *** Division by the generator. *)
(** Carryless product of a bit string (most significant first) and [g]. *)
Definition gmul (q : list bool) (g : Z) : Z :=
  fold_left (fun acc t => Z.lxor (2 * acc) (if t : bool then g else 0)) q 0.
(** Value of a bit string, first bit most significant. *)
Definition pval (m : list bool) : Z := fold_left (fun acc b => 2 * acc + Z.b2z b) m 0.

Lemma reverse_bstep : forall k c b, crc_wf k -> 0 <= c < 2 ^ width k ->
  let f := reverse c (width k) in
  reverse (bstep (rp k) c b) (width k) =
  Z.lxor (Z.lxor (2 * f) (Z.b2z b * 2 ^ width k))
         (if xorb (Z.testbit f (width k - 1)) b then Z.lxor (2 ^ width k) (cpoly k) else 0).
Proof.
  intros k c b [Hw Hp _ _ _] Hc f. set (w := width k) in *.
  apply Z.bits_inj'. intros i Hi. rewrite reverse_spec by lia. unfold bstep.
  rewrite !Z.lxor_spec.
  assert (T : Z.testbit f (w - 1) = Z.testbit c 0).
  { unfold f. rewrite reverse_spec by lia. destruct (Z.ltb_spec (w - 1) w); [|lia]. cbn [andb]. f_equal. lia. }
  assert (B2 : Z.testbit (Z.b2z b * 2 ^ w) i = (i =? w) && b).
  { rewrite <- Z.shiftl_mul_pow2, Z.shiftl_spec by lia. destruct (Z.eqb_spec i w) as [->|].
    - replace (w - w) with 0 by lia. apply Z.b2z_bit0.
    - cbn [andb]. destruct (Z.lt_ge_cases i w); [apply Z.testbit_neg_r; lia|].
      apply small_testbit with 1; [change (2 ^ 1) with 2; destruct b; cbn; lia|lia]. }
  assert (F2 : Z.testbit (2 * f) i = (0 <? i) && (i <=? w) && Z.testbit c (w - i)).
  { destruct (Z.ltb_spec 0 i); cbn [andb].
    - replace i with (Z.succ (i - 1)) by lia. rewrite Z.testbit_even_succ by lia. unfold f.
      rewrite reverse_spec by lia. replace (i - 1 <? w) with (Z.succ (i - 1) <=? w) by lia.
      f_equal. f_equal. lia.
    - assert (i = 0) by lia. subst i. rewrite Z.testbit_even_0. reflexivity. }
  assert (G : Z.testbit (if xorb (Z.testbit f (w - 1)) b then Z.lxor (2 ^ w) (cpoly k) else 0) i =
              xorb (Z.testbit c 0) b && (xorb (i =? w) (Z.testbit (cpoly k) i))).
  { rewrite T. destruct (xorb (Z.testbit c 0) b); cbn [andb]; [|apply Z.bits_0].
    rewrite Z.lxor_spec, Z.pow2_bits_eqb by lia. rewrite (Z.eqb_sym w i). reflexivity. }
  rewrite B2, F2, G.
  assert (D0 : Z.testbit (Z.lxor c (Z.b2z b)) 0 = xorb (Z.testbit c 0) b).
  { rewrite Z.lxor_spec, Z.b2z_bit0. reflexivity. }
  assert (DS : forall n, 1 <= n -> Z.testbit (Z.lxor c (Z.b2z b)) n = Z.testbit c n).
  { intros n Hn. rewrite Z.lxor_spec. rewrite (small_testbit (Z.b2z b) 1) by (try (change (2 ^ 1) with 2; destruct b; cbn); lia).
    apply xorb_false_r. }
  destruct (Z.ltb_spec i w); cbn [andb].
  - rewrite shift_bit_testbit by lia. rewrite D0, DS by lia.
    unfold rp. rewrite reverse_spec by lia. fold w. destruct (Z.ltb_spec (w - 1 - i) w); [|lia]. cbn [andb].
    replace (w - 1 - (w - 1 - i)) with i by lia. replace (w - 1 - i + 1) with (w - i) by lia.
    destruct (Z.eqb_spec i w); [lia|]. cbn [andb]. rewrite xorb_false_r, xorb_false_l.
    destruct (Z.leb_spec i w); [|lia]. rewrite andb_true_r.
    destruct (Z.ltb_spec 0 i); cbn [andb]; auto.
    replace (w - i) with w by lia. rewrite (small_testbit c w) by lia. reflexivity.
  - rewrite (small_testbit (cpoly k) w) by lia. destruct (Z.eqb_spec i w) as [->|].
    + replace (w - w) with 0 by lia. destruct (Z.ltb_spec 0 w); [|lia]. destruct (Z.leb_spec w w); [|lia].
      cbn [andb]. destruct (Z.testbit c 0), b; reflexivity.
    + destruct (Z.leb_spec i w); [lia|]. rewrite andb_false_r. cbn [andb xorb].
      destruct (xorb (Z.testbit c 0) b); reflexivity.
Qed.

Lemma gmul_snoc : forall q t g, gmul (q ++ [t]) g = Z.lxor (2 * gmul q g) (if t then g else 0).
Proof. intros. unfold gmul. rewrite fold_left_app. reflexivity. Qed.
Lemma pval_snoc : forall m b, pval (m ++ [b]) = 2 * pval m + Z.b2z b.
Proof. intros. unfold pval. rewrite fold_left_app. reflexivity. Qed.

Lemma lxor_double : forall a b, 2 * Z.lxor a b = Z.lxor (2 * a) (2 * b).
Proof.
  intros. assert (S : forall x, 2 * x = Z.shiftl x 1) by (intros; rewrite Z.shiftl_mul_pow2 by lia; lia).
  rewrite !S. apply Z.shiftl_lxor.
Qed.

Lemma serial_range : forall k l c, crc_wf k -> 0 <= c < 2 ^ width k -> 0 <= serial (rp k) c l < 2 ^ width k.
Proof.
  intros k. induction l as [|b l IH]; intros c W Hc; [exact Hc|].
  change (serial (rp k) c (b :: l)) with (serial (rp k) (bstep (rp k) c b) l). apply IH; auto.
  unfold bstep. pose proof W as [Hw _ _ _ _]. pose proof (rp_range k W).
  assert (0 <= Z.lxor c (Z.b2z b) < 2 ^ width k).
  { apply lxor_range; auto; try lia. assert (2 <= 2 ^ width k) by (change 2 with (2 ^ 1) at 1; apply Z.pow_le_mono_r; lia).
    destruct b; cbn [Z.b2z]; lia. }
  pose proof (shift_bit_range (rp k) (Z.lxor c (Z.b2z b)) (width k) (width k - 1) ltac:(lia) ltac:(lia) ltac:(lia)) as X.
  replace (Z.max (width k) (width k - 1)) with (width k) in X by lia. apply X.
  replace (width k - 1 + 1) with (width k) by lia. auto.
Qed.

(** The register is the remainder: quotient, dividend and remainder. *)
Lemma serial_division : forall k c m, crc_wf k -> 0 <= c < 2 ^ width k ->
  exists q, length q = length m /\
    Z.lxor (gmul q (Z.lxor (2 ^ width k) (cpoly k))) (reverse (serial (rp k) c m) (width k)) =
    Z.lxor (pval m * 2 ^ width k) (reverse c (width k) * 2 ^ Z.of_nat (length m)).
Proof.
  intros k c m W Hc. set (G := Z.lxor (2 ^ width k) (cpoly k)). pose proof W as [Hw _ _ _ _].
  induction m as [|b m IH] using rev_ind.
  - exists []. split; auto. change (gmul [] G) with 0. change (pval []) with 0.
    cbn [length serial fold_left]. change (2 ^ Z.of_nat 0) with 1. rewrite Z.mul_0_l, Z.mul_1_r, !Z.lxor_0_l. reflexivity.
  - destruct IH as (q & L & E). set (s := serial (rp k) c m) in *.
    exists (q ++ [xorb (Z.testbit (reverse s (width k)) (width k - 1)) b]).
    split; [rewrite !app_length, L; reflexivity|].
    assert (SE : serial (rp k) c (m ++ [b]) = bstep (rp k) s b) by (unfold serial; rewrite fold_left_app; reflexivity).
    rewrite SE, gmul_snoc, pval_snoc. rewrite reverse_bstep by (auto; apply serial_range; auto). cbn zeta. fold G.
    set (R := reverse s (width k)) in *.
    set (tG := if xorb (Z.testbit R (width k - 1)) b then G else 0).
    assert (E2 : 2 * gmul q G = Z.lxor (2 * R) (Z.lxor (2 * (pval m * 2 ^ width k))
                  (2 * (reverse c (width k) * 2 ^ Z.of_nat (length m))))).
    { rewrite <- !lxor_double. rewrite <- E. f_equal. rewrite (Z.lxor_comm (gmul q G)), <- Z.lxor_assoc.
      rewrite Z.lxor_nilpotent, Z.lxor_0_l. reflexivity. }
    rewrite E2. rewrite app_length. cbn [length].
    replace (reverse c (width k) * 2 ^ Z.of_nat (length m + 1)) with
            (2 * (reverse c (width k) * 2 ^ Z.of_nat (length m))).
    2:{ replace (Z.of_nat (length m + 1)) with (1 + Z.of_nat (length m)) by lia. rewrite Z.pow_add_r by lia. lia. }
    set (C := 2 * (reverse c (width k) * 2 ^ Z.of_nat (length m))).
    assert (PB : (2 * pval m + Z.b2z b) * 2 ^ width k = Z.lxor (2 * (pval m * 2 ^ width k)) (Z.b2z b * 2 ^ width k)).
    { assert (NC : Z.land (2 * pval m) (Z.b2z b) = 0).
      { apply Z.bits_inj'. intros i Hi. rewrite Z.land_spec, Z.bits_0. destruct (Z.eq_dec i 0) as [->|].
        - rewrite Z.testbit_even_0. reflexivity.
        - rewrite (small_testbit (Z.b2z b) 1) by (try (change (2 ^ 1) with 2; destruct b; cbn); lia). apply andb_false_r. }
      rewrite Z.add_nocarry_lxor by exact NC.
      rewrite <- !Z.shiftl_mul_pow2 by lia. rewrite Z.shiftl_lxor. f_equal.
      rewrite !Z.shiftl_mul_pow2 by lia. lia. }
    rewrite PB. set (P := 2 * (pval m * 2 ^ width k)). set (B := Z.b2z b * 2 ^ width k). set (RR := 2 * R).
    apply Z.bits_inj'. intros i Hi. rewrite !Z.lxor_spec.
    destruct (Z.testbit RR i), (Z.testbit P i), (Z.testbit C i), (Z.testbit tG i), (Z.testbit B i); reflexivity.
Qed.

(** Remainders are unique. *)
Lemma gmul_0 : forall q, gmul q 0 = 0.
Proof. induction q as [|t q IH] using rev_ind; auto. rewrite gmul_snoc, IH. destruct t; reflexivity. Qed.
Lemma gmul_nonneg : forall q g, 0 <= g -> 0 <= gmul q g.
Proof.
  induction q as [|t q IH] using rev_ind; intros g Hg; [cbn; lia|]. rewrite gmul_snoc. specialize (IH g Hg).
  apply Z.lxor_nonneg. destruct t; lia.
Qed.
(** A product below the degree of the generator is zero. *)
Lemma gmul_deg : forall w p q, 0 <= w -> 0 <= p < 2 ^ w ->
  let g := Z.lxor (2 ^ w) p in
  gmul q g = 0 \/ exists n, w <= n < w + Z.of_nat (length q) /\ Z.testbit (gmul q g) n = true /\
     forall i, n < i -> Z.testbit (gmul q g) i = false.
Proof.
  intros w p q Hw Hp g.
  assert (Gw : Z.testbit g w = true).
  { unfold g. rewrite Z.lxor_spec, Z.pow2_bits_true, (small_testbit p w) by lia. reflexivity. }
  assert (Gh : forall i, w < i -> Z.testbit g i = false).
  { intros i Hi. unfold g. rewrite Z.lxor_spec, Z.pow2_bits_eqb, (small_testbit p w) by lia.
    destruct (Z.eqb_spec w i); [lia|reflexivity]. }
  induction q as [|t q IH] using rev_ind; [left; reflexivity|].
  rewrite gmul_snoc, app_length. cbn [length]. destruct IH as [->|(n & Hn & N1 & N2)].
  - change (2 * 0) with 0. rewrite Z.lxor_0_l. destruct t; [right|left; auto].
    exists w. split; [lia|]. split; auto.
  - right. exists (n + 1). split; [lia|]. split.
    + rewrite Z.lxor_spec. replace (n + 1) with (Z.succ n) by lia. rewrite Z.testbit_even_succ, N1 by lia.
      destruct t; [rewrite Gh by lia|rewrite Z.bits_0]; reflexivity.
    + intros i Hi. rewrite Z.lxor_spec. replace i with (Z.succ (i - 1)) by lia. rewrite Z.testbit_even_succ by lia.
      rewrite N2 by lia. destruct t; [rewrite Gh by lia|rewrite Z.bits_0]; reflexivity.
Qed.
Lemma gmul_pad : forall n q g, gmul (repeat false n ++ q) g = gmul q g.
Proof.
  intros. unfold gmul. rewrite fold_left_app. f_equal. induction n as [|n IH]; auto.
Qed.
Fixpoint xorl (a b : list bool) : list bool :=
  match a, b with x :: a', y :: b' => xorb x y :: xorl a' b' | _, _ => [] end.
Lemma gmul_xorl_aux : forall g a b x y, length a = length b ->
  fold_left (fun acc t => Z.lxor (2 * acc) (if t : bool then g else 0)) (xorl a b) (Z.lxor x y) =
  Z.lxor (fold_left (fun acc t => Z.lxor (2 * acc) (if t : bool then g else 0)) a x)
         (fold_left (fun acc t => Z.lxor (2 * acc) (if t : bool then g else 0)) b y).
Proof.
  induction a as [|s a IH]; destruct b as [|t b]; intros x y L; try discriminate; cbn [xorl fold_left]; auto.
  rewrite <- IH by (cbn in L; lia). f_equal. rewrite lxor_double. apply Z.bits_inj'. intros i Hi.
  rewrite !Z.lxor_spec. destruct s, t; cbn [xorb]; rewrite ?Z.bits_0;
  destruct (Z.testbit (2 * x) i), (Z.testbit (2 * y) i), (Z.testbit g i); reflexivity.
Qed.
Lemma remainder_unique : forall w p d q1 q2 r1 r2, 0 <= w -> 0 <= p < 2 ^ w ->
  let g := Z.lxor (2 ^ w) p in
  0 <= r1 < 2 ^ w -> 0 <= r2 < 2 ^ w ->
  Z.lxor (gmul q1 g) r1 = d -> Z.lxor (gmul q2 g) r2 = d -> r1 = r2.
Proof.
  intros w p d q1 q2 r1 r2 Hw Hp g H1 H2 E1 E2.
  set (a := repeat false (length q2) ++ q1). set (b := repeat false (length q1) ++ q2).
  assert (L : length a = length b) by (unfold a, b; rewrite !app_length, !repeat_length; lia).
  assert (X : gmul (xorl a b) g = Z.lxor r1 r2).
  { unfold gmul. replace 0 with (Z.lxor 0 0) at 1 by reflexivity. rewrite gmul_xorl_aux by auto.
    fold (gmul a g) (gmul b g). unfold a, b. rewrite !gmul_pad. rewrite <- E2 in E1.
    apply Z.bits_inj'. intros i Hi. apply (f_equal (fun z => Z.testbit z i)) in E1.
    rewrite !Z.lxor_spec in *. destruct (Z.testbit (gmul q1 g) i), (Z.testbit (gmul q2 g) i), (Z.testbit r1 i), (Z.testbit r2 i); auto; discriminate. }
  pose proof (gmul_deg w p (xorl a b) Hw Hp) as D. cbv zeta in D. fold g in D.
  destruct D as [Z0|(n & Hn & N1 & _)].
  - rewrite X in Z0. apply Z.lxor_eq. auto.
  - exfalso. rewrite X in N1. rewrite Z.lxor_spec, !(small_testbit _ w) in N1 by lia. discriminate.
Qed.
