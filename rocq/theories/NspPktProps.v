(** C38: NSP headers decode to what was encoded. *)
From Verif Require Import Base PacketModel PacketProofs NspPktModel.

(** * Specification: the NSP message formats *)
Definition word (v : Z) : Prop := 0 <= v < 65536.
Definition ack_range (a : ack) : Prop := match a with None => True | Some (n, q) => 0 <= n < 4096 /\ 0 <= q <= 3 end.
Definition in_range (p : npkt) : Prop :=
  match p with
  | NData d s a1 a2 seg dly bom eom pl =>
      word d /\ word s /\ ack_range a1 /\ ack_range a2 /\ 0 <= seg < 4096 /\ 0 <= dly <= 1 /\ 0 <= bom <= 1 /\ 0 <= eom <= 1 /\ bytes_ok pl
  | NInt d s a1 a2 seg pl => word d /\ word s /\ ack_range a1 /\ ack_range a2 /\ 0 <= seg < 4096 /\ bytes_ok pl
  | NLs d s a1 a2 seg m i v =>
      word d /\ word s /\ ack_range a1 /\ ack_range a2 /\ 0 <= seg < 4096 /\ 0 <= m <= 2 /\ 0 <= i <= 1 /\ -128 <= v <= 127
  | NAckData d s a1 a2 | NAckOther d s a1 a2 => word d /\ word s /\ ack_range a1 /\ ack_range a2 /\ a1 <> None
  | NAckConn d => word d
  | NCI _ s f i z pl => word s /\ 0 <= f <= 3 /\ 0 <= i < 128 /\ word z /\ bytes_ok pl
  | NCC d s f i z x => word d /\ word s /\ 0 <= f <= 3 /\ 0 <= i < 128 /\ word z /\ bytes_ok x /\ zlen x <= 16
  | NDI d s r x => word d /\ word s /\ word r /\ bytes_ok x /\ zlen x <= 16
  | NDC d s r => word d /\ word s /\ word r
  | NEmpty => True
  end.
(** The acknowledgement fields as NSP uses them: the second is present only if
    the first is, and then one is for the data and one for the other subchannel. *)
Definition two_channels (a1 a2 : ack) : Prop :=
  match a1, a2 with
  | None, Some _ => False
  | Some (_, q1), Some (_, q2) => (q1 <= 1 <-> 2 <= q2)
  | _, _ => True
  end.
Definition acks_ok (p : npkt) : Prop :=
  match p with
  | NData _ _ a1 a2 _ _ _ _ _ | NInt _ _ a1 a2 _ _ | NLs _ _ a1 a2 _ _ _ _ | NAckData _ _ a1 a2 | NAckOther _ _ a1 a2 => two_channels a1 a2
  | NEmpty => False
  | _ => True
  end.
(** Byte layouts. *)
Definition w2 (v : Z) : list Z := [v mod 256; v / 256].
Definition ackw (a : ack) : list Z := match a with None => [] | Some (n, q) => w2 (32768 + 4096 * q + n) end.
Definition wire (p : npkt) : list Z :=
  match p with
  | NData d s a1 a2 seg dly bom eom pl => (32 * bom + 64 * eom) :: w2 d ++ w2 s ++ ackw a1 ++ ackw a2 ++ w2 (seg + 4096 * dly) ++ pl
  | NInt d s a1 a2 seg pl => 48 :: w2 d ++ w2 s ++ ackw a1 ++ ackw a2 ++ w2 seg ++ pl
  | NLs d s a1 a2 seg m i v => 16 :: w2 d ++ w2 s ++ ackw a1 ++ ackw a2 ++ w2 seg ++ [m + 4 * i; v mod 256]
  | NAckData d s a1 a2 => 4 :: w2 d ++ w2 s ++ ackw a1 ++ ackw a2
  | NAckOther d s a1 a2 => 20 :: w2 d ++ w2 s ++ ackw a1 ++ ackw a2
  | NAckConn d => 36 :: w2 d
  | NCI rci s f i z pl => (if rci then 104 else 24) :: w2 0 ++ w2 s ++ [1 + 4 * f; i] ++ w2 z ++ pl
  | NCC d s f i z x => 40 :: w2 d ++ w2 s ++ [1 + 4 * f; i] ++ w2 z ++ zlen x :: x
  | NDI d s r x => 56 :: w2 d ++ w2 s ++ w2 r ++ zlen x :: x
  | NDC d s r => 72 :: w2 d ++ w2 s ++ w2 r
  | NEmpty => []
  end.

(** * Proofs *)
Lemma w2_enc : forall v, word v -> to_bytes 2 v = Ok (w2 v).
Proof.
  intros v H. unfold word in H. unfold to_bytes. replace ((0 <=? v) && (v <? 256 ^ Z.of_nat 2)) with true by (cbn [Z.of_nat]; lia).
  unfold w2. cbn [le_enc]. rewrite (Z.mod_small (v / 256)) by lia. reflexivity.
Qed.
Lemma b1_enc : forall v, 0 <= v < 256 -> to_bytes 1 v = Ok [v].
Proof.
  intros v H. unfold to_bytes. replace ((0 <=? v) && (v <? 256 ^ Z.of_nat 1)) with true by (cbn [Z.of_nat]; lia).
  cbn [le_enc]. rewrite (Z.mod_small v) by lia. reflexivity.
Qed.
Lemma w2_dec : forall v r, word v -> word_dec (w2 v ++ r) = Ok (v, r).
Proof.
  intros v r H. unfold word in H. unfold word_dec. rewrite (fixed_dec_ok 2 (w2 v) r) by reflexivity. cbn [bind].
  unfold w2, le_dec. do 2 f_equal. lia.
Qed.
Lemma b1_dec : forall v r, byte_dec (v :: r) = Ok (v, r).
Proof. intros v r. unfold byte_dec. change (v :: r) with ([v] ++ r). rewrite (fixed_dec_ok 1 [v] r) by reflexivity. cbn [bind le_dec]. do 2 f_equal. lia. Qed.
Lemma bit01 : forall v, 0 <= v <= 1 -> v = 0 \/ v = 1.
Proof. lia. Qed.
Lemma bits3 : forall v, 0 <= v <= 3 -> v = 0 \/ v = 1 \/ v = 2 \/ v = 3.
Proof. lia. Qed.
Lemma land12 : forall v, Z.land v 4095 = v mod 4096.
Proof. intros v. change 4095 with (Z.ones 12). rewrite Z.land_ones by lia. reflexivity. Qed.
Lemma land12s : forall v, 0 <= v < 4096 -> Z.land v 4095 = v.
Proof. intros v H. rewrite land12. lia. Qed.
Lemma bit15 : forall v, 0 <= v < 65536 -> (Z.land v 32768 =? 0) = (v <? 32768).
Proof.
  intros v H. change 32768 with (2 ^ 15) at 1.
  assert (T : Z.testbit (Z.land v (2 ^ 15)) 15 = (32768 <=? v)).
  { rewrite Z.land_spec, Z.pow2_bits_true, Bool.andb_true_r by lia.
    apply Bool.eq_iff_eq_true. rewrite Z.testbit_true by lia. change (2 ^ 15) with 32768. lia. }
  destruct (Z.ltb_spec v 32768) as [L|L].
  - apply Z.eqb_eq. apply Z.bits_inj'. intros n Hn. rewrite Z.land_spec, Z.testbit_0_l.
    destruct (Z.eqb_spec n 15) as [E|E].
    + subst n. rewrite (small_testbit v 15 15) by (change (2 ^ 15) with 32768; lia). reflexivity.
    + rewrite Z.pow2_bits_false by lia. apply Bool.andb_false_r.
  - apply Z.eqb_neq. intros E. rewrite E, Z.testbit_0_l in T. lia.
Qed.
Definition noack (r : list Z) : Prop := ~ 2 <= zlen r \/ 0 <= le_dec (upto 2 r) < 32768.
Lemma ack_round : forall a r, ack_range a -> (a = None -> noack r) -> ack_dec (ackw a ++ r) = (a, r).
Proof.
  intros [[n q]|] r R N; cbn [ackw ack_range] in *.
  - unfold ack_dec, w2. cbn [app]. set (v := 32768 + 4096 * q + n).
    replace (2 <=? zlen (v mod 256 :: v / 256 :: r)) with true by (rewrite !zlen_cons; pose proof (zlen_nonneg _ r); lia).
    change (upto 2 (v mod 256 :: v / 256 :: r)) with [v mod 256; v / 256]. change (from 2 (v mod 256 :: v / 256 :: r)) with r.
    replace (le_dec [v mod 256; v / 256]) with v by (unfold le_dec; lia).
    rewrite bit15 by lia. replace (v <? 32768) with false by lia. cbn [negb].
    replace (Z.land (Z.shiftr v 12) 7) with q
      by (rewrite Z.shiftr_div_pow2 by lia; change 7 with (Z.ones 3); rewrite Z.land_ones by lia; change (2 ^ 12) with 4096; change (2 ^ 3) with 8; lia).
    replace (q <=? 3) with true by lia. replace (Z.land v 4095) with n by (rewrite land12; lia). reflexivity.
  - specialize (N eq_refl). unfold noack in N. cbn [app]. unfold ack_dec. destruct (Z.leb_spec 2 (zlen r)) as [L|L]; [|reflexivity].
    destruct N as [N|N]; [lia|]. rewrite bit15 by lia. replace (le_dec (upto 2 r) <? 32768) with true by lia. reflexivity.
Qed.
Lemma noack_w2 : forall v r, 0 <= v < 32768 -> noack (w2 v ++ r).
Proof.
  intros v r H. right. unfold w2. cbn [app]. change (upto 2 (v mod 256 :: v / 256 :: r)) with [v mod 256; v / 256]. unfold le_dec. lia.
Qed.
Lemma noack_nil : noack [].
Proof. left. rewrite zlen_nil. lia. Qed.
(** Both acknowledgement fields. *)
Lemma ackhdr_round : forall d s a1 a2 r, word d -> word s -> ack_range a1 -> ack_range a2 -> two_channels a1 a2 -> noack r ->
  ackhdr_enc d s a1 a2 = Ok (w2 d ++ w2 s ++ ackw a1 ++ ackw a2) /\
  ackhdr_dec (w2 d ++ w2 s ++ ackw a1 ++ ackw a2 ++ r) = Ok (d, s, a1, a2, r).
Proof.
  intros d s a1 a2 r D S R1 R2 T N.
  assert (AE : forall a, ack_range a -> ack_enc a = Ok (ackw a)).
  { intros [[n q]|] R; cbn [ack_range] in R; [|reflexivity]. unfold ack_enc.
    replace ((0 <=? q) && (q <=? 3)) with true by lia. rewrite land12s, Z.shiftl_mul_pow2 by lia. change (2 ^ 12) with 4096.
    rewrite w2_enc by (unfold word; lia). unfold ackw. do 2 f_equal. lia. }
  split.
  - unfold ackhdr_enc. rewrite !w2_enc, !AE by assumption. cbn [bind]. reflexivity.
  - unfold ackhdr_dec. rewrite w2_dec by assumption. cbn [bind]. rewrite w2_dec by assumption. cbn [bind].
    rewrite ack_round; [|assumption|].
    + rewrite ack_round; [reflexivity|assumption|auto].
    + intros ->. destruct a2; [destruct T|exact N].
Qed.
Lemma ack_check_ok : forall a1 a2, ack_range a1 -> ack_range a2 -> two_channels a1 a2 -> ack_check a1 a2 = Ok tt.
Proof.
  intros [[n1 q1]|] [[n2 q2]|] R1 R2 T; cbn [ack_range two_channels ack_check] in *; try reflexivity.
  unfold is_cross. replace (Bool.eqb ((q1 =? 2) || (q1 =? 3)) ((q2 =? 2) || (q2 =? 3))) with false; [reflexivity|].
  assert (q1 <= 1 \/ 2 <= q1) as [C|C] by lia.
  - replace ((q1 =? 2) || (q1 =? 3)) with false by lia. replace ((q2 =? 2) || (q2 =? 3)) with true by lia. reflexivity.
  - replace ((q1 =? 2) || (q1 =? 3)) with true by lia. replace ((q2 =? 2) || (q2 =? 3)) with false by lia. reflexivity.
Qed.
Lemma conn_round : forall d s f i z r, word d -> word s -> 0 <= f <= 3 -> 0 <= i < 128 -> word z ->
  connhdr_enc d s f i z = Ok (w2 d ++ w2 s ++ [1 + 4 * f; i] ++ w2 z) /\
  connhdr_dec (w2 d ++ w2 s ++ [1 + 4 * f; i] ++ w2 z ++ r) = Ok (d, s, f, i, z, r).
Proof.
  intros d s f i z r D S F I W.
  assert (XE : ex_enc 1 i = Ok [i]).
  { unfold ex_enc. destruct (ex_loop_ok i (proj1 I)) as (x & E & X). rewrite E. cbn [bind].
    inversion X; subst; [|lia]. reflexivity. }
  split.
  - unfold connhdr_enc. rewrite !w2_enc by assumption. cbn [bind]. destruct (bits3 f F) as [-> | [-> | [-> | -> ]]]; cbn [bits_enc];
    (match goal with |- context [bind ?b _] => let v := eval vm_compute in b in change b with v end); cbn [bind];
    rewrite b1_enc by lia; cbn [bind]; rewrite XE; cbn [bind]; reflexivity.
  - unfold connhdr_dec. rewrite w2_dec by assumption. cbn [bind]. rewrite w2_dec by assumption. cbn [bind app]. rewrite b1_dec. cbn [bind].
    assert (ex_dec 1 (i :: w2 z ++ r) = Ok (i, w2 z ++ r)) as XD.
    { unfold ex_dec. cbn [ex_dec_loop]. replace (i <? 128) with true by lia. do 2 f_equal.
      rewrite Z.shiftl_0_r, Z.lor_0_l. change 127 with (Z.ones 7). rewrite Z.land_ones by lia. change (2 ^ 7) with 128. lia. }
    assert (Z.land (Z.shiftr (1 + 4 * f) 2) 3 = f /\ Z.land (1 + 4 * f) 3 = 1 /\ Z.shiftr (1 + 4 * f) 4 = 0) as (F1 & F2 & F3)
      by (destruct (bits3 f F) as [-> | [-> | [-> | -> ]]]; vm_compute; auto).
    rewrite F1, F2, F3. cbn [Z.eqb Pos.eqb negb]. rewrite XD. cbn [bind]. rewrite w2_dec by assumption. reflexivity.
Qed.
Lemma tolerant_round : forall x, zlen x <= 16 -> tolerant_dec 16 (zlen x :: x) = Ok (x, []).
Proof.
  intros x L. pose proof (zlen_nonneg _ x). unfold tolerant_dec. rewrite zlen_cons.
  match goal with |- (if ?c then _ else _) = _ => replace c with false by lia end.
  destruct (image_enc_dec 16 x [] L ltac:(lia)) as (E & D). rewrite app_nil_r in D. exact D.
Qed.
Lemma image_round : forall x, zlen x <= 16 -> image_enc 16 x = Ok (zlen x :: x).
Proof. intros x L. apply (image_enc_dec 16 x []); lia. Qed.

Lemma lor_high : forall x k y, 0 <= k -> 0 <= x < 2 ^ k -> Z.lor x (Z.shiftl y k) = x + y * 2 ^ k.
Proof.
  intros x k y Hk Hx. rewrite <- Z.shiftl_mul_pow2 by auto.
  rewrite <- Z.lxor_lor, <- Z.add_nocarry_lxor; auto; apply Z.bits_inj'; intros n Hn;
    rewrite Z.land_spec, Z.shiftl_spec, Z.bits_0 by auto; destruct (Z.ltb_spec n k);
    try (rewrite (Z.testbit_neg_r y) by lia; apply andb_false_r);
    destruct (Z.eq_dec x 0) as [->|]; try (rewrite Z.bits_0; reflexivity);
    (rewrite (Z.bits_above_log2 x n); [reflexivity|lia|]); apply Z.log2_lt_pow2; try lia;
    apply Z.lt_le_trans with (2 ^ k); try lia; apply Z.pow_le_mono_r; lia.
Qed.

(** C38: an in-range message is encoded in the NSP format, and those bytes
    decode to that message. *)
Theorem nsp_round_trip : forall p, in_range p -> acks_ok p -> encode p = Ok (wire p) /\ decode (wire p) = Ok p.
Proof.
  intros p R A. destruct p as [d s a1 a2 seg dly bom eom pl|d s a1 a2 seg pl|d s a1 a2 seg m i v|d s a1 a2|d s a1 a2|d|rci s f i z pl|d s f i z x|d s r x|d s r|];
    cbn [in_range acks_ok] in R, A.
  - destruct R as (D & S & R1 & R2 & G & Y & B & E & P).
    assert (W : 0 <= seg + 4096 * dly < 32768) by lia.
    destruct (ackhdr_round d s a1 a2 (w2 (seg + 4096 * dly) ++ pl) D S R1 R2 A (noack_w2 (seg + 4096 * dly) pl W)) as (X1 & X2).
    assert (F : bits_enc [(Z.land seg 4095, 0, 12); (dly, 12, 1)] 0 = Ok (seg + 4096 * dly)).
    { rewrite land12s by lia. cbn [bits_enc]. rewrite Z.shiftr_div_pow2 by lia. change (2 ^ 12) with 4096. rewrite Z.div_small by lia.
      replace (Z.shiftr dly 1) with 0 by (destruct (bit01 dly Y) as [-> | -> ]; reflexivity).
      cbn [Z.eqb negb]. rewrite Z.lor_0_l, Z.shiftl_0_r, lor_high by (change (2 ^ 12) with 4096; lia). f_equal. lia. }
    assert (H : flag_enc 0 0 0 bom eom 0 = Ok [32 * bom + 64 * eom])
      by (destruct (bit01 bom B) as [-> | -> ], (bit01 eom E) as [-> | -> ]; reflexivity).
    split.
    + unfold encode. rewrite H. cbn [bind]. rewrite X1. cbn [bind]. rewrite F. cbn [bind]. rewrite w2_enc by (unfold word; lia). cbn [bind].
      f_equal. cbn [wire app]. f_equal. now rewrite <- !app_assoc.
    + cbn [wire decode].
      match goal with |- (if ?c then _ else _) = _ => replace c with true by lia end.
      rewrite X2. cbn [bind]. rewrite w2_dec by (unfold word; lia). cbn [bind]. rewrite ack_check_ok by assumption. cbn [bind].
      f_equal. f_equal.
      * rewrite land12. lia.
      * rewrite Z.shiftr_div_pow2 by lia. change 1 with (Z.ones 1) at 1. rewrite Z.land_ones by lia. change (2 ^ 12) with 4096. change (2 ^ 1) with 2. lia.
      * destruct (bit01 bom B) as [-> | -> ], (bit01 eom E) as [-> | -> ]; reflexivity.
      * destruct (bit01 bom B) as [-> | -> ], (bit01 eom E) as [-> | -> ]; reflexivity.
  - destruct R as (D & S & R1 & R2 & G & P).
    assert (W : 0 <= seg < 32768) by lia.
    destruct (ackhdr_round d s a1 a2 (w2 seg ++ pl) D S R1 R2 A (noack_w2 seg pl W)) as (X1 & X2).
    split.
    + unfold encode. change (flag_enc 0 3 1 0 0 1) with (Ok [48]). cbn [bind]. rewrite X1. cbn [bind]. unfold seq_enc. rewrite land12s, w2_enc by (unfold word; lia).
      cbn [bind wire app]. do 2 f_equal. now rewrite <- !app_assoc.
    + cbn [wire decode Z.eqb Pos.eqb orb]. rewrite X2. cbn [bind]. unfold seq_dec. rewrite w2_dec by (unfold word; lia). cbn [bind].
      rewrite ack_check_ok by assumption. cbn [bind]. rewrite land12s by lia. reflexivity.
  - destruct R as (D & S & R1 & R2 & G & M & I & V).
    assert (W : 0 <= seg < 32768) by lia.
    destruct (ackhdr_round d s a1 a2 (w2 seg ++ [m + 4 * i; v mod 256]) D S R1 R2 A (noack_w2 seg _ W)) as (X1 & X2).
    assert (F : bits_enc [(m, 0, 2); (i, 2, 2)] 0 = Ok (m + 4 * i) /\ Z.land (m + 4 * i) 3 = m /\ Z.land (Z.shiftr (m + 4 * i) 2) 3 = i).
    { destruct (bits3 m ltac:(lia)) as [-> | [-> | [-> | -> ]]], (bit01 i I) as [-> | -> ]; vm_compute; auto. }
    destruct F as (F & F1 & F2).
    destruct (signed_round 1 v ltac:(lia) ltac:(cbn [Z.of_nat]; change (2 ^ (8 * Z.pos (Pos.of_succ_nat 0) - 1)) with 128; lia)) as (V1 & V2).
    assert (LE : le_enc 1 (v mod 256 ^ Z.of_nat 1) = [v mod 256]).
    { change (256 ^ Z.of_nat 1) with 256. cbn [le_enc]. now rewrite Z.mod_mod by lia. }
    rewrite LE in V1, V2.
    split.
    + unfold encode. change (flag_enc 0 1 1 0 0 0) with (Ok [16]). cbn [bind]. rewrite X1. cbn [bind]. unfold seq_enc. rewrite land12s, w2_enc by (unfold word; lia).
      cbn [bind]. rewrite F. cbn [bind]. rewrite b1_enc by lia. cbn [bind]. rewrite V1. cbn [bind wire app]. do 2 f_equal. now rewrite <- !app_assoc.
    + cbn [wire decode Z.eqb Pos.eqb orb]. rewrite X2. cbn [bind]. unfold seq_dec. rewrite w2_dec by (unfold word; lia). cbn [bind].
      rewrite b1_dec. cbn [bind]. change [v mod 256] with ([v mod 256] ++ []) at 1. rewrite (fixed_dec_ok 1 [v mod 256] []) by reflexivity. cbn [bind]. rewrite F1, F2.
      match goal with |- (if ?c then _ else _) = _ => replace c with false by lia end. cbn [done]. rewrite V2, land12s by lia. reflexivity.
  - destruct R as (D & S & R1 & R2 & N).
    destruct (ackhdr_round d s a1 a2 [] D S R1 R2 A noack_nil) as (X1 & X2). rewrite app_nil_r in X2.
    split.
    + unfold encode. change (flag_enc 1 0 0 0 0 0) with (Ok [4]). cbn [bind]. rewrite X1. reflexivity.
    + cbn [wire decode Z.eqb Pos.eqb orb]. rewrite X2. cbn [bind]. unfold ackdata_check. rewrite ack_check_ok by assumption. cbn [bind].
      destruct a1; [reflexivity|congruence].
  - destruct R as (D & S & R1 & R2 & N).
    destruct (ackhdr_round d s a1 a2 [] D S R1 R2 A noack_nil) as (X1 & X2). rewrite app_nil_r in X2.
    split.
    + unfold encode. change (flag_enc 1 1 0 0 0 0) with (Ok [20]). cbn [bind]. rewrite X1. reflexivity.
    + cbn [wire decode Z.eqb Pos.eqb orb]. rewrite X2. cbn [bind]. unfold ackdata_check. rewrite ack_check_ok by assumption. cbn [bind].
      destruct a1; [reflexivity|congruence].
  - split.
    + unfold encode. change (flag_enc 1 2 0 0 0 0) with (Ok [36]). cbn [bind]. rewrite w2_enc by assumption. reflexivity.
    + cbn [wire decode Z.eqb Pos.eqb orb]. rewrite <- (app_nil_r (w2 d)), w2_dec by assumption. reflexivity.
  - destruct R as (S & F & I & W & P).
    assert (word 0) as Z0 by (unfold word; lia).
    destruct (conn_round 0 s f i z pl Z0 S F I W) as (X1 & X2).
    split.
    + unfold encode. destruct rci;
      [change (flag_enc 2 6 0 0 0 0) with (Ok [104])|change (flag_enc 2 1 0 0 0 0) with (Ok [24])]; cbn [bind]; rewrite X1; reflexivity.
    + destruct rci; cbn [wire decode Z.eqb Pos.eqb orb]; rewrite X2; reflexivity.
  - destruct R as (D & S & F & I & W & P & L).
    destruct (conn_round d s f i z (zlen x :: x) D S F I W) as (X1 & X2).
    split.
    + unfold encode. change (flag_enc 2 2 0 0 0 0) with (Ok [40]). cbn [bind]. rewrite X1. cbn [bind]. rewrite image_round by assumption. cbn [bind].
      cbn [wire app]. do 2 f_equal.
    + cbn [wire decode Z.eqb Pos.eqb orb]. rewrite X2. cbn [bind]. rewrite tolerant_round by assumption. reflexivity.
  - destruct R as (D & S & R & P & L). split.
    + unfold encode. change (flag_enc 2 3 0 0 0 0) with (Ok [56]). cbn [bind]. rewrite !w2_enc by assumption. cbn [bind]. rewrite image_round by assumption. reflexivity.
    + cbn [wire decode Z.eqb Pos.eqb orb]. do 3 (rewrite w2_dec by assumption; cbn [bind]). rewrite tolerant_round by assumption. reflexivity.
  - destruct R as (D & S & R). split.
    + unfold encode. change (flag_enc 2 4 0 0 0 0) with (Ok [72]). cbn [bind]. rewrite !w2_enc by assumption. reflexivity.
    + cbn [wire decode Z.eqb Pos.eqb orb]. do 2 (rewrite w2_dec by assumption; cbn [bind]). rewrite <- (app_nil_r (w2 r)), w2_dec by assumption. reflexivity.
  - destruct A.
Qed.
Print Assumptions nsp_round_trip.

(** Distinct messages have distinct encodings. *)
Theorem nsp_injective : forall p q b, in_range p -> acks_ok p -> in_range q -> acks_ok q -> encode p = Ok b -> encode q = Ok b -> p = q.
Proof.
  intros p q b R A R' A' E E'. destruct (nsp_round_trip p R A) as (X & Y), (nsp_round_trip q R' A') as (X' & Y').
  assert (wire p = wire q) by congruence. congruence.
Qed.
Print Assumptions nsp_injective.

(** ** Decoding arbitrary bytes *)
Definition parsed {A} (P : A -> list Z -> Prop) (r : res (A * list Z)) : Prop :=
  match r with Ok (v, t) => bytes_ok t /\ P v t | Err e => e = EDecode end.
Lemma fixed_dec_safe : forall n buf, bytes_ok buf -> parsed (fun h t => bytes_ok h /\ length h = n) (fixed_dec n buf).
Proof.
  intros n buf B. unfold fixed_dec, require. destruct (Z.ltb_spec (zlen buf) (Z.of_nat n)) as [L|L]; cbn [bind parsed]; [reflexivity|].
  assert (bytes_ok (upto (Z.of_nat n) buf ++ from (Z.of_nat n) buf)) as X by (rewrite upto_from; assumption).
  unfold bytes_ok in *. apply Forall_app in X as (X1 & X2). split; [assumption|]. split; [assumption|].
  unfold upto. rewrite firstn_length. unfold zlen in L. lia.
Qed.
Lemma word_dec_safe : forall buf, bytes_ok buf -> parsed (fun v _ => word v) (word_dec buf).
Proof.
  intros buf B. unfold word_dec. pose proof (fixed_dec_safe 2 buf B) as H. destruct (fixed_dec 2 buf) as [[h t]|e]; cbn [bind parsed] in *; [|assumption].
  destruct H as (T & H & L). split; [assumption|]. pose proof (le_dec_range h H) as X. unfold zlen in X. rewrite L in X. unfold word. lia.
Qed.
Lemma byte_dec_safe : forall buf, bytes_ok buf -> parsed (fun v _ => 0 <= v < 256) (byte_dec buf).
Proof.
  intros buf B. unfold byte_dec. pose proof (fixed_dec_safe 1 buf B) as H. destruct (fixed_dec 1 buf) as [[h t]|e]; cbn [bind parsed] in *; [|assumption].
  destruct H as (T & H & L). split; [assumption|]. pose proof (le_dec_range h H) as X. unfold zlen in X. rewrite L in X. lia.
Qed.
Lemma seq_dec_safe : forall buf, bytes_ok buf -> parsed (fun v _ => 0 <= v < 4096) (seq_dec buf).
Proof.
  intros buf B. unfold seq_dec. pose proof (word_dec_safe buf B) as H. destruct (word_dec buf) as [[h t]|e]; cbn [bind parsed] in *; [|assumption].
  destruct H as (T & H). split; [assumption|]. rewrite land12. lia.
Qed.
Lemma from_bytes : forall n b, bytes_ok b -> bytes_ok (from n b).
Proof.
  intros n b B. assert (bytes_ok (upto n b ++ from n b)) as X by (rewrite upto_from; assumption).
  unfold bytes_ok in *. apply Forall_app in X. apply X.
Qed.
Lemma upto_bytes : forall n b, bytes_ok b -> bytes_ok (upto n b).
Proof.
  intros n b B. assert (bytes_ok (upto n b ++ from n b)) as X by (rewrite upto_from; assumption).
  unfold bytes_ok in *. apply Forall_app in X. apply X.
Qed.
Lemma ack_dec_safe : forall buf, bytes_ok buf -> ack_range (fst (ack_dec buf)) /\ bytes_ok (snd (ack_dec buf)).
Proof.
  intros buf B. unfold ack_dec. destruct (2 <=? zlen buf); cbn [fst snd ack_range]; [|auto].
  match goal with |- context [if ?c then _ else _] => destruct c end; cbn [fst snd ack_range]; [|auto].
  assert (0 <= Z.land (Z.shiftr (le_dec (upto 2 buf)) 12) 7 < 8).
  { change 7 with (Z.ones 3). rewrite Z.land_ones by lia. apply Z.mod_pos_bound. reflexivity. }
  destruct (Z.leb_spec (Z.land (Z.shiftr (le_dec (upto 2 buf)) 12) 7) 3); cbn [fst snd ack_range]; (split; [|now apply from_bytes]); [|auto].
  rewrite land12. lia.
Qed.
Lemma ackhdr_dec_safe : forall buf, bytes_ok buf ->
  parsed (fun v _ => let '(d, s, a1, a2) := v in word d /\ word s /\ ack_range a1 /\ ack_range a2) (ackhdr_dec buf).
Proof.
  intros buf B. unfold ackhdr_dec. pose proof (word_dec_safe buf B) as H. destruct (word_dec buf) as [[d t]|e]; cbn [bind parsed] in *; [|assumption].
  destruct H as (T & D). pose proof (word_dec_safe t T) as H. destruct (word_dec t) as [[s u]|e]; cbn [bind parsed] in *; [|assumption].
  destruct H as (U & S). pose proof (ack_dec_safe u U) as H. destruct (ack_dec u) as [a1 x]. cbn [fst snd] in H. destruct H as (A1 & X).
  pose proof (ack_dec_safe x X) as H. destruct (ack_dec x) as [a2 y]. cbn [fst snd] in H. destruct H as (A2 & Y). cbn [parsed]. auto.
Qed.
Lemma connhdr_dec_safe : forall buf, bytes_ok buf ->
  parsed (fun v _ => let '(d, s, f, i, z) := v in word d /\ word s /\ 0 <= f <= 3 /\ 0 <= i < 128 /\ word z) (connhdr_dec buf).
Proof.
  intros buf B. unfold connhdr_dec. pose proof (word_dec_safe buf B) as H. destruct (word_dec buf) as [[d t]|e]; cbn [bind parsed] in *; [|assumption].
  destruct H as (T & D). pose proof (word_dec_safe t T) as H. destruct (word_dec t) as [[s u]|e]; cbn [bind parsed] in *; [|assumption].
  destruct H as (U & S). pose proof (byte_dec_safe u U) as H. destruct (byte_dec u) as [[f w]|e]; cbn [bind parsed] in *; [|assumption].
  destruct H as (W & F). destruct (negb (Z.land f 3 =? 1)); [reflexivity|]. destruct (negb (Z.shiftr f 4 =? 0)); [reflexivity|].
  unfold ex_dec. cbn [ex_dec_loop]. destruct w as [|b w]; cbn [bind parsed]; [reflexivity|].
  destruct (Z.ltb_spec b 128) as [L|L]; cbn [bind parsed]; [|reflexivity].
  unfold bytes_ok in W. apply Forall_cons_iff in W as (Wb & W).
  pose proof (word_dec_safe w W) as H. destruct (word_dec w) as [[z v]|e]; cbn [bind parsed] in *; [|assumption].
  destruct H as (V & Z0). split; [assumption|].
  assert (0 <= Z.land (Z.shiftr f 2) 3 <= 3) by (change 3 with (Z.ones 2) at 1 2; rewrite Z.land_ones by lia; change (2 ^ 2) with 4; lia).
  assert (Z.lor 0 (Z.shiftl (Z.land b 127) 0) = b).
  { unfold byte_ok in Wb. rewrite Z.lor_0_l, Z.shiftl_0_r. change 127 with (Z.ones 7). rewrite Z.land_ones by lia. change (2 ^ 7) with 128. lia. }
  unfold byte_ok, word in *. repeat split; try tauto; lia.
Qed.
Lemma tolerant_safe : forall buf, bytes_ok buf -> parsed (fun x _ => bytes_ok x /\ zlen x <= 16) (tolerant_dec 16 buf).
Proof.
  intros buf B. assert (N : bytes_ok []) by constructor. unfold tolerant_dec. destruct buf as [|b t]; cbn [parsed]; [rewrite zlen_nil; repeat split; auto; lia|].
  match goal with |- context [if ?c then _ else _] => destruct c eqn:C end; cbn [parsed]; [rewrite zlen_nil; repeat split; auto; lia|].
  unfold image_dec. replace (16 <? b) with false by lia. unfold bytes_ok in B. apply Forall_cons_iff in B as (_ & B).
  destruct (Z.eqb_spec (zlen (upto b t)) b) as [E|E]; cbn [parsed]; [|reflexivity].
  split; [now apply from_bytes|]. split; [now apply upto_bytes|]. lia.
Qed.
Lemma done_safe : forall r p, in_range p -> done r p = Err EDecode \/ exists p', done r p = Ok p' /\ in_range p'.
Proof. intros [|x r] p H; [right; exists p; auto|left; reflexivity]. Qed.

(** Whatever bytes arrive, decoding gives an in-range message or raises a decode error. *)
Theorem nsp_decode_safe : forall buf, bytes_ok buf -> decode buf = Err EDecode \/ exists p, decode buf = Ok p /\ in_range p.
Proof.
  intros [|h b] B; [right; exists NEmpty; cbn; auto|]. unfold bytes_ok in B. apply Forall_cons_iff in B as (Hh & B). fold (bytes_ok b) in B.
  assert (L1 : forall v, 0 <= Z.land v 1 <= 1) by (intros; change 1 with (Z.ones 1) at 1 2; rewrite Z.land_ones by lia; change (2 ^ 1) with 2; lia).
  assert (L2 : forall v, 0 <= Z.land v 3 <= 3) by (intros; change 3 with (Z.ones 2) at 1 2; rewrite Z.land_ones by lia; change (2 ^ 2) with 4; lia).
  assert (L12 : forall v, 0 <= Z.land v 4095 < 4096) by (intros; rewrite land12; lia).
  cbn [decode].
  pose proof (ackhdr_dec_safe b B) as A. pose proof (connhdr_dec_safe b B) as C. pose proof (word_dec_safe b B) as W.
  match goal with |- (if ?c then _ else _) = _ \/ _ => destruct c end.
  { destruct (ackhdr_dec b) as [[[[[d s] a1] a2] b1]|e]; cbn [bind parsed] in *; [|left; congruence]. destruct A as (B1 & D & S & R1 & R2).
    pose proof (word_dec_safe b1 B1) as F. destruct (word_dec b1) as [[f b2]|e]; cbn [bind parsed] in *; [|left; congruence]. destruct F as (B2 & F).
    destruct (ack_check a1 a2) as [[]|e] eqn:K; cbn [bind]; [|left; unfold ack_check in K; destruct a1 as [[? ?]|], a2 as [[? ?]|]; try congruence; destruct (Bool.eqb _ _); congruence].
    right. eexists. split; [reflexivity|]. cbn [in_range]. repeat split; try apply L1; try apply L12; try assumption; try apply D; try apply S. }
  match goal with |- (if ?c then _ else _) = _ \/ _ => destruct c end.
  { destruct (ackhdr_dec b) as [[[[[d s] a1] a2] b1]|e]; cbn [bind parsed] in *; [|left; congruence]. destruct A as (B1 & D & S & R1 & R2).
    pose proof (seq_dec_safe b1 B1) as F. destruct (seq_dec b1) as [[f b2]|e]; cbn [bind parsed] in *; [|left; congruence]. destruct F as (B2 & F).
    destruct (ack_check a1 a2) as [[]|e] eqn:K; cbn [bind]; [|left; unfold ack_check in K; destruct a1 as [[? ?]|], a2 as [[? ?]|]; try congruence; destruct (Bool.eqb _ _); congruence].
    right. eexists. split; [reflexivity|]. cbn [in_range]. auto 10. }
  match goal with |- (if ?c then _ else _) = _ \/ _ => destruct c end.
  { destruct (ackhdr_dec b) as [[[[[d s] a1] a2] b1]|e]; cbn [bind parsed] in *; [|left; congruence]. destruct A as (B1 & D & S & R1 & R2).
    pose proof (seq_dec_safe b1 B1) as F. destruct (seq_dec b1) as [[n b2]|e]; cbn [bind parsed] in *; [|left; congruence]. destruct F as (B2 & F).
    pose proof (byte_dec_safe b2 B2) as G. destruct (byte_dec b2) as [[g b3]|e]; cbn [bind parsed] in *; [|left; congruence]. destruct G as (B3 & G).
    pose proof (fixed_dec_safe 1 b3 B3) as V. destruct (fixed_dec 1 b3) as [[v b4]|e]; cbn [bind parsed] in *; [|left; congruence]. destruct V as (B4 & V & VL).
    match goal with |- (if ?c then _ else _) = _ \/ _ => destruct c eqn:K end; [left; reflexivity|].
    apply done_safe. cbn [in_range]. pose proof (le_dec_range v V) as X. unfold zlen in X. rewrite VL in X.
    pose proof (L2 g). pose proof (L2 (Z.shiftr g 2)).
    unfold le_dec_signed. change (2 ^ (8 * Z.of_nat 1 - 1)) with 128. change (256 ^ Z.of_nat 1) with 256 in *.
    repeat split; try apply D; try apply S; auto; destruct (Z.ltb_spec (le_dec v) 128); lia. }
  assert (AC : forall a1 a2, ackdata_check a1 a2 = Err EDecode \/ ackdata_check a1 a2 = Ok tt /\ a1 <> None).
  { intros [[n1 q1]|] [[n2 q2]|]; unfold ackdata_check, ack_check; cbn [bind]; auto; try (right; split; [reflexivity|congruence]).
    destruct (Bool.eqb _ _); cbn [bind]; auto. right. split; [reflexivity|congruence]. }
  match goal with |- (if ?c then _ else _) = _ \/ _ => destruct c end.
  { destruct (ackhdr_dec b) as [[[[[d s] a1] a2] b1]|e]; cbn [bind parsed] in *; [|left; congruence]. destruct A as (B1 & D & S & R1 & R2).
    destruct (AC a1 a2) as [E|(E & N)]; rewrite E; cbn [bind]; [left; reflexivity|]. apply done_safe. cbn [in_range]. auto 10. }
  match goal with |- (if ?c then _ else _) = _ \/ _ => destruct c end.
  { destruct (ackhdr_dec b) as [[[[[d s] a1] a2] b1]|e]; cbn [bind parsed] in *; [|left; congruence]. destruct A as (B1 & D & S & R1 & R2).
    destruct (AC a1 a2) as [E|(E & N)]; rewrite E; cbn [bind]; [left; reflexivity|]. apply done_safe. cbn [in_range]. auto 10. }
  match goal with |- (if ?c then _ else _) = _ \/ _ => destruct c end.
  { destruct (word_dec b) as [[d b1]|e]; cbn [bind parsed] in *; [|left; congruence]. right. eexists. split; [reflexivity|]. apply W. }
  match goal with |- (if ?c then _ else _) = _ \/ _ => destruct c end.
  { destruct (connhdr_dec b) as [[[[[[d s] f] i] z] b1]|e]; cbn [bind parsed] in *; [|left; congruence]. destruct C as (B1 & D & S & F & I & Z0).
    destruct (negb (d =? 0)); [left; reflexivity|]. right. eexists. split; [reflexivity|]. cbn [in_range]. auto 10. }
  match goal with |- (if ?c then _ else _) = _ \/ _ => destruct c end.
  { destruct (connhdr_dec b) as [[[[[[d s] f] i] z] b1]|e]; cbn [bind parsed] in *; [|left; congruence]. destruct C as (B1 & D & S & F & I & Z0).
    pose proof (tolerant_safe b1 B1) as T. destruct (tolerant_dec 16 b1) as [[x b2]|e]; cbn [bind parsed] in *; [|left; congruence].
    apply done_safe. cbn [in_range]. destruct T as (_ & T1 & T2). auto 10. }
  match goal with |- (if ?c then _ else _) = _ \/ _ => destruct c end.
  { destruct (word_dec b) as [[d b1]|e]; cbn [bind parsed] in *; [|left; congruence]. destruct W as (B1 & D).
    pose proof (word_dec_safe b1 B1) as S. destruct (word_dec b1) as [[s b2]|e]; cbn [bind parsed] in *; [|left; congruence]. destruct S as (B2 & S).
    pose proof (word_dec_safe b2 B2) as R. destruct (word_dec b2) as [[r b3]|e]; cbn [bind parsed] in *; [|left; congruence]. destruct R as (B3 & R).
    pose proof (tolerant_safe b3 B3) as T. destruct (tolerant_dec 16 b3) as [[x b4]|e]; cbn [bind parsed] in *; [|left; congruence].
    apply done_safe. cbn [in_range]. destruct T as (_ & T1 & T2). auto 10. }
  match goal with |- (if ?c then _ else _) = _ \/ _ => destruct c end; [|left; reflexivity].
  destruct (word_dec b) as [[d b1]|e]; cbn [bind parsed] in *; [|left; congruence]. destruct W as (B1 & D).
  pose proof (word_dec_safe b1 B1) as S. destruct (word_dec b1) as [[s b2]|e]; cbn [bind parsed] in *; [|left; congruence]. destruct S as (B2 & S).
  pose proof (word_dec_safe b2 B2) as R. destruct (word_dec b2) as [[r b3]|e]; cbn [bind parsed] in *; [|left; congruence]. destruct R as (B3 & R).
  apply done_safe. cbn [in_range]. auto.
Qed.
Print Assumptions nsp_decode_safe.

(** ** What does not hold *)
(** Only the second acknowledgement field present: it decodes as the first. *)
Theorem second_ack_refuted : exists p b q, in_range p /\ encode p = Ok b /\ decode b = Ok q /\ q <> p.
Proof.
  exists (NData 1 2 None (Some (5, 2)) 7 0 1 1 [65]), [96; 1; 0; 2; 0; 5; 160; 7; 0; 65], (NData 1 2 (Some (5, 2)) None 7 0 1 1 [65]).
  split; [|split; [vm_compute; reflexivity|split; [vm_compute; reflexivity|discriminate]]].
  unfold in_range, word, ack_range, bytes_ok, byte_ok. repeat split; try lia. repeat constructor; lia.
Qed.
Print Assumptions second_ack_refuted.
(** Both fields for the same subchannel encode without complaint, to bytes that are rejected. *)
Theorem same_channel_refuted : exists p b, in_range p /\ encode p = Ok b /\ decode b = Err EDecode.
Proof.
  exists (NAckData 1 2 (Some (5, 0)) (Some (6, 0))), [4; 1; 0; 2; 0; 5; 128; 6; 128].
  split; [|split; vm_compute; reflexivity].
  unfold in_range, word, ack_range. repeat split; try lia. discriminate.
Qed.
Print Assumptions same_channel_refuted.
(** An empty packet decodes, to a header object without address fields. *)
Theorem empty_packet_refuted : decode [] = Ok NEmpty /\ forall p, acks_ok p -> p <> NEmpty.
Proof. split; [reflexivity|]. intros p A ->. exact A. Qed.
Print Assumptions empty_packet_refuted.
(** The data field of a disconnect or a confirm that claims to be too long is
    dropped, but one that is one or two bytes short is an error. *)
Theorem short_data_refuted :
  decode [56; 1; 0; 2; 0; 0; 0; 5; 65] = Ok (NDI 1 2 0 []) /\ decode [56; 1; 0; 2; 0; 0; 0; 3; 65] = Err EDecode /\
  decode [56; 1; 0; 2; 0; 0; 0; 2; 65] = Err EDecode.
Proof. repeat split; vm_compute; reflexivity. Qed.
Print Assumptions short_data_refuted.

(** A data segment carrying acknowledgements for both subchannels, and a link
    service message with a negative credit. *)
Example nsp_pkt_example :
  (let p := NData 300 2 (Some (4095, 0)) (Some (17, 2)) 4000 1 1 0 [1; 2; 3] in
   in_range p /\ acks_ok p /\ encode p = Ok [32; 44; 1; 2; 0; 255; 143; 17; 160; 160; 31; 1; 2; 3]) /\
  (let p := NLs 1 2 None None 3 1 0 (-5) in in_range p /\ acks_ok p /\ encode p = Ok [16; 1; 0; 2; 0; 3; 0; 1; 251]) /\
  (let p := NCI true 513 2 0 1459 [7] in in_range p /\ acks_ok p /\ encode p = Ok [104; 0; 0; 1; 2; 9; 0; 179; 5; 7]).
Proof.
  cbn [in_range acks_ok ack_range two_channels]. unfold word, bytes_ok, byte_ok.
  repeat split; try lia; try (repeat constructor; lia); vm_compute; reflexivity.
Qed.
