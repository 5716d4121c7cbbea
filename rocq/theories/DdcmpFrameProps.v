(** C18 and C19: DDCMP framing. *)
From Verif Require Import Base CrcModel CrcProps PacketModel PacketSpec PacketCheck MultinetModel MultinetProps DdcmpModel DdcmpFrameModel.

(** *** CRC *)
Lemma crc16_appended : forall data, bytes_ok data ->
  exists b, crc16_of data = Ok b /\ bytes_ok b /\ zlen b = 2 /\ crc16_good (data ++ b) = true.
Proof.
  intros data D. destruct crc16_class as (S & _ & k & g & E & _ & _).
  destruct (crc_accepts crc16_poly 16 (Some 0) (Some 0) true k g S eq_refl E data D) as (c & b & U & B & Bo & L & c' & U' & G).
  exists b. unfold crc16_of, crc16_good. rewrite E. cbn [bind]. rewrite U. cbn [bind].
  split; [exact B|]. split; [exact Bo|]. split; [exact L|]. rewrite U'. exact G.
Qed.

Lemma len2 : forall l : list Z, zlen l = 2 -> exists a b, l = [a; b].
Proof. intros [|a [|b [|c l]]] H; rewrite ?zlen_cons, ?zlen_nil in H; try lia; [eauto|pose proof (zlen_nonneg _ l); lia]. Qed.

(** *** What a correct message looks like on the wire *)
(** From the DDCMP message formats: eight header bytes ending in the header CRC,
    then for data and maintenance the data and its CRC. *)
Definition frame_fmt (m : msg) (f : list Z) : Prop :=
  exists flags addr c1 c2, bytes_ok f /\
  match m with
  | DataM r n p => exists lo d1 d2, zlen p = lo + 256 * (flags mod 64) /\
      crc16_good [129; lo; flags; r; n; addr; c1; c2] = true /\ crc16_good (p ++ [d1; d2]) = true /\
      f = [129; lo; flags; r; n; addr; c1; c2] ++ p ++ [d1; d2]
  | MaintM p => exists lo d1 d2, zlen p = lo + 256 * (flags mod 64) /\ flags / 64 = 3 /\
      crc16_good [144; lo; flags; 0; 0; addr; c1; c2] = true /\ crc16_good (p ++ [d1; d2]) = true /\
      f = [144; lo; flags; 0; 0; addr; c1; c2] ++ p ++ [d1; d2]
  | AckM r => flags mod 64 = 0 /\ f = [5; 1; flags; r; 0; addr; c1; c2] /\ crc16_good f = true
  | NakM code r => flags mod 64 = code /\ f = [5; 2; flags; r; 0; addr; c1; c2] /\ crc16_good f = true
  | RepM n => flags mod 64 = 0 /\ f = [5; 3; flags; 0; n; addr; c1; c2] /\ crc16_good f = true
  | StartM => flags = 192 /\ f = [5; 6; flags; 0; 0; addr; c1; c2] /\ crc16_good f = true
  | StackM => flags = 192 /\ f = [5; 7; flags; 0; 0; addr; c1; c2] /\ crc16_good f = true
  end.

Lemma fixed1 : forall a l, fixed_dec 1 (a :: l) = Ok ([a], l).
Proof. intros. unfold fixed_dec, require. rewrite zlen_cons. pose proof (zlen_nonneg _ l). destruct (Z.ltb_spec (1 + zlen l) (Z.of_nat 1)); [lia|]. reflexivity. Qed.
Lemma fixed2 : forall a b l, fixed_dec 2 (a :: b :: l) = Ok ([a; b], l).
Proof. intros. unfold fixed_dec, require. rewrite !zlen_cons. pose proof (zlen_nonneg _ l). destruct (Z.ltb_spec (1 + (1 + zlen l)) (Z.of_nat 2)); [lia|]. reflexivity. Qed.
Lemma field_bits : forall f s b, 0 <= s -> 0 <= b -> Z.land (Z.shiftr f s) (Z.ones b) = (f / 2 ^ s) mod 2 ^ b.
Proof. intros. rewrite Z.land_ones by auto. rewrite Z.shiftr_div_pow2 by auto. reflexivity. Qed.

Definition hdr_spec (a b c d e : Z) : res hdr :=
  if a =? 129 then Ok (HData (b + 256 * (c mod 64)) d e)
  else if a =? 144 then
    if (c / 64 =? 3) && (d =? 0) && (e =? 0) then Ok (HMaint (b + 256 * (c mod 64))) else Err EDecode
  else if a =? 5 then
    if b =? 1 then if (c mod 64 =? 0) && (e =? 0) then Ok (HCtl (AckM d)) else Err EDecode
    else if b =? 2 then if e =? 0 then Ok (HCtl (NakM (c mod 64) d)) else Err EDecode
    else if b =? 3 then if (c mod 64 =? 0) && (d =? 0) then Ok (HCtl (RepM e)) else Err EDecode
    else if b =? 6 then if (c =? 192) && (d =? 0) && (e =? 0) then Ok (HCtl StartM) else Err EDecode
    else if b =? 7 then if (c =? 192) && (d =? 0) && (e =? 0) then Ok (HCtl StackM) else Err EDecode
    else Err EDecode
  else Err EDecode.
Ltac layout_step :=
  cbn [data_layout ctl_layout decode dec_rows dec_rowx dec_ty atfield bind setattr bm_unpack bit_ be_name be_const be_start be_bits ro val_eqb le_dec];
  rewrite ?fixed1, ?fixed2.
Lemma hdr_dec_spec : forall a b c d e f l, byte_ok a -> byte_ok b -> byte_ok c -> byte_ok d -> byte_ok e -> byte_ok f ->
  hdr_dec (a :: b :: c :: d :: e :: f :: l) = hdr_spec a b c d e.
Proof.
  intros a b c d e f l Ha Hb Hc Hd He Hf. unfold byte_ok in *. unfold hdr_dec, hdr_spec.
  change SOH with 129. change DLE with 144. change ENQ with 5.
  unfold DataL, MaintL, AckL, NakL, RepL, StartL, StackL.
  assert (F1 : (b + 256 * (c + 256 * 0)) mod 2 ^ 14 = b + 256 * (c mod 64)) by lia.
  assert (F2 : (b + 256 * (c + 256 * 0)) / 2 ^ 14 mod 2 ^ 1 = c / 64 mod 2) by lia.
  assert (F3 : (b + 256 * (c + 256 * 0)) / 2 ^ 15 mod 2 ^ 1 = c / 128) by lia.
  assert (G1 : (c + 256 * 0) mod 2 ^ 6 = c mod 64) by lia.
  assert (G2 : (c + 256 * 0) / 2 ^ 6 mod 2 ^ 1 = c / 64 mod 2) by lia.
  assert (G3 : (c + 256 * 0) / 2 ^ 7 mod 2 ^ 1 = c / 128) by lia.
  destruct (a =? 129); [|destruct (a =? 144); [|destruct (a =? 5); [|reflexivity]; destruct (b =? 1); [|destruct (b =? 2); [|destruct (b =? 3); [|destruct (b =? 6); [|destruct (b =? 7); [|reflexivity]]]]]]].
  all: repeat layout_step.
  all: rewrite !field_bits by lia; rewrite ?Z.pow_0_r, ?Z.div_1_r, ?F1, ?F2, ?F3, ?G1, ?G2, ?G3.
  all: assert (Z0 : forall x, x + 256 * 0 = x) by (intros; lia).
  all: repeat (match goal with |- context [if ?X then _ else _] => destruct X eqn:? end; cbn [bind atfield]; repeat layout_step).
  all: try reflexivity; try (exfalso; lia); rewrite ?Z0; try reflexivity.
Qed.

(** Every message a station can send has that format. *)
Definition msg_ok (m : msg) : Prop :=
  match m with
  | DataM r n p => byte_ok r /\ byte_ok n /\ bytes_ok p /\ zlen p < 16384
  | MaintM p => bytes_ok p /\ zlen p < 16384
  | AckM r => byte_ok r
  | NakM code r => 0 <= code < 64 /\ byte_ok r
  | RepM n => byte_ok n
  | StartM | StackM => True
  end.
Lemma to1 : forall x, byte_ok x -> to_bytes 1 x = Ok [x].
Proof. intros x H. unfold byte_ok in H. rewrite to_bytes_ok by lia. cbn [le_enc]. f_equal. f_equal. lia. Qed.
Lemma to2 : forall x, 0 <= x < 65536 -> to_bytes 2 x = Ok [x mod 256; x / 256].
Proof. intros x H. rewrite to_bytes_ok by lia. cbn [le_enc]. f_equal. f_equal. f_equal. lia. Qed.
Lemma lor_high : forall x k y, 0 <= k -> 0 <= x < 2 ^ k -> Z.lor x (Z.shiftl y k) = x + y * 2 ^ k.
Proof.
  intros x k y Hk Hx. rewrite <- Z.shiftl_mul_pow2 by auto.
  rewrite <- Z.lxor_lor, <- Z.add_nocarry_lxor; auto; apply Z.bits_inj'; intros n Hn;
    rewrite Z.land_spec, Z.shiftl_spec, Z.bits_0 by auto; destruct (Z.ltb_spec n k);
    try (rewrite (Z.testbit_neg_r y) by lia; apply andb_false_r);
    destruct (Z.eq_dec x 0) as [->|]; try (rewrite Z.bits_0; reflexivity);
    (rewrite (Z.bits_above_log2 x n); [reflexivity|lia|]); apply Z.log2_lt_pow2; try lia;
    apply Z.lt_le_trans with (2 ^ k); try lia; apply Z.pow_le_mono_r; lia.
Qed.
Definition hdr_bytes (m : msg) : list Z :=
  match m with
  | DataM r n p => [129; zlen p mod 256; zlen p / 256; r; n; 1]
  | MaintM p => [144; zlen p mod 256; zlen p / 256 + 192; 0; 0; 1]
  | AckM r => [5; 1; 0; r; 0; 1]
  | NakM code r => [5; 2; code; r; 0; 1]
  | RepM n => [5; 3; 0; 0; n; 1]
  | StartM => [5; 6; 192; 0; 0; 1]
  | StackM => [5; 7; 192; 0; 0; 1]
  end.
Lemma hdr_of_bytes : forall m, msg_ok m -> hdr_of m = Ok (hdr_bytes m).
Proof.
  intros m M. assert (Z0 : forall p : list Z, 0 <= zlen p) by (intros; apply zlen_nonneg).
  assert (SH : forall x, 0 <= x < 16384 -> Z.shiftr x 14 = 0).
  { intros x Hx. rewrite Z.shiftr_div_pow2 by lia. change (2 ^ 14) with 16384. lia. }
  destruct m; cbn [msg_ok] in M; unfold hdr_of, hdr_bytes; try reflexivity.
  - destruct M as (R & N & P & L). cbn [encode enc_rows DataL MaintL NakL data_layout ctl_layout enc_row]; unfold bm_enc; cbn [bm_fold bit_]; cbn -[Z.shiftr Z.shiftl Z.lor to_bytes Z.add zlen Z.modulo Z.div].
    specialize (Z0 payload). rewrite SH by lia. cbn -[Z.shiftl Z.lor to_bytes Z.add zlen Z.modulo Z.div].
    change (Z.shiftl 0 14) with 0. change (Z.shiftl 0 15) with 0. rewrite !Z.lor_0_r, Z.shiftl_0_r, Z.lor_0_l.
    change (Z.shiftr 0 1) with 0. change (Z.shiftr 1 1) with 0. cbn [negb Z.eqb bind]. change SOH with 129. change DLE with 144. rewrite to2 by lia. rewrite (to1 129), (to1 1), (to1 resp), (to1 num) by (auto; unfold byte_ok; lia). reflexivity.
  - cbn -[to_bytes]. rewrite (to1 resp) by auto. reflexivity.
  - destruct M as (C & R). cbn [encode enc_rows DataL MaintL NakL data_layout ctl_layout enc_row]; unfold bm_enc; cbn [bm_fold bit_]; cbn -[Z.shiftr Z.shiftl Z.lor to_bytes].
    replace (Z.shiftr code 6) with 0 by (rewrite Z.shiftr_div_pow2 by lia; change (2 ^ 6) with 64; lia).
    cbn -[Z.shiftl Z.lor to_bytes]. change (Z.shiftl 0 6) with 0. change (Z.shiftl 0 7) with 0. rewrite !Z.lor_0_r, Z.shiftl_0_r, Z.lor_0_l.
    change (Z.shiftr 0 1) with 0. cbn [negb Z.eqb bind]. rewrite (to1 code), (to1 resp) by (auto; unfold byte_ok; lia). reflexivity.
  - cbn -[to_bytes]. rewrite (to1 num) by auto. reflexivity.
  - destruct M as (P & L). cbn [encode enc_rows DataL MaintL NakL data_layout ctl_layout enc_row]; unfold bm_enc; cbn [bm_fold bit_]; cbn -[Z.shiftr Z.shiftl Z.lor to_bytes Z.add zlen Z.modulo Z.div].
    specialize (Z0 payload). rewrite SH by lia. cbn -[Z.shiftl Z.lor to_bytes Z.add zlen Z.modulo Z.div].
    change (Z.shiftr 1 1) with 0. cbn [negb Z.eqb bind]. rewrite Z.shiftl_0_r, Z.lor_0_l. rewrite (lor_high (zlen payload)) by lia. rewrite lor_high by lia.
    change (Z.shiftr 0 1) with 0. change (Z.shiftr 1 1) with 0. cbn [negb Z.eqb bind]. change SOH with 129. change DLE with 144. rewrite to2 by lia. rewrite (to1 144), (to1 1), !(to1 0) by (unfold byte_ok; lia). cbn [bind app].
    f_equal. f_equal. f_equal; [lia|]. f_equal. lia.
Qed.
(** The messages sent have that format and nothing can go wrong in coding. *)
Theorem ddcmp_frame_sent : forall m, msg_ok m -> exists f, frame_of m = Ok f /\ frame_fmt m f.
Proof.
  intros m M. assert (HB : bytes_ok (hdr_bytes m)).
  { pose proof (zlen_nonneg _ (match m with DataM _ _ p | MaintM p => p | _ => [] end)).
    destruct m; cbn [hdr_bytes msg_ok] in *; repeat constructor; unfold byte_ok in *; lia. }
  destruct (crc16_appended _ HB) as (hc & Hh & Bh & Lh & Gh).
  destruct (len2 _ Lh) as (c1 & c2 & ->).
  unfold frame_of. rewrite hdr_of_bytes by auto. cbn [bind]. rewrite Hh. cbn [bind].
  assert (HD : forall p, bytes_ok p -> exists d1 d2, crc16_of p = Ok [d1; d2] /\ crc16_good (p ++ [d1; d2]) = true /\ bytes_ok [d1; d2]).
  { intros p P. destruct (crc16_appended _ P) as (pc & Hp & Bp & Lp & Gp).
    destruct (len2 _ Lp) as (d1 & d2 & ->). eauto. }
  assert (HF : forall t, bytes_ok t -> bytes_ok (hdr_bytes m ++ [c1; c2] ++ t)).
  { intros t Ht. apply Forall_app. split; [exact HB|]. apply Forall_app. split; assumption. }
  destruct m; cbn [msg_ok hdr_bytes] in *.
  - destruct M as (R & N & P & L). destruct (HD payload P) as (d1 & d2 & E & G & B). rewrite E. cbn [bind].
    eexists. split; [reflexivity|]. exists (zlen payload / 256), 1, c1, c2. split; [apply HF, Forall_app; auto|].
    exists (zlen payload mod 256), d1, d2. split; [pose proof (zlen_nonneg _ payload); lia|]. auto.
  - eexists. split; [reflexivity|]. exists 0, 1, c1, c2. split; [apply (HF []); constructor|]. auto.
  - eexists. split; [reflexivity|]. exists code, 1, c1, c2. split; [apply (HF []); constructor|]. split; [lia|]. auto.
  - eexists. split; [reflexivity|]. exists 0, 1, c1, c2. split; [apply (HF []); constructor|]. auto.
  - eexists. split; [reflexivity|]. exists 192, 1, c1, c2. split; [apply (HF []); constructor|]. auto.
  - eexists. split; [reflexivity|]. exists 192, 1, c1, c2. split; [apply (HF []); constructor|]. auto.
  - destruct M as (P & L). destruct (HD payload P) as (d1 & d2 & E & G & B). rewrite E. cbn [bind].
    pose proof (zlen_nonneg _ payload).
    eexists. split; [reflexivity|]. exists (zlen payload / 256 + 192), 1, c1, c2. split; [apply HF, Forall_app; auto|].
    exists (zlen payload mod 256), d1, d2. split; [lia|]. split; [lia|]. auto.
Qed.
Print Assumptions ddcmp_frame_sent.

(** *** Finding headers *)
(** A valid header: eight bytes, a start byte first, correct CRC. *)
Definition valid_header (w : list Z) : Prop :=
  length w = 8%nat /\ (exists b t, w = b :: t /\ (b = 5 \/ b = 129 \/ b = 144)) /\ crc16_good w = true.
Definition window (k : nat) (z : list Z) : list Z := firstn 8 (skipn k z).
Definition no_header_before (k : nat) (z : list Z) : Prop := forall j, (j < k)%nat -> ~ valid_header (window j z).
Definition noise (e : list ritem) : Prop := Forall (eq (Bad 1 None)) e.

Lemma start_spec : forall b, is_start b = true <-> b = 5 \/ b = 129 \/ b = 144.
Proof. intros. unfold is_start. change ENQ with 5. change SOH with 129. change DLE with 144. lia. Qed.
Lemma read_list_spec : forall n s, 0 <= n ->
  match read_list n s with
  | Some (b, s') => s = b ++ s' /\ zlen b = n
  | None => zlen s < n
  end.
Proof.
  intros n s H. unfold read_list. destruct (Z.ltb_spec (zlen s) n); [auto|]. split; [symmetry; apply upto_from|].
  rewrite zlen_upto; lia.
Qed.
Lemma read_list_app : forall b s, read_list (zlen b) (b ++ s) = Some (b, s).
Proof.
  intros. unfold read_list. rewrite zlen_app. pose proof (zlen_nonneg _ s). destruct (Z.ltb_spec (zlen b + zlen s) (zlen b)); [lia|].
  rewrite upto_app_exact, from_app_exact by reflexivity. reflexivity.
Qed.
Lemma window_0 : forall z w s, z = w ++ s -> length w = 8%nat -> window 0 z = w.
Proof. intros z w s -> L. unfold window. cbn [skipn]. rewrite <- L, firstn_app, firstn_all, Nat.sub_diag. cbn [firstn]. apply app_nil_r. Qed.
Lemma window_S : forall k b z, window (S k) (b :: z) = window k z.
Proof. reflexivity. Qed.
Lemma short_window : forall z j, (length z < 8)%nat -> ~ valid_header (window j z).
Proof. intros z j L (E & _). unfold window in E. rewrite firstn_length, skipn_length in E. lia. Qed.

Notation hs := (header_search (list Z) read_list).
Lemma hs_spec : forall f c s i, (length c <= 7)%nat -> (2 * length s + length c < f)%nat ->
  match hs f c s i with
  | (r, i', e) =>
      match r with
      | Some (w, s') => exists k, valid_header w /\ no_header_before k (c ++ s) /\ c ++ s = firstn k (c ++ s) ++ w ++ s' /\
                          (k <= length (c ++ s))%nat /\ w = window k (c ++ s)
      | None => forall j, ~ valid_header (window j (c ++ s))
      end /\ noise e /\ (length e <= if i then 1 else 0)%nat
  end.
Proof.
  induction f as [|f IH]; intros c s i Lc F; [lia|]. cbn [header_search]. destruct c as [|h t].
  - pose proof (read_list_spec 1 s ltac:(lia)) as R. destruct (read_list 1 s) as [[b s1]|].
    + destruct R as (-> & L). destruct b as [|h [|h2 b]]; rewrite ?zlen_cons, ?zlen_nil in L; try lia; [|pose proof (zlen_nonneg _ b); lia].
      cbn [app length] in F. apply (IH [h] s1 i); cbn [length]; lia.
    + split; [|split; [constructor|destruct i; cbn; lia]]. intros j. apply short_window. cbn [app]. unfold zlen in R. lia.
  - cbn [length] in *. destruct (is_start h) eqn:St.
    + pose proof (read_list_spec (HDRLEN - zlen (h :: t)) s ltac:(unfold HDRLEN, zlen; cbn [length]; lia)) as R.
      destruct (read_list (HDRLEN - zlen (h :: t)) s) as [[b s1]|].
      * destruct R as (-> & L).
        assert (L8 : length ((h :: t) ++ b) = 8%nat) by (unfold zlen, HDRLEN in L; rewrite app_length; cbn [length] in *; lia).
        rewrite !app_assoc. destruct (crc16_good ((h :: t) ++ b)) eqn:G.
        { split; [|split; [constructor|destruct i; cbn; lia]]. exists 0%nat. split.
          { split; [exact L8|]. split; [|exact G]. exists h, (t ++ b). split; [reflexivity|]. apply start_spec; exact St. }
          split; [intros j Hj; lia|]. split; [reflexivity|]. split; [lia|]. symmetry. apply (window_0 _ _ s1); auto. }
        cbn [app tl]. specialize (IH (t ++ b) s1 false). rewrite app_length in IH.
        rewrite app_length in L8, F. cbn [length] in L8.
        destruct (hs f (t ++ b) s1 false) as [[r i'] e]. destruct IH as (A & N & Le); [lia|lia|]. split; [|split].
        -- assert (NV : ~ valid_header (window 0 (h :: (t ++ b) ++ s1))).
           { intros V. destruct V as (_ & _ & V). rewrite (window_0 _ ((h :: t) ++ b) s1) in V; [congruence| |rewrite app_length; cbn [length]; lia].
             reflexivity. }
           destruct r as [[w s']|].
           ++ destruct A as (k & V & NB & E & K & W). exists (S k). split; auto. split.
              { intros [|j] Hj; [exact NV|]. rewrite window_S. apply NB. lia. }
              split; [cbn [firstn app]; f_equal; exact E|]. split; [cbn [length]; lia|]. exact W.
           ++ intros [|j]; [exact NV|]. rewrite window_S. apply A.
        -- apply Forall_app. split; auto. destruct i; repeat constructor.
        -- rewrite app_length. destruct i; cbn [length]; lia.
      * split; [|split; [constructor|destruct i; cbn; lia]]. intros j. apply short_window. rewrite app_length. unfold zlen, HDRLEN in R. cbn [length] in *. lia.
    + specialize (IH t s i ltac:(lia) ltac:(lia)). destruct (hs f t s i) as [[r i'] e]. destruct IH as (A & N & Le).
      split; [|auto]. assert (NV : ~ valid_header (window 0 (h :: t ++ s))).
      { intros (_ & (b & u & E & B) & _). unfold window in E. cbn [skipn firstn] in E. injection E as <- _.
        apply start_spec in B. congruence. }
      cbn [app]. destruct r as [[w s']|].
      * destruct A as (k & V & NB & E & K & W). exists (S k). split; auto. split.
        { intros [|j] Hj; [exact NV|]. rewrite window_S. apply NB. lia. }
        split; [cbn [firstn app]; f_equal; exact E|]. split; [cbn [length]; lia|]. exact W.
      * intros [|j]; [exact NV|]. rewrite window_S. apply A.
Qed.
(** header_search finds the first valid header of the stream, at whatever
    offset, and gives up only if there is none. *)
Theorem ddcmp_header_search : forall s i,
  match hs (hs_fuel s) [] s i with
  | (Some (w, s'), _, _) => exists pre, s = pre ++ w ++ s' /\ valid_header w /\ no_header_before (length pre) s
  | (None, _, _) => forall j, ~ valid_header (window j s)
  end.
Proof.
  intros s i. pose proof (hs_spec (hs_fuel s) [] s i ltac:(cbn; lia) ltac:(unfold hs_fuel; cbn [length]; lia)) as H.
  destruct (hs (hs_fuel s) [] s i) as [[r i'] e]. destruct H as (H & _). destruct r as [[w s']|]; auto.
  destruct H as (k & V & NB & E & K & _). cbn [app] in *. exists (firstn k s). split; auto. split; auto.
  rewrite firstn_length, Nat.min_l by lia. exact NB.
Qed.
Print Assumptions ddcmp_header_search.

(** *** Receiving *)
Notation rl := (receive_loop (list Z) read_list).
Notation ah := (after_header (list Z) read_list).
Fixpoint goods (l : list ritem) : list msg :=
  match l with Good m :: t => m :: goods t | _ :: t => goods t | [] => [] end.
Lemma goods_app : forall a b, goods (a ++ b) = goods a ++ goods b.
Proof. induction a as [|[m|c r] a IH]; intros; cbn [app goods]; rewrite ?IH; auto. Qed.
Lemma goods_noise : forall e, noise e -> goods e = [].
Proof. induction 1; subst; auto. Qed.
(** The messages [ms] stand in the stream as correct frames, in this order and
    without overlap. *)
Inductive contains : list msg -> list Z -> Prop :=
| cn_nil : forall s, contains [] s
| cn_cons : forall m ms pre f s, frame_fmt m f -> contains ms s -> contains (m :: ms) (pre ++ f ++ s).
Lemma contains_more : forall ms s pre, contains ms s -> contains ms (pre ++ s).
Proof.
  intros ms s pre C. destruct C; [constructor|]. rewrite app_assoc. constructor; auto.
Qed.
Lemma len8 : forall w : list Z, length w = 8%nat -> exists a b c d e f g h, w = [a; b; c; d; e; f; g; h].
Proof.
  intros w H. do 8 (destruct w as [|? w]; [discriminate H|]). destruct w; [|discriminate H]. do 8 eexists. reflexivity.
Qed.
(** What follows a valid header. *)
Lemma after_header_ok : forall w s, bytes_ok (w ++ s) -> valid_header w ->
  match ah w s with
  | (it, next) =>
      match goods it with
      | [] => True
      | [m] => exists body s', s = body ++ s' /\ next = Some s' /\ frame_fmt m (w ++ body)
      | _ => False
      end /\ match next with Some s' => exists body, s = body ++ s' | None => True end
  end.
Proof.
  intros w s B (L & _ & G). destruct (len8 w L) as (a & b & c & d & e & f & c1 & c2 & ->).
  assert (Bw : bytes_ok [a; b; c; d; e; f; c1; c2]) by (apply Forall_app in B; tauto).
  assert (Bs : bytes_ok s) by (apply Forall_app in B; tauto).
  inversion_clear Bw as [|? ? Ba B1]. inversion_clear B1 as [|? ? Bb B2]. inversion_clear B2 as [|? ? Bc B3].
  inversion_clear B3 as [|? ? Bd B4]. inversion_clear B4 as [|? ? Be B5]. inversion_clear B5 as [|? ? Bf B6].
  unfold after_header. rewrite hdr_dec_spec by auto. unfold hdr_spec.
  assert (Ctl : forall m, frame_fmt m [a; b; c; d; e; f; c1; c2] ->
    match goods [Good m] with
    | [] => True
    | [m] => exists body s', s = body ++ s' /\ Some s = Some s' /\ frame_fmt m ([a; b; c; d; e; f; c1; c2] ++ body)
    | _ => False
    end /\ exists body, s = body ++ s).
  { intros m Fm. cbn [goods]. split; [exists [], s; rewrite app_nil_r; auto|exists []; reflexivity]. }
  assert (HW : bytes_ok [a; b; c; d; e; f; c1; c2]) by (apply Forall_app in B; tauto).
  destruct (a =? 129) eqn:Ea.
  { apply Z.eqb_eq in Ea. subst a. pose proof (read_list_spec (b + 256 * (c mod 64)) s ltac:(unfold byte_ok in *; lia)) as R.
    destruct (read_list (b + 256 * (c mod 64)) s) as [[p s1]|]; [|cbn [handle goods]; auto].
    destruct R as (-> & Lp). pose proof (read_list_spec 2 s1 ltac:(lia)) as R2.
    destruct (read_list 2 s1) as [[pc s2]|]; [|cbn [handle goods]; auto]. destruct R2 as (-> & L2).
    destruct (len2 _ L2) as (d1 & d2 & ->). cbn [handle]. split; [|exists (p ++ [d1; d2]); rewrite <- app_assoc; reflexivity].
    destruct (crc16_good (p ++ [d1; d2])) eqn:Gp; cbn [goods]; auto. exists (p ++ [d1; d2]), s2. split; [rewrite <- app_assoc; reflexivity|].
    split; [reflexivity|]. exists c, f, c1, c2. split.
    { apply Forall_app. split; auto. rewrite app_assoc in Bs. apply Forall_app in Bs. tauto. }
    exists b, d1, d2. auto. }
  destruct (a =? 144) eqn:E2.
  { apply Z.eqb_eq in E2. subst a. destruct ((c / 64 =? 3) && (d =? 0) && (e =? 0)) eqn:C; [|cbn [goods]; split; [auto|exists []; reflexivity]].
    pose proof (read_list_spec (b + 256 * (c mod 64)) s ltac:(unfold byte_ok in *; lia)) as R.
    destruct (read_list (b + 256 * (c mod 64)) s) as [[p s1]|]; [|cbn [handle goods]; auto].
    destruct R as (-> & Lp). pose proof (read_list_spec 2 s1 ltac:(lia)) as R2.
    destruct (read_list 2 s1) as [[pc s2]|]; [|cbn [handle goods]; auto]. destruct R2 as (-> & L2).
    destruct (len2 _ L2) as (d1 & d2 & ->). cbn [handle]. split; [|exists (p ++ [d1; d2]); rewrite <- app_assoc; reflexivity].
    destruct (crc16_good (p ++ [d1; d2])) eqn:Gp; cbn [goods]; auto. exists (p ++ [d1; d2]), s2. split; [rewrite <- app_assoc; reflexivity|].
    assert (d = 0) by lia. assert (e = 0) by lia. assert (c / 64 = 3) by lia. subst d e.
    split; [reflexivity|]. exists c, f, c1, c2. split.
    { apply Forall_app. split; auto. rewrite app_assoc in Bs. apply Forall_app in Bs. tauto. }
    exists b, d1, d2. auto. }
  destruct (a =? 5) eqn:E5; [|cbn [goods]; split; [auto|exists []; reflexivity]]. apply Z.eqb_eq in E5. subst a.
  assert (No : match goods [] with
    | [] => True
    | [m] => exists body s', s = body ++ s' /\ Some s = Some s' /\ frame_fmt m ([5; b; c; d; e; f; c1; c2] ++ body)
    | _ => False
    end /\ exists body, s = body ++ s) by (split; [exact I|exists []; reflexivity]).
  destruct (b =? 1) eqn:F1; [apply Z.eqb_eq in F1; subst b; destruct ((c mod 64 =? 0) && (e =? 0)) eqn:C; [|exact No]; apply Ctl; assert (e = 0) by lia; subst e; exists c, f, c1, c2; split; [auto|]; split; [lia|]; auto|].
  destruct (b =? 2) eqn:F2; [apply Z.eqb_eq in F2; subst b; destruct (e =? 0) eqn:C; [|exact No]; apply Ctl; assert (e = 0) by lia; subst e; exists c, f, c1, c2; split; [auto|]; split; [lia|]; auto|].
  destruct (b =? 3) eqn:F3; [apply Z.eqb_eq in F3; subst b; destruct ((c mod 64 =? 0) && (d =? 0)) eqn:C; [|exact No]; apply Ctl; assert (d = 0) by lia; subst d; exists c, f, c1, c2; split; [auto|]; split; [lia|]; auto|].
  destruct (b =? 6) eqn:F6; [apply Z.eqb_eq in F6; subst b; destruct ((c =? 192) && (d =? 0) && (e =? 0)) eqn:C; [|exact No]; apply Ctl; assert (d = 0) by lia; assert (e = 0) by lia; subst d e; exists c, f, c1, c2; split; [auto|]; split; [lia|]; auto|].
  destruct (b =? 7) eqn:F7; [apply Z.eqb_eq in F7; subst b; destruct ((c =? 192) && (d =? 0) && (e =? 0)) eqn:C; [|exact No]; apply Ctl; assert (d = 0) by lia; assert (e = 0) by lia; subst d e; exists c, f, c1, c2; split; [auto|]; split; [lia|]; auto|].
  exact No.
Qed.
Lemma rl_contains : forall f hf s i, bytes_ok s -> (2 * length s < hf)%nat -> contains (goods (rl f hf s i)) s.
Proof.
  induction f as [|f IH]; intros hf s i B F; [constructor|]. cbn [receive_loop].
  pose proof (hs_spec hf [] s i ltac:(cbn; lia) ltac:(cbn [length]; lia)) as H.
  destruct (hs hf [] s i) as [[r i'] e]. cbn [app] in H. destruct H as (H & N & _). destruct r as [[w s']|].
  - destruct H as (k & V & _ & E & _ & _). rewrite E. rewrite E in B. apply Forall_app in B. destruct B as (Bk & B).
    pose proof (after_header_ok w s' B V) as A. destruct (ah w s') as [it next]. rewrite !goods_app, (goods_noise e N). cbn [app].
    destruct A as (A & A2). apply Forall_app in B. destruct B as (Bw & Bs).
    assert (Len : (2 * length s' < hf)%nat) by (apply (f_equal (@length Z)) in E; rewrite !app_length in E; lia).
    destruct (goods it) as [|m [|]]; [|destruct A as (body & s2 & -> & -> & Fm)|contradiction].
    + cbn [app]. destruct next as [s2|]; [|constructor]. destruct A2 as (body & ->). rewrite !app_assoc. apply contains_more.
      apply IH; [apply Forall_app in Bs; tauto|]. rewrite app_length in Len. lia.
    + cbn [app]. rewrite (app_assoc w). apply cn_cons; auto. apply IH; [apply Forall_app in Bs; tauto|]. rewrite app_length in Len. lia.
  - rewrite (goods_noise e N). constructor.
Qed.
(** Only correct messages are handed up, in the order in which they stand in
    the stream, and no part of the stream is used for two messages. *)
Theorem ddcmp_only_good : forall s, bytes_ok s -> contains (goods (receive s)) s.
Proof. intros. apply rl_contains; auto. unfold hs_fuel. lia. Qed.
Print Assumptions ddcmp_only_good.

Lemma frame_split : forall m f, frame_fmt m f -> exists w body, f = w ++ body /\ valid_header w /\
  forall s, ah w (body ++ s) = ([Good m], Some s).
Proof.
  intros m f (fl & ad & c1 & c2 & B & F). 
  assert (H : forall a b c d e l, bytes_ok ([a; b; c; d; e; ad; c1; c2] ++ l) ->
    hdr_dec [a; b; c; d; e; ad; c1; c2] = hdr_spec a b c d e).
  { intros a b c d e l Bl. apply Forall_app in Bl. destruct Bl as (Bw & _).
    inversion_clear Bw as [|? ? Ba B1]. inversion_clear B1 as [|? ? Bb B2]. inversion_clear B2 as [|? ? Bc B3].
    inversion_clear B3 as [|? ? Bd B4]. inversion_clear B4 as [|? ? Be B5]. inversion_clear B5 as [|? ? Bf B6].
    apply hdr_dec_spec; auto. }
  assert (Data : forall p d1 d2 s, read_list (zlen p) ((p ++ [d1; d2]) ++ s) = Some (p, [d1; d2] ++ s)) by (intros; rewrite <- app_assoc; apply read_list_app).
  assert (Two : forall d1 d2 s, read_list 2 ([d1; d2] ++ s) = Some ([d1; d2], s)) by (intros; apply (read_list_app [d1; d2])).
  assert (Ctl : forall c d e b m, bytes_ok [5; b; c; d; e; ad; c1; c2] -> crc16_good [5; b; c; d; e; ad; c1; c2] = true ->
    hdr_spec 5 b c d e = Ok (HCtl m) -> exists w body, [5; b; c; d; e; ad; c1; c2] = w ++ body /\ valid_header w /\
      forall s, ah w (body ++ s) = ([Good m], Some s)).
  { intros c d e b m0 Bm G E. exists [5; b; c; d; e; ad; c1; c2], []. split; [symmetry; apply app_nil_r|]. split.
    { split; [reflexivity|]. split; [|auto]. do 2 eexists. split; [reflexivity|auto]. }
    intros s. unfold after_header. rewrite (H _ _ _ _ _ []) by (rewrite app_nil_r; auto). rewrite E. reflexivity. }
  destruct m.
  - destruct F as (lo & d1 & d2 & L & G & Gp & E). subst f. eexists _, _. split; [reflexivity|]. split.
    { split; [reflexivity|]. split; [|exact G]. do 2 eexists. split; [reflexivity|auto]. }
    intros s. unfold after_header. rewrite (H _ _ _ _ _ _ B). unfold hdr_spec. cbn [Z.eqb Pos.eqb]. rewrite <- L, Data, Two, Gp. reflexivity.
  - destruct F as (Fl & -> & G). apply Ctl; auto. unfold hdr_spec. cbn [Z.eqb Pos.eqb]. rewrite Fl. reflexivity.
  - destruct F as (Fl & -> & G). apply Ctl; auto. unfold hdr_spec. cbn [Z.eqb Pos.eqb]. rewrite Fl. reflexivity.
  - destruct F as (Fl & -> & G). apply Ctl; auto. unfold hdr_spec. cbn [Z.eqb Pos.eqb]. rewrite Fl. reflexivity.
  - destruct F as (Fl & -> & G). apply Ctl; auto. rewrite Fl. reflexivity.
  - destruct F as (Fl & -> & G). apply Ctl; auto. rewrite Fl. reflexivity.
  - destruct F as (lo & d1 & d2 & L & Fl & G & Gp & E). subst f. eexists _, _. split; [reflexivity|]. split.
    { split; [reflexivity|]. split; [|exact G]. do 2 eexists. split; [reflexivity|auto]. }
    intros s. unfold after_header. rewrite (H _ _ _ _ _ _ B). unfold hdr_spec. cbn [Z.eqb Pos.eqb]. rewrite Fl. cbn [Z.eqb Pos.eqb andb].
    rewrite <- L, Data, Two, Gp. reflexivity.
Qed.
Lemma hs_fuel_eq : forall f1 f2 c s i, (length c <= 7)%nat -> (2 * length s + length c < f1)%nat -> (2 * length s + length c < f2)%nat ->
  hs f1 c s i = hs f2 c s i.
Proof.
  induction f1 as [|f1 IH]; intros f2 c s i Lc F1 F2; [lia|]. destruct f2 as [|f2]; [lia|]. cbn [header_search].
  destruct c as [|h t].
  - pose proof (read_list_spec 1 s ltac:(lia)) as R. destruct (read_list 1 s) as [[b s1]|]; [|reflexivity].
    destruct R as (-> & L). unfold zlen in L. rewrite app_length in *. cbn [length] in *. apply IH; lia.
  - cbn [length] in *. destruct (is_start h); [|apply IH; lia].
    pose proof (read_list_spec (HDRLEN - zlen (h :: t)) s ltac:(unfold HDRLEN, zlen; cbn [length]; lia)) as R.
    destruct (read_list (HDRLEN - zlen (h :: t)) s) as [[b s1]|]; [|reflexivity]. destruct R as (-> & L).
    destruct (crc16_good ((h :: t) ++ b)); [reflexivity|]. cbn [app tl].
    unfold HDRLEN, zlen in L. cbn [length] in *. rewrite !app_length in *.
    rewrite (IH f2) by (rewrite ?app_length; lia). reflexivity.
Qed.
Lemma ah_shorter : forall w s it s', ah w s = (it, Some s') -> (length s' <= length s)%nat.
Proof.
  intros w s it s' H. unfold after_header in H.
  assert (RL : forall n l b l', read_list n l = Some (b, l') -> (length l' <= length l)%nat).
  { intros n l b l' E. unfold read_list in E. destruct (zlen l <? n); [discriminate E|]. injection E as _ <-. unfold from. rewrite skipn_length. lia. }
  destruct (hdr_dec w) as [[m|n r k|n]|e].
  - injection H as _ <-. lia.
  - destruct (read_list n s) as [[p s1]|] eqn:E1; [|discriminate H]. destruct (read_list 2 s1) as [[q s2]|] eqn:E2; [|discriminate H].
    apply (f_equal snd) in H; cbn [snd] in H; injection H as <-. apply RL in E1. apply RL in E2. lia.
  - destruct (read_list n s) as [[p s1]|] eqn:E1; [|discriminate H]. destruct (read_list 2 s1) as [[q s2]|] eqn:E2; [|discriminate H].
    apply (f_equal snd) in H; cbn [snd] in H; injection H as <-. apply RL in E1. apply RL in E2. lia.
  - injection H as _ <-. lia.
Qed.
Lemma rl_fuel : forall f1 f2 h1 h2 s i, (length s < f1)%nat -> (length s < f2)%nat -> (2 * length s < h1)%nat -> (2 * length s < h2)%nat ->
  rl f1 h1 s i = rl f2 h2 s i.
Proof.
  induction f1 as [|f1 IH]; intros f2 h1 h2 s i F1 F2 H1 H2; [lia|]. destruct f2 as [|f2]; [lia|]. cbn [receive_loop].
  rewrite (hs_fuel_eq h1 h2) by (cbn [length]; lia).
  pose proof (hs_spec h2 [] s i ltac:(cbn; lia) ltac:(cbn [length]; lia)) as H. cbn [app] in H.
  destruct (hs h2 [] s i) as [[r i'] e]. destruct r as [[w s']|]; [|reflexivity].
  destruct H as ((k & (L8 & _) & _ & E & _) & _). apply (f_equal (@length Z)) in E. rewrite !app_length in E.
  destruct (ah w s') as [it next] eqn:A. destruct next as [s2|]; [|reflexivity]. apply ah_shorter in A.
  rewrite (IH f2 h1 h2) by lia. reflexivity.
Qed.
(** The receiver at some point of its work: what it makes of the stream that
    follows, and whether it was in synchronisation. *)
Definition recv_from (insync : bool) (s : list Z) : list ritem := rl (S (length s)) (hs_fuel s) s insync.
Lemma window_at : forall pre w rest, length w = 8%nat -> window (length pre) (pre ++ w ++ rest) = w.
Proof.
  intros pre w rest L. unfold window. rewrite skipn_app, skipn_all, Nat.sub_diag. cbn [skipn app].
  rewrite <- L. rewrite firstn_app, Nat.sub_diag, firstn_all. cbn [firstn]. apply app_nil_r.
Qed.
(** After any garbage in which no valid header starts, the next message is
    received.  At most one header error is reported meanwhile. *)
Theorem ddcmp_resync : forall (i : bool) pre m f rest, frame_fmt m f -> no_header_before (length pre) (pre ++ f ++ rest) ->
  exists e, noise e /\ (length e <= if i then 1 else 0)%nat /\
    recv_from i (pre ++ f ++ rest) = e ++ Good m :: recv_from true rest.
Proof.
  intros i pre m f rest Ff N. destruct (frame_split m f Ff) as (w & body & -> & V & A).
  set (s := pre ++ (w ++ body) ++ rest) in *. unfold recv_from at 1. cbn [receive_loop].
  pose proof (hs_spec (hs_fuel s) [] s i ltac:(cbn; lia) ltac:(unfold hs_fuel; cbn [length]; lia)) as H. cbn [app] in H.
  assert (W : window (length pre) s = w) by (unfold s; rewrite <- !app_assoc; apply window_at, V).
  destruct (hs (hs_fuel s) [] s i) as [[r i'] e] eqn:Eh. destruct H as (H & Ne & Le). exists e. split; auto. split; auto.
  destruct r as [[w' s']|]; [|exfalso; apply (H (length pre)); rewrite W; auto].
  destruct H as (k & V' & NB & E & K & W'). assert (k = length pre).
  { destruct (Nat.lt_trichotomy k (length pre)) as [C|[C|C]]; auto; exfalso.
    - apply (N k C). rewrite <- W'. auto.
    - apply (NB _ C). rewrite W. auto. }
  subst k. assert (Ew : w' = w) by (rewrite W'; exact W). clear W'. subst w'.
  assert (Es : s' = body ++ rest).
  { assert (P : firstn (length pre) s = pre) by (unfold s; rewrite firstn_app, firstn_all, Nat.sub_diag; cbn [firstn]; apply app_nil_r).
    rewrite P in E. unfold s in E. rewrite <- app_assoc in E. apply app_inv_head in E. apply app_inv_head in E. auto. }
  rewrite Es, A. cbn [app]. f_equal. f_equal.
  assert (I' : i' = true).
  { assert (TR : forall f c z i r j e, hs f c z i = (Some r, j, e) -> j = true).
    { clear. induction f as [|f IH]; intros c z i r j e H; [discriminate H|]. cbn [header_search] in H. destruct c as [|h t].
      - destruct (read_list 1 z) as [[b z1]|]; [eauto|discriminate H].
      - destruct (is_start h); [|eauto]. destruct (read_list (HDRLEN - zlen (h :: t)) z) as [[b z1]|]; [|discriminate H].
        destruct (crc16_good ((h :: t) ++ b)); [injection H as _ <- _; reflexivity|].
        destruct (hs f (tl ((h :: t) ++ b)) z1 false) as [[r0 j0] e0] eqn:E. injection H as -> <- _. eauto. }
    eapply TR; exact Eh. }
  subst i'. unfold recv_from. apply rl_fuel; unfold s, hs_fuel; rewrite ?app_length; destruct V as (L8 & _); lia.
Qed.
Print Assumptions ddcmp_resync.

(** *** Frames separated by fill *)
Definition fill (g : list Z) : Prop := Forall (fun b => b <> 5 /\ b <> 129 /\ b <> 144) g.
Inductive sent : list msg -> list Z -> Prop :=
| sent_nil : forall g, fill g -> sent [] g
| sent_cons : forall g m f ms s, fill g -> frame_fmt m f -> sent ms s -> sent (m :: ms) (g ++ f ++ s).
Lemma not_start : forall b, b <> 5 /\ b <> 129 /\ b <> 144 -> is_start b = false.
Proof. intros b H. destruct (is_start b) eqn:E; auto. apply start_spec in E. tauto. Qed.
Lemma hs_fill : forall g f s i, fill g -> (2 * length g + 2 <= f)%nat ->
  hs f [] (g ++ s) i = hs (f - 2 * length g) [] s i.
Proof.
  induction g as [|b g IH]; intros f s i G F.
  - cbn [app length]. f_equal. lia.
  - inversion G; subst. cbn [length] in F. destruct f as [|[|f]]; [lia|lia|]. cbn [header_search app].
    change (b :: g ++ s) with ([b] ++ (g ++ s)). rewrite (read_list_app [b]). rewrite not_start by auto.
    rewrite IH; auto; [|lia]. f_equal. cbn [length]. lia.
Qed.
Lemma hs_here : forall w s f i, valid_header w -> (2 <= f)%nat -> hs f [] (w ++ s) i = (Some (w, s), true, []).
Proof.
  intros w s f i (L & (b & t & -> & B) & G) F. destruct f as [|[|f]]; [lia|lia|]. cbn [header_search app].
  change (b :: t ++ s) with ([b] ++ (t ++ s)). rewrite (read_list_app [b]).
  replace (is_start b) with true by (symmetry; apply start_spec; auto).
  cbn [length] in L. assert (Lt : HDRLEN - zlen [b] = zlen t) by (unfold HDRLEN, zlen; cbn [length]; lia).
  rewrite Lt, read_list_app. cbn [app]. rewrite G. reflexivity.
Qed.
Lemma hs_end : forall f i, hs f [] [] i = (None, i, []).
Proof. intros [|f] i; reflexivity. Qed.
Lemma rl_sent : forall ms s, sent ms s -> forall f hf i, (length s < f)%nat -> (2 * length s + 2 <= hf)%nat -> rl f hf s i = map Good ms.
Proof.
  induction 1 as [g G|g m fr ms s G Fm S IH]; intros f hf i F HF; (destruct f as [|f]; [lia|]); cbn [receive_loop].
  - rewrite <- (app_nil_r g), hs_fill by (auto; lia). rewrite hs_end. reflexivity.
  - destruct (frame_split m fr Fm) as (w & body & -> & V & A). rewrite !app_length in *. rewrite hs_fill by (auto; lia).
    rewrite <- app_assoc, hs_here by (auto; lia). rewrite A. cbn [app map]. f_equal. destruct V as (L8 & _). apply IH; lia.
Qed.
(** Such a stream is received exactly. *)
Theorem ddcmp_receive_exact : forall ms s i, sent ms s -> recv_from i s = map Good ms.
Proof. intros. unfold recv_from. apply rl_sent; auto. Qed.
Print Assumptions ddcmp_receive_exact.
Lemma sent_fill : forall ms s g, fill g -> sent ms s -> sent ms (g ++ s).
Proof.
  intros ms s g G S. destruct S as [g' G'|g' m f ms s G' F S].
  - constructor. apply Forall_app; auto.
  - rewrite app_assoc. constructor; auto. apply Forall_app; auto.
Qed.
Lemma serial_sent : forall ms fs, Forall2 (fun m f => frame_of m = Ok f) ms fs -> Forall msg_ok ms ->
  sent ms (concat (map serial_out fs)).
Proof.
  intros ms fs H. induction H as [|m f ms fs E H IH]; intros M; [repeat constructor|]. inversion M; subst. cbn [map concat].
  destruct (ddcmp_frame_sent m) as (f' & E' & F); auto. rewrite E in E'. injection E' as <-.
  unfold serial_out at 1. rewrite <- app_assoc. apply (sent_cons [] m f); [constructor|auto|].
  apply sent_fill; [|auto]. repeat constructor; discriminate.
Qed.
(** Whatever is sent on a serial line is received, with no spurious items. *)
Theorem ddcmp_serial_line : forall ms, Forall msg_ok ms -> exists fs, Forall2 (fun m f => frame_of m = Ok f) ms fs /\
  receive (concat (map serial_out fs)) = map Good ms.
Proof.
  intros ms M. assert (E : exists fs, Forall2 (fun m f => frame_of m = Ok f) ms fs).
  { induction M as [|m ms H M IH]; [exists []; constructor|]. destruct IH as (fs & IH).
    destruct (ddcmp_frame_sent m H) as (f & E & _). exists (f :: fs). constructor; auto. }
  destruct E as (fs & E). exists fs. split; auto. apply (ddcmp_receive_exact ms _ false). apply serial_sent; auto.
Qed.
Print Assumptions ddcmp_serial_line.

(** *** Other byte streams *)
Lemma count_pos : forall w h, hdr_dec w = Ok h -> bytes_ok w -> (6 <= length w)%nat ->
  match h with HData n _ _ | HMaint n => 0 <= n | _ => True end.
Proof.
  intros w h E B L. destruct w as [|a [|b [|c [|d [|e [|f w]]]]]]; try (cbn [length] in L; lia).
  inversion_clear B as [|? ? Ba B1]. inversion_clear B1 as [|? ? Bb B2]. inversion_clear B2 as [|? ? Bc B3].
  inversion_clear B3 as [|? ? Bd B4]. inversion_clear B4 as [|? ? Be B5]. inversion_clear B5 as [|? ? Bf B6].
  rewrite hdr_dec_spec in E by auto. unfold hdr_spec in E. unfold byte_ok in *.
  assert (P : 0 <= b + 256 * (c mod 64)) by lia. revert E P. generalize (b + 256 * (c mod 64)). intros n E P.
  repeat match type of E with (if ?X then _ else _) = _ => destruct X end; try discriminate E; injection E as <-; auto.
Qed.
Section Sim.
Variable T : Type.
Variable rb : Z -> T -> option (list Z * T).
Variable rel : T -> list Z -> Prop.
Hypothesis Hrb : forall n t x, 0 <= n -> rel t x ->
  match read_list n x with
  | None => rb n t = None
  | Some (b, x') => exists t', rb n t = Some (b, t') /\ rel t' x'
  end.
Lemma hs_sim : forall f c t x i, (length c <= 7)%nat -> rel t x ->
  match hs f c x i with
  | (None, i', e) => header_search T rb f c t i = (None, i', e)
  | (Some (w, x'), i', e) => exists t', header_search T rb f c t i = (Some (w, t'), i', e) /\ rel t' x'
  end.
Proof.
  induction f as [|f IH]; intros c t x i L R; [reflexivity|]. cbn [header_search]. destruct c as [|h c].
  - pose proof (Hrb 1 t x ltac:(lia) R) as H. pose proof (read_list_spec 1 x ltac:(lia)) as S.
    destruct (read_list 1 x) as [[b x1]|]; [|rewrite H; reflexivity]. destruct H as (t1 & -> & R1).
    apply IH; auto. destruct S as (_ & S). unfold zlen in S. lia.
  - destruct (is_start h).
    + assert (P : 0 <= HDRLEN - zlen (h :: c)) by (unfold HDRLEN, zlen; cbn [length] in *; lia).
      pose proof (Hrb _ t x P R) as H. pose proof (read_list_spec _ x P) as S.
      destruct (read_list (HDRLEN - zlen (h :: c)) x) as [[b x1]|]; [|rewrite H; reflexivity]. destruct H as (t1 & -> & R1).
      destruct (crc16_good ((h :: c) ++ b)).
      { exists t1. auto. }
      assert (L7 : (length (tl ((h :: c) ++ b)) <= 7)%nat).
      { destruct S as (_ & S). unfold HDRLEN, zlen in S. cbn [app tl length] in *. rewrite app_length. lia. }
      specialize (IH _ _ _ false L7 R1). destruct (hs f (tl ((h :: c) ++ b)) x1 false) as [[r i'] e]. destruct r as [[w x2]|].
      * destruct IH as (t2 & E & R2). exists t2. rewrite E. auto.
      * rewrite IH. reflexivity.
    + apply IH; auto. cbn [length] in L. lia.
Qed.
Lemma rl_sim : forall f hf t x i, bytes_ok x -> (2 * length x < hf)%nat -> rel t x ->
  receive_loop T rb f hf t i = rl f hf x i.
Proof.
  induction f as [|f IH]; intros hf t x i B F R; [reflexivity|]. cbn [receive_loop].
  pose proof (hs_sim hf [] t x i ltac:(cbn; lia) R) as H.
  pose proof (hs_spec hf [] x i ltac:(cbn; lia) ltac:(cbn [length]; lia)) as Sp. cbn [app] in Sp.
  destruct (hs hf [] x i) as [[r i'] e]. destruct r as [[w x1]|]; [|rewrite H; reflexivity].
  destruct H as (t1 & -> & R1). destruct Sp as ((k & (L8 & _) & _ & E & _) & _).
  assert (Bx : bytes_ok x) by auto. rewrite E in Bx. apply Forall_app in Bx. destruct Bx as (_ & Bx).
  apply Forall_app in Bx. destruct Bx as (Bw & Bx). apply (f_equal (@length Z)) in E. rewrite !app_length in E.
  assert (A : exists it, (after_header T rb w t1 = (it, None) /\ ah w x1 = (it, None)) \/
                exists t2 x2, after_header T rb w t1 = (it, Some t2) /\ ah w x1 = (it, Some x2) /\ rel t2 x2 /\ exists p, x1 = p ++ x2).
  { unfold after_header. pose proof (count_pos w) as CP. destruct (hdr_dec w) as [h|er].
    2: { eexists. right. exists t1, x1. split; [reflexivity|]. split; [reflexivity|]. split; [auto|exists []; reflexivity]. }
    specialize (CP h eq_refl Bw ltac:(lia)). 
    destruct h as [m|n rs nm|n].
    - eexists. right. exists t1, x1. split; [reflexivity|]. split; [reflexivity|]. split; [auto|exists []; reflexivity].
    - pose proof (Hrb n t1 x1 CP R1) as H1. pose proof (read_list_spec n x1 CP) as S1.
      destruct (read_list n x1) as [[p x2]|]; [|rewrite H1; eexists; left; split; reflexivity].
      destruct H1 as (t2 & -> & R2). pose proof (Hrb 2 t2 x2 ltac:(lia) R2) as H2. pose proof (read_list_spec 2 x2 ltac:(lia)) as S2.
      destruct (read_list 2 x2) as [[pc x3]|]; [|rewrite H2; eexists; left; split; reflexivity].
      destruct H2 as (t3 & -> & R3). eexists. right. exists t3, x3. split; [reflexivity|]. split; [reflexivity|]. split; auto.
      exists (p ++ pc). destruct S1 as (-> & _). destruct S2 as (-> & _). apply app_assoc.
    - pose proof (Hrb n t1 x1 CP R1) as H1. pose proof (read_list_spec n x1 CP) as S1.
      destruct (read_list n x1) as [[p x2]|]; [|rewrite H1; eexists; left; split; reflexivity].
      destruct H1 as (t2 & -> & R2). pose proof (Hrb 2 t2 x2 ltac:(lia) R2) as H2. pose proof (read_list_spec 2 x2 ltac:(lia)) as S2.
      destruct (read_list 2 x2) as [[pc x3]|]; [|rewrite H2; eexists; left; split; reflexivity].
      destruct H2 as (t3 & -> & R3). eexists. right. exists t3, x3. split; [reflexivity|]. split; [reflexivity|]. split; auto.
      exists (p ++ pc). destruct S1 as (-> & _). destruct S2 as (-> & _). apply app_assoc. }
  destruct A as (it & [(A1 & A2)|(t2 & x2 & A1 & A2 & R2 & p & E2)]); rewrite A1, A2; [reflexivity|].
  rewrite (IH hf t2 x2 i'); auto.
  - rewrite E2 in Bx. apply Forall_app in Bx. tauto.
  - rewrite E2, app_length in E. lia.
Qed.
End Sim.

(** TCP: the pieces in which the data arrives do not matter. *)
Definition tcp_rel (t : list (list Z)) (x : list Z) : Prop := pieces t /\ concat t = x.
Definition tcp_read (n : Z) (t : list (list Z)) : option (list Z * list (list Z)) := recvall n [] t.
Lemma tcp_read_ok : forall n t x, 0 <= n -> tcp_rel t x ->
  match read_list n x with
  | None => tcp_read n t = None
  | Some (b, x') => exists t', tcp_read n t = Some (b, t') /\ tcp_rel t' x'
  end.
Proof.
  intros n t x N (P & C). unfold tcp_read. pose proof (recvall_spec t n [] P ltac:(rewrite zlen_nil; lia)) as R.
  pose proof (read_list_spec n x N) as S. cbn [app] in R. rewrite C in R.
  destruct (recvall n [] t) as [[b t']|]; destruct (read_list n x) as [[b' x']|].
  - destruct R as (Lb & E & P'). destruct S as (E' & Lb'). rewrite E' in E. apply app_eq_len in E; [|lia]. destruct E as (-> & ->).
    exists t'. split; [reflexivity|split; auto].
  - destruct R as (Lb & E & P'). rewrite E, zlen_app in S. pose proof (zlen_nonneg _ (concat t')). lia.
  - destruct S as (E' & Lb'). rewrite E', zlen_app in R. pose proof (zlen_nonneg _ x'). lia.
  - reflexivity.
Qed.
Definition tcp_receive (t : list (list Z)) : list ritem :=
  receive_loop _ tcp_read (S (length (concat t))) (hs_fuel (concat t)) t false.
Theorem ddcmp_tcp_receive : forall t, pieces t -> bytes_ok (concat t) -> tcp_receive t = receive (concat t).
Proof.
  intros t P B. unfold tcp_receive, receive. apply (rl_sim _ tcp_read tcp_rel tcp_read_ok); auto.
  - unfold hs_fuel. lia.
  - split; auto.
Qed.
Print Assumptions ddcmp_tcp_receive.

(** *** Telnet *)
(** C18. *)
Theorem ddcmp_telnet_transparent : forall x, unescape (escape x) = x.
Proof.
  induction x as [|b x IH]; [reflexivity|]. cbn [escape]. destruct (b =? DEL) eqn:E.
  - apply Z.eqb_eq in E. subst b. cbn [unescape]. rewrite !Z.eqb_refl. cbn [andb]. f_equal. exact IH.
  - destruct (escape x) as [|c y] eqn:Ex; [rewrite <- IH; reflexivity|]. cbn [unescape]. rewrite E. cbn [andb]. f_equal. exact IH.
Qed.
Print Assumptions ddcmp_telnet_transparent.
Lemma escape_app : forall a b, escape (a ++ b) = escape a ++ escape b.
Proof. induction a as [|c a IH]; intros; cbn [app escape]; auto. destruct (c =? DEL); cbn [app]; rewrite IH; auto. Qed.
Lemma count_app : forall a b, count_del (a ++ b) = count_del a + count_del b.
Proof. induction a as [|c a IH]; intros; cbn [app count_del]; [lia|]. rewrite IH. lia. Qed.
Lemma count_escape : forall a, count_del (escape a) = 2 * count_del a.
Proof. induction a as [|c a IH]; cbn [escape count_del]; auto. destruct (c =? DEL) eqn:E; cbn [count_del]; rewrite ?Z.eqb_refl, ?E; lia. Qed.
Lemma count_nonneg : forall a, 0 <= count_del a.
Proof. induction a as [|c a IH]; cbn [count_del]; [lia|]. destruct (c =? DEL); lia. Qed.
Lemma escape_none : forall a, count_del a = 0 -> escape a = a.
Proof.
  induction a as [|c a IH]; cbn [escape count_del]; auto. pose proof (count_nonneg a). destruct (c =? DEL); intros H0; [lia|]. rewrite IH by lia. auto.
Qed.
Lemma escape_longer : forall a, zlen a <= zlen (escape a).
Proof. induction a as [|c a IH]; cbn [escape]; [lia|]. destruct (c =? DEL); rewrite !zlen_cons; lia. Qed.
(** A cut through escaped data falls between characters or inside a pair. *)
Lemma escape_cut : forall x n, (n <= length (escape x))%nat ->
  exists y rest, (x = y ++ rest /\ firstn n (escape x) = escape y /\ skipn n (escape x) = escape rest) \/
                 (x = y ++ DEL :: rest /\ firstn n (escape x) = escape y ++ [DEL] /\ skipn n (escape x) = DEL :: escape rest).
Proof.
  induction x as [|c x IH]; intros n L.
  - cbn [escape length] in L. assert (n = 0%nat) by lia. subst n. exists [], []. left. auto.
  - destruct n as [|n]; [exists [], (c :: x); left; auto|]. cbn [escape] in *. destruct (c =? DEL) eqn:E.
    + apply Z.eqb_eq in E. subst c. destruct n as [|n]; [exists [], x; right; auto|]. cbn [length] in L.
      destruct (IH n ltac:(lia)) as (y & rest & [(E1 & E2 & E3)|(E1 & E2 & E3)]).
      * exists (DEL :: y), rest. left. split; [rewrite E1; reflexivity|]. split; [|exact E3].
        cbn [firstn escape]. rewrite Z.eqb_refl, E2. reflexivity.
      * exists (DEL :: y), rest. right. split; [rewrite E1; reflexivity|]. split; [|exact E3].
        cbn [firstn escape]. rewrite Z.eqb_refl, E2. reflexivity.
    + cbn [length] in L. destruct (IH n ltac:(lia)) as (y & rest & [(E1 & E2 & E3)|(E1 & E2 & E3)]).
      * exists (c :: y), rest. left. split; [rewrite E1; reflexivity|]. split; [|exact E3].
        cbn [firstn escape]. rewrite E, E2. reflexivity.
      * exists (c :: y), rest. right. split; [rewrite E1; reflexivity|]. split; [|exact E3].
        cbn [firstn escape]. rewrite E, E2. reflexivity.
Qed.
Lemma read_list_more : forall n y rest, zlen y <= n ->
  read_list n (y ++ rest) = match read_list (n - zlen y) rest with Some (b, s) => Some (y ++ b, s) | None => None end.
Proof.
  intros n y rest L. pose proof (zlen_nonneg _ y). pose proof (read_list_spec (n - zlen y) rest ltac:(lia)) as R.
  destruct (read_list (n - zlen y) rest) as [[b s]|].
  - destruct R as (-> & Lb). rewrite app_assoc. replace n with (zlen (y ++ b)) by (rewrite zlen_app; lia). apply read_list_app.
  - unfold read_list. rewrite zlen_app. destruct (Z.ltb_spec (zlen y + zlen rest) n); [reflexivity|lia].
Qed.
Section TelnetProof.
Variable T : Type.
Variable rv : Z -> T -> option (list Z * T).
Variable rel : T -> list Z -> Prop.
Hypothesis Hrv : forall n t x, 0 <= n -> rel t x ->
  match read_list n x with
  | None => rv n t = None
  | Some (b, x') => exists t', rv n t = Some (b, t') /\ rel t' x'
  end.
Lemma telnet_loop_ok : forall fuel sz p t x, rel t (escape x) -> 0 <= sz - zlen p <= Z.of_nat fuel ->
  match read_list (sz - zlen p) x with
  | None => telnet_loop T rv fuel sz p t = None
  | Some (b, x') => exists t', telnet_loop T rv fuel sz p t = Some (p ++ b, t') /\ rel t' (escape x')
  end.
Proof.
  induction fuel as [|f IH]; intros sz p t x R Le; cbn [telnet_loop]; destruct (Z.leb_spec sz (zlen p)) as [S|S].
  1, 3: assert (H0 : read_list (sz - zlen p) x = Some ([], x)) by (replace (sz - zlen p) with (zlen (@nil Z)) by (rewrite zlen_nil; lia); apply (read_list_app [] x));
    rewrite H0; exists t; rewrite app_nil_r; auto.
  - lia.
  - set (n := sz - zlen p) in *. pose proof (Hrv n t (escape x) ltac:(lia) R) as H1. pose proof (read_list_spec n (escape x) ltac:(lia)) as S1.
    destruct (read_list n (escape x)) as [[b raw]|].
    2: { rewrite H1. pose proof (escape_longer x). unfold read_list. destruct (Z.ltb_spec (zlen x) n); [reflexivity|lia]. }
    destruct H1 as (t1 & -> & R1). destruct S1 as (E & Lb).
    assert (Cut : firstn (length b) (escape x) = b /\ skipn (length b) (escape x) = raw).
    { rewrite E. rewrite firstn_app, skipn_app, firstn_all, skipn_all, Nat.sub_diag. cbn [firstn skipn app]. rewrite app_nil_r. auto. }
    destruct Cut as (C1 & C2).
    destruct (escape_cut x (length b) ltac:(rewrite E, app_length; lia)) as (y & rest & [(X & F & K)|(X & F & K)]); rewrite F in C1; rewrite K in C2.
    + subst b raw. rewrite count_escape.
      replace (Z.odd (2 * count_del y)) with false by (rewrite Z.odd_mul; reflexivity).
      assert (U : (if negb (2 * count_del y =? 0) then unescape (escape y) else escape y) = y).
      { destruct (2 * count_del y =? 0) eqn:C; cbn [negb]; [apply escape_none; lia|apply ddcmp_telnet_transparent]. }
      rewrite U. pose proof (escape_longer y).
      assert (1 <= zlen y).
      { destruct y as [|c y]; [cbn [escape] in Lb; rewrite zlen_nil in Lb; lia|]. rewrite zlen_cons. pose proof (zlen_nonneg _ y). lia. }
      specialize (IH sz (p ++ y) t1 rest R1). rewrite zlen_app in IH. rewrite X, read_list_more by lia.
      replace (n - zlen y) with (sz - (zlen p + zlen y)) by (unfold n; lia).
      specialize (IH ltac:(unfold n in *; lia)).
      destruct (read_list (sz - (zlen p + zlen y)) rest) as [[b2 x2]|]; [|exact IH].
      rewrite <- app_assoc in IH. exact IH.
    + subst b raw. assert (OC : count_del (escape y ++ [DEL]) = 2 * count_del y + 1) by (rewrite count_app, count_escape; cbn [count_del]; rewrite Z.eqb_refl; lia).
      rewrite OC. replace (Z.odd (2 * count_del y + 1)) with true by (rewrite Z.odd_add, Z.odd_mul; reflexivity).
      pose proof (Hrv 1 t1 (DEL :: escape rest) ltac:(lia) R1) as H2.
      change (DEL :: escape rest) with ([DEL] ++ escape rest) in H2. change 1 with (zlen [DEL]) in H2. rewrite read_list_app in H2.
      destruct H2 as (t2 & H2 & R2). change (zlen [DEL]) with 1 in H2. rewrite H2.
      pose proof (count_nonneg y). replace (2 * count_del y + 1 =? 0) with false by lia. cbn [negb].
      assert (U : unescape ((escape y ++ [DEL]) ++ [DEL]) = y ++ [DEL]).
      { rewrite <- app_assoc. change ([DEL] ++ [DEL]) with (escape [DEL]). rewrite <- escape_app. apply ddcmp_telnet_transparent. }
      rewrite U. pose proof (escape_longer y). rewrite zlen_app in Lb. change (zlen [DEL]) with 1 in Lb. pose proof (zlen_nonneg _ y).
      specialize (IH sz (p ++ y ++ [DEL]) t2 rest R2). rewrite !zlen_app in IH. change (zlen [DEL]) with 1 in IH.
      replace x with ((y ++ [DEL]) ++ rest) by (rewrite X, <- app_assoc; reflexivity).
      rewrite read_list_more by (rewrite zlen_app; change (zlen [DEL]) with 1; lia). rewrite zlen_app. change (zlen [DEL]) with 1.
      replace (n - (zlen y + 1)) with (sz - (zlen p + (zlen y + 1))) by (unfold n; lia).
      specialize (IH ltac:(unfold n in *; lia)).
      destruct (read_list (sz - (zlen p + (zlen y + 1))) rest) as [[b2 x2]|]; [|exact IH].
      rewrite <- !app_assoc in IH. rewrite <- app_assoc. exact IH.
Qed.
Lemma telnet_read_ok : forall n t x, 0 <= n -> rel t (escape x) ->
  match read_list n x with
  | None => telnet_read T rv n t = None
  | Some (b, x') => exists t', telnet_read T rv n t = Some (b, t') /\ rel t' (escape x')
  end.
Proof.
  intros n t x N R. unfold telnet_read. pose proof (telnet_loop_ok (Z.to_nat n) n [] t x R) as H. rewrite zlen_nil, Z.sub_0_r in H.
  specialize (H ltac:(lia)). exact H.
Qed.
End TelnetProof.
(** Receiving an escaped stream over Telnet, whatever the pieces, is receiving
    the stream itself. *)
Definition telnet_receive (n : nat) (t : list (list Z)) : list ritem :=
  receive_loop _ (telnet_read _ tcp_read) (S n) (2 * n + 2) t false.
Theorem ddcmp_telnet_receive : forall t x n, pieces t -> bytes_ok x -> concat t = escape x -> (length x <= n)%nat ->
  telnet_receive n t = receive x.
Proof.
  intros t x n P B C L. unfold telnet_receive.
  rewrite (rl_sim _ (telnet_read _ tcp_read) (fun t x => tcp_rel t (escape x)) (telnet_read_ok _ tcp_read tcp_rel tcp_read_ok) _ _ t x).
  - unfold receive. apply rl_fuel; unfold hs_fuel; lia.
  - auto.
  - lia.
  - split; auto.
Qed.
Print Assumptions ddcmp_telnet_receive.
Theorem ddcmp_telnet_line : forall ms fs t, Forall msg_ok ms -> Forall2 (fun m f => frame_of m = Ok f) ms fs ->
  pieces t -> concat t = concat (map telnet_out fs) ->
  telnet_receive (length (concat t)) t = map Good ms.
Proof.
  intros ms fs t M F P C. pose proof (serial_sent ms fs F M) as S.
  assert (E : concat (map telnet_out fs) = escape (concat (map serial_out fs))).
  { clear. induction fs as [|f fs IH]; [reflexivity|]. cbn [map concat]. rewrite IH, escape_app. f_equal.
    unfold telnet_out, serial_out. rewrite escape_app. reflexivity. }
  rewrite (ddcmp_telnet_receive t (concat (map serial_out fs))); auto.
  - apply (ddcmp_receive_exact ms _ false). auto.
  - clear - M F. induction F as [|m f ms fs E F IH]; [constructor|]. inversion M; subst. cbn [map concat].
    destruct (ddcmp_frame_sent m) as (f' & E' & (fl & ad & c1 & c2 & B & _)); auto. rewrite E in E'. injection E' as <-.
    apply Forall_app. split; [|apply IH; assumption]. apply Forall_app. split; [exact B|]. constructor; [unfold byte_ok, DEL; lia|constructor].
  - congruence.
  - rewrite C, E. pose proof (escape_longer (concat (map serial_out fs))). unfold zlen in *. lia.
Qed.
Print Assumptions ddcmp_telnet_line.

(** *** UDP *)
(** A datagram yields at most one item; a message only if it is a correct frame
    in the datagram, preceded by fill bytes. *)
Definition udp_fill (g : list Z) : Prop := Forall (fun b => b = 150 \/ b = 255) g.
Lemma udp_scan_fill : forall g m i n, udp_fill g -> udp_scan i (g ++ m) n = udp_scan (i + length g) m n.
Proof.
  induction g as [|b g IH]; intros m i n G; cbn [app length].
  - f_equal. lia.
  - inversion G as [|? ? Hb Hg]; subst. cbn [udp_scan].
    replace ((b =? SYN) || (b =? DEL)) with true by (unfold SYN, DEL; lia). rewrite IH by auto. f_equal. lia.
Qed.
Lemma udp_scan_spec : forall m i n, let k := udp_scan i m n in
  (exists g b t, m = g ++ b :: t /\ udp_fill g /\ is_start b = true /\ k = (i + length g)%nat) \/ k = n \/ (udp_fill m /\ k = (i + length m - 1)%nat).
Proof.
  induction m as [|b m IH]; intros i n; cbn [udp_scan].
  - right. right. split; [constructor|]. cbn [length]. lia.
  - destruct ((b =? SYN) || (b =? DEL)) eqn:E.
    + destruct (IH (S i) n) as [(g & c & t & -> & G & St & K)|[K|(G & K)]].
      * left. exists (b :: g), c, t. split; [reflexivity|]. split; [constructor; auto; unfold SYN, DEL in E; lia|]. split; [auto|].
        rewrite K. cbn [length]. lia.
      * auto.
      * right. right. split; [constructor; auto; unfold SYN, DEL in E; lia|]. rewrite K. cbn [length]. lia.
    + destruct (is_start b) eqn:St; [|auto]. left. exists [], b, m. split; [reflexivity|]. split; [constructor|]. split; [auto|]. cbn [length]. lia.
Qed.
(** The part of [udp_recv] after the scan. *)
Definition udp_tail (c : list Z) : list ritem :=
  match hdr_dec c with
  | Err _ => [Bad R_FMT None]
  | Ok (HCtl m) => [Good m]
  | Ok (HData n _ _ as h) | Ok (HMaint n as h) =>
      let b := from HDRLEN c in
      if zlen b <? n + 2 then [handle h [] false]
      else [handle h (upto n b) (crc16_good (upto (n + 2) b))]
  end.
Lemma udp_recv_at : forall d c, skipn (udp_scan 0 d (length d)) d = c -> c <> [] ->
  udp_recv d = if zlen c <? HDRLEN then [Bad R_HCRC None] else if negb (crc16_good (upto HDRLEN c)) then [Bad R_HCRC None] else udp_tail c.
Proof. intros d c <- N. unfold udp_recv, udp_tail. destruct (skipn (udp_scan 0 d (length d)) d); [contradiction|reflexivity]. Qed.
Lemma hdr_dec_prefix : forall w b, bytes_ok w -> length w = 8%nat -> hdr_dec (w ++ b) = hdr_dec w.
Proof.
  intros w b B L. destruct (len8 w L) as (a & b0 & c & d & e & f & c1 & c2 & ->).
  inversion_clear B as [|? ? Ba B1]. inversion_clear B1 as [|? ? Bb B2]. inversion_clear B2 as [|? ? Bc B3].
  inversion_clear B3 as [|? ? Bd B4]. inversion_clear B4 as [|? ? Be B5]. inversion_clear B5 as [|? ? Bf B6].
  cbn [app]. rewrite !hdr_dec_spec by auto. reflexivity.
Qed.
Lemma udp_tail_ah : forall w b, bytes_ok w -> length w = 8%nat ->
  udp_tail (w ++ b) = match hdr_dec w with Err _ => [Bad R_FMT None] | _ => fst (ah w b) end.
Proof.
  intros w b B L. unfold udp_tail, after_header. rewrite hdr_dec_prefix by auto.
  assert (F : from HDRLEN (w ++ b) = b) by (apply from_app_exact; unfold HDRLEN, zlen; lia). rewrite F.
  pose proof (count_pos w) as CP. destruct (hdr_dec w) as [h|e]; [|reflexivity]. specialize (CP h eq_refl B ltac:(lia)).
  assert (K : forall n h', 0 <= n -> (if zlen b <? n + 2 then [handle h' [] false] else [handle h' (upto n b) (crc16_good (upto (n + 2) b))]) =
    fst match read_list n b with
        | None => ([handle h' [] false], None)
        | Some (p, s) => match read_list 2 s with
            | None => ([handle h' [] false], None)
            | Some (pc, s) => ([handle h' p (crc16_good (p ++ pc))], Some s) end end).
  { intros n h' N. pose proof (read_list_spec n b N) as R. destruct (read_list n b) as [[p s]|].
    - destruct R as (-> & Lp). pose proof (read_list_spec 2 s ltac:(lia)) as R2. destruct (read_list 2 s) as [[pc s2]|].
      + destruct R2 as (-> & L2). rewrite !zlen_app. pose proof (zlen_nonneg _ s2). destruct (Z.ltb_spec (zlen p + (zlen pc + zlen s2)) (n + 2)); [lia|].
        rewrite (upto_app_exact _ p _ n) by lia. rewrite app_assoc, (upto_app_exact _ (p ++ pc) _ (n + 2)) by (rewrite zlen_app; lia). reflexivity.
      + rewrite zlen_app. destruct (Z.ltb_spec (zlen p + zlen s) (n + 2)); [reflexivity|lia].
    - destruct (Z.ltb_spec (zlen b) (n + 2)); [reflexivity|lia]. }
  destruct h as [m|n r k|n]; [reflexivity| |]; apply (K n _ CP).
Qed.
Theorem ddcmp_udp_receive : forall g m f rest, udp_fill g -> frame_fmt m f -> udp_recv (g ++ f ++ rest) = [Good m].
Proof.
  intros g m f rest G Ff. pose proof Ff as (_ & _ & _ & _ & Bf & _).
  destruct (frame_split m f Ff) as (w & body & -> & (L8 & (b & t & Ew & St) & Gd) & A).
  apply Forall_app in Bf. destruct Bf as (Bw & _).
  rewrite (udp_recv_at _ (w ++ body ++ rest)).
  - assert (L : zlen w = 8) by (unfold zlen; rewrite L8; reflexivity). pose proof (zlen_nonneg _ (body ++ rest)).
    rewrite zlen_app, L. destruct (Z.ltb_spec (8 + zlen (body ++ rest)) HDRLEN); [unfold HDRLEN in *; lia|].
    rewrite upto_app_exact by (unfold HDRLEN; lia). rewrite Gd. cbn [negb]. rewrite udp_tail_ah by auto. rewrite A.
    specialize (A []). unfold after_header in A. destruct (hdr_dec w); [reflexivity|discriminate A].
  - rewrite udp_scan_fill by auto. rewrite Ew. cbn [app udp_scan]. replace ((b =? SYN) || (b =? DEL)) with false by (unfold SYN, DEL; lia).
    replace (is_start b) with true by (symmetry; apply start_spec; auto). cbn [plus].
    rewrite skipn_app, skipn_all, Nat.sub_diag. cbn [skipn app]. rewrite <- app_assoc. reflexivity.
  - rewrite Ew. discriminate.
Qed.
Print Assumptions ddcmp_udp_receive.
Theorem ddcmp_udp_only_good : forall d m, bytes_ok d -> In (Good m) (udp_recv d) ->
  udp_recv d = [Good m] /\ exists g f rest, d = g ++ f ++ rest /\ udp_fill g /\ frame_fmt m f.
Proof.
  intros d m B H. destruct (skipn (udp_scan 0 d (length d)) d) as [|h c'] eqn:E.
  { unfold udp_recv in H. rewrite E in H. destruct H. }
  rewrite (udp_recv_at d _ E) in * by discriminate. set (c := h :: c') in *.
  destruct (Z.ltb_spec (zlen c) HDRLEN) as [S|S]; [destruct H as [H|H]; [discriminate H|destruct H]|].
  destruct (crc16_good (upto HDRLEN c)) eqn:Gd; cbn [negb] in *; [|destruct H as [H|H]; [discriminate H|destruct H]].
  set (w := upto HDRLEN c) in *. set (b := from HDRLEN c) in *. assert (Ec : c = w ++ b) by (symmetry; apply upto_from).
  assert (L8 : length w = 8%nat) by (unfold w, HDRLEN, upto; rewrite firstn_length; unfold HDRLEN, zlen in S; lia).
  assert (Ed : d = firstn (udp_scan 0 d (length d)) d ++ w ++ b) by (rewrite <- Ec, <- E; symmetry; apply firstn_skipn).
  assert (Bwb : bytes_ok (w ++ b)) by (rewrite Ed in B; apply Forall_app in B; tauto).
  assert (Bw : bytes_ok w) by (apply Forall_app in Bwb; tauto).
  assert (Fl : udp_fill (firstn (udp_scan 0 d (length d)) d) /\ is_start h = true).
  { destruct (udp_scan_spec d 0 (length d)) as [(g & x & t & Dg & G & St & K)|[K|(G & K)]].
    - rewrite K. cbn [plus]. rewrite K in E. cbn [plus] in E. rewrite Dg in E. rewrite skipn_app, skipn_all, Nat.sub_diag in E. cbn [skipn app] in E.
      injection E as <- _. split; auto. rewrite Dg, firstn_app, firstn_all, Nat.sub_diag. cbn [firstn]. rewrite app_nil_r. auto.
    - exfalso. rewrite K, skipn_all in E. discriminate E.
    - exfalso. assert (length (skipn (udp_scan 0 d (length d)) d) <= 1)%nat by (rewrite skipn_length, K; lia).
      rewrite E in H0. fold c in H0. rewrite Ec, app_length in H0. lia. }
  destruct Fl as (Fl & St).
  rewrite Ec in *. rewrite udp_tail_ah in * by auto.
  assert (V : valid_header w).
  { split; auto. split; auto. destruct w as [|x w']; [discriminate L8|]. assert (x = h) by (unfold c in Ec; cbn [app] in Ec; congruence). subst x.
    exists h, w'. split; auto. apply start_spec; auto. }
  pose proof (after_header_ok w b Bwb V) as A.
  destruct (hdr_dec w) as [hd|er] eqn:Hd; [|destruct H as [H|H]; [discriminate H|destruct H]].
  destruct (ah w b) as [it next] eqn:Ea. cbn [fst] in *.
  assert (One : exists x, it = [x] \/ it = []).
  { unfold after_header in Ea. rewrite Hd in Ea. destruct hd as [m0|n r k|n]; [injection Ea as <- _; eauto| |];
      (destruct (read_list n b) as [[p s1]|]; [destruct (read_list 2 s1) as [[pc s2]|]|]); apply (f_equal fst) in Ea; cbn [fst] in Ea; rewrite <- Ea; eexists; left; reflexivity. }
  destruct One as (x & [->| ->]); [|destruct H]. destruct H as [->|H]; [|destruct H]. split; [reflexivity|].
  cbn [goods] in A. destruct A as ((body & s' & Eb & _ & Fm) & _).
  exists (firstn (udp_scan 0 d (length d)) d), (w ++ body), s'. split; [rewrite Ed at 1; rewrite Eb, <- app_assoc; reflexivity|]. auto.
Qed.
Print Assumptions ddcmp_udp_only_good.
(** What is reported about a message that arrives damaged: 1 for a header whose
    CRC is wrong, 17 for a header that makes no sense although its CRC is right,
    2 with the acknowledgment it carries for data whose CRC is wrong. *)
Lemma udp_recv_start : forall g w b, udp_fill g -> (exists x t, w = x :: t /\ (x = 5 \/ x = 129 \/ x = 144)) ->
  skipn (udp_scan 0 (g ++ w ++ b) (length (g ++ w ++ b))) (g ++ w ++ b) = w ++ b.
Proof.
  intros g w b G (x & t & -> & St). rewrite udp_scan_fill by auto. cbn [app udp_scan].
  replace ((x =? SYN) || (x =? DEL)) with false by (unfold SYN, DEL; lia).
  replace (is_start x) with true by (symmetry; apply start_spec; auto). cbn [plus].
  rewrite skipn_app, skipn_all, Nat.sub_diag. reflexivity.
Qed.
Theorem ddcmp_udp_errors : forall g w b, udp_fill g -> bytes_ok w -> length w = 8%nat ->
  (exists x t, w = x :: t /\ (x = 5 \/ x = 129 \/ x = 144)) ->
  (crc16_good w = false -> udp_recv (g ++ w ++ b) = [Bad 1 None]) /\
  (crc16_good w = true -> (forall m f, frame_fmt m f -> firstn 2 f <> firstn 2 w) -> (exists t, w = 5 :: t) -> udp_recv (g ++ w ++ b) = [Bad 17 None]) /\
  (forall num resp lo hi f c1 c2 p q1 q2, w = [129; lo; hi; resp; num; f; c1; c2] -> b = p ++ [q1; q2] -> crc16_good w = true ->
     zlen p = lo + 256 * (hi mod 64) -> crc16_good b = false -> udp_recv (g ++ w ++ b) = [Bad 2 (Some resp)]).
Proof.
  intros g w b G Bw L8 St. assert (Nn : w ++ b <> []) by (destruct w; [discriminate L8|discriminate]).
  rewrite (udp_recv_at _ _ (udp_recv_start g w b G St) Nn).
  assert (L : zlen w = 8) by (unfold zlen; rewrite L8; reflexivity). pose proof (zlen_nonneg _ b) as Pb.
  rewrite zlen_app, L. destruct (Z.ltb_spec (8 + zlen b) HDRLEN) as [S|S]; [unfold HDRLEN in S; lia|]. clear S.
  rewrite upto_app_exact by (unfold HDRLEN; lia). split; [intros ->; reflexivity|].
  destruct (crc16_good w) eqn:Gd; cbn [negb]; [|split; [intros X; discriminate X|intros ? ? ? ? ? ? ? ? ? ? _ _ X; discriminate X]].
  rewrite udp_tail_ah by auto. split.
  - intros _ Nf (t0 & Ew).
    assert (V : valid_header w) by (split; auto).
    destruct (hdr_dec w) as [h|] eqn:E; [|reflexivity]. exfalso.
    pose proof (after_header_ok w [] ltac:(rewrite app_nil_r; auto) V) as A. unfold after_header in A. rewrite E in A.
    assert (exists m, h = HCtl m) as (m & ->).
    { destruct (len8 w L8) as (a1 & a2 & a3 & a4 & a5 & a6 & a7 & a8 & ->). injection Ew as -> _.
      inversion_clear Bw as [|? ? Ba B1]. inversion_clear B1 as [|? ? Bb B2]. inversion_clear B2 as [|? ? Bc B3].
      inversion_clear B3 as [|? ? Bd B4]. inversion_clear B4 as [|? ? Be B5]. inversion_clear B5 as [|? ? Bf B6].
      rewrite hdr_dec_spec in E by auto. unfold hdr_spec in E. cbn [Z.eqb Pos.eqb] in E.
      repeat match type of E with (if ?q then _ else _) = _ => destruct q end; try discriminate E; injection E as <-; eauto. }
    cbn [goods] in A. destruct A as ((body & s' & _ & _ & Fm) & _). apply (Nf m (w ++ body) Fm).
    destruct (len8 w L8) as (a1 & a2 & a3 & a4 & a5 & a6 & a7 & a8 & ->). reflexivity.
  - intros num resp lo hi f c1 c2 p q1 q2 -> -> _ Lp Bad2. unfold after_header.
    inversion_clear Bw as [|? ? Ba B1]. inversion_clear B1 as [|? ? Bb B2]. inversion_clear B2 as [|? ? Bc B3].
    inversion_clear B3 as [|? ? Bd B4]. inversion_clear B4 as [|? ? Be B5]. inversion_clear B5 as [|? ? Bf B6].
    rewrite hdr_dec_spec by auto. unfold hdr_spec. rewrite Z.eqb_refl, <- Lp, read_list_app.
    rewrite <- (app_nil_r [q1; q2]). change 2 with (zlen [q1; q2]) at 1. rewrite read_list_app. rewrite ?app_nil_r. rewrite Bad2. reflexivity.
Qed.
Print Assumptions ddcmp_udp_errors.
(** One of each: a type nobody defined, a damaged header, damaged data. *)
Example ddcmp_udp_errors_witness : exists c w p, crc16_of [5; 4; 0; 0; 0; 1] = Ok c /\ udp_recv (150 :: [5; 4; 0; 0; 0; 1] ++ c) = [Bad 17 None] /\
  frame_of (DataM 3 4 [9; 10]) = Ok (w ++ p) /\ length w = 8%nat /\ udp_recv (129 :: 2 :: 1 :: skipn 3 w ++ p) = [Bad 1 None] /\
  udp_recv (w ++ 8 :: tl p) = [Bad 2 (Some 3)].
Proof.
  eexists. exists (match frame_of (DataM 3 4 [9; 10]) with Ok f => firstn 8 f | _ => [] end), (match frame_of (DataM 3 4 [9; 10]) with Ok f => skipn 8 f | _ => [] end).
  split; [vm_compute; reflexivity|]. repeat split; vm_compute; reflexivity.
Qed.
(** A datagram holding only fill is reported as a header CRC error: the loop
    variable is left at the last index instead of the length. *)
Theorem ddcmp_udp_fill_refuted : udp_recv [150; 150; 255] = [Bad R_HCRC None].
Proof. reflexivity. Qed.

(** A data message, an ACK and a data message with fill bytes, in garbage. *)
Example ddcmp_frame_demo : msg_ok (DataM 3 4 [255; 129; 5]) /\ msg_ok (AckM 4) /\
  exists f1 f2, frame_of (DataM 3 4 [255; 129; 5]) = Ok f1 /\ frame_of (AckM 4) = Ok f2 /\
    receive ([1; 5; 2; 129; 7] ++ serial_out f1 ++ [144] ++ f2) = [Good (DataM 3 4 [255; 129; 5]); Bad R_HCRC None; Good (AckM 4)] /\
    telnet_receive 40 [escape f1 ++ [255]; [255; 5]; tl f2] = [Good (DataM 3 4 [255; 129; 5]); Good (AckM 4)].
Proof.
  split; [unfold msg_ok, byte_ok; repeat split; try lia; try reflexivity; repeat constructor; unfold byte_ok; lia|].
  split; [unfold msg_ok, byte_ok; lia|].
  eexists _, _. split; [vm_compute; reflexivity|]. split; [vm_compute; reflexivity|]. split; vm_compute; reflexivity.
Qed.
