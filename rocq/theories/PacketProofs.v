From Verif Require Import Base PacketModel PacketSpec.

(** *** EX *)
Lemma small_testbit : forall z b p, 0 <= z < 2 ^ b -> b <= p -> Z.testbit z p = false.
Proof.
  intros z b p Hz Hp. destruct (Z.eq_dec z 0) as [->|]; [apply Z.bits_0|].
  apply Z.bits_above_log2; [lia|].
  assert (0 <= b) by (destruct (Z.lt_ge_cases b 0); [rewrite Z.pow_neg_r in Hz; lia|lia]).
  apply Z.log2_lt_pow2; [lia|]. eapply Z.lt_le_trans; [apply Hz|apply Z.pow_le_mono_r; lia].
Qed.

Lemma shiftr7 : forall v, Z.shiftr v 7 = v / 128.
Proof. intros. rewrite Z.shiftr_div_pow2 by lia. reflexivity. Qed.

Lemma ex_byte : forall v, 0 <= v -> Z.lor (Z.land v 127) 128 = v mod 128 + 128.
Proof.
  intros v Hv. change 127 with (Z.ones 7). rewrite Z.land_ones by lia.
  change (2 ^ 7) with 128.
  assert (Z.land (v mod 128) 128 = 0).
  { apply Z.bits_inj'. intros n Hn. rewrite Z.land_spec, Z.bits_0.
    change 128 with (2 ^ 7). rewrite Z.pow2_bits_eqb by lia.
    destruct (Z.eqb_spec 7 n) as [<-|]; [|apply andb_false_r].
    rewrite Z.mod_pow2_bits_high by lia. auto. }
  rewrite <- Z.lxor_lor by auto. symmetry. apply Z.add_nocarry_lxor. auto.
Qed.

(** The wire form of EX: little endian groups of seven bits. *)
Inductive ex_repr : Z -> list Z -> Prop :=
| ex_last : forall v, 0 <= v < 128 -> ex_repr v [v]
| ex_more : forall v b r, 0 <= b < 128 -> 1 <= v -> ex_repr v r -> ex_repr (b + 128 * v) ((b + 128) :: r).

Lemma ex_repr_nonneg : forall v r, ex_repr v r -> 0 <= v.
Proof. induction 1; lia. Qed.

Lemma ex_loop_repr : forall f v, 0 <= v < 2 ^ Z.of_nat f ->
  exists r, ex_loop (S f) v = Ok r /\ ex_repr v r.
Proof.
  induction f as [|f IH]; intros v Hv.
  - cbn in Hv. assert (v = 0) by lia. subst. exists [0]. cbn. split; auto. constructor. lia.
  - cbn [ex_loop]. rewrite shiftr7. destruct (Z.eqb_spec (v / 128) 0) as [E|E].
    + exists [v]. split; auto. constructor. lia.
    + destruct (IH (v / 128)) as (r & H1 & H2).
      { rewrite Nat2Z.inj_succ, Z.pow_succ_r in Hv by lia. lia. }
      cbn [ex_loop] in H1. rewrite shiftr7 in H1 |- *. rewrite H1. cbn [bind].
      eexists. split; [reflexivity|]. rewrite ex_byte by lia.
      replace v with (v mod 128 + 128 * (v / 128)) at 1 by lia.
      constructor; auto; lia.
Qed.

Lemma ex_fuel_ok : forall v, 0 <= v -> v < 2 ^ Z.of_nat (Z.to_nat (Z.log2_up (v + 1))).
Proof.
  intros v Hv. pose proof (Z.log2_up_nonneg (v + 1)). rewrite Z2Nat.id by lia.
  destruct (Z.eq_dec v 0) as [->|]; [reflexivity|].
  pose proof (Z.log2_up_spec (v + 1)). lia.
Qed.

Lemma ex_loop_ok : forall v, 0 <= v -> exists r, ex_loop (ex_fuel v) v = Ok r /\ ex_repr v r.
Proof.
  intros. unfold ex_fuel. apply ex_loop_repr. split; auto. apply ex_fuel_ok. auto.
Qed.

Lemma ex_repr_len : forall v r, ex_repr v r -> zlen r = ex_size v.
Proof.
  unfold ex_size. induction 1.
  - unfold zlen. cbn [length]. destruct (Z.eq_dec v 0) as [->|]; [reflexivity|].
    pose proof (Z.log2_nonneg v).
    assert (Z.log2 v < 7) by (apply Z.log2_lt_pow2; [lia|]; change (2 ^ 7) with 128; lia). lia.
  - rewrite zlen_cons, IHex_repr.
    assert (Z.log2 (b + 128 * v) = 7 + Z.log2 v).
    { apply Z.log2_unique.
      - pose proof (Z.log2_nonneg v). lia.
      - pose proof (Z.log2_nonneg v). pose proof (Z.log2_spec v ltac:(lia)).
        replace (Z.succ (7 + Z.log2 v)) with (7 + Z.succ (Z.log2 v)) by lia.
        rewrite !Z.pow_add_r by lia. change (2 ^ 7) with 128. lia. }
    rewrite H2. lia.
Qed.

Lemma ex_repr_bytes : forall v r, ex_repr v r -> bytes_ok r.
Proof. induction 1; constructor; unfold byte_ok; try lia; auto. Qed.

Lemma ex_repr_cons : forall v r, ex_repr v r -> r <> [].
Proof. induction 1; discriminate. Qed.

Lemma ex_dec_loop_repr : forall v r, ex_repr v r -> forall left sh acc rest,
  (length r <= left)%nat -> 0 <= sh -> 0 <= acc < 2 ^ sh ->
  ex_dec_loop left sh acc (r ++ rest) = Ok (acc + v * 2 ^ sh, rest).
Proof.
  assert (L : forall acc x sh, 0 <= sh -> 0 <= acc < 2 ^ sh -> 0 <= x ->
              Z.lor acc (Z.shiftl x sh) = acc + x * 2 ^ sh).
  { intros acc x sh Hs Ha Hx. rewrite Z.shiftl_mul_pow2 by lia.
    assert (Z.land acc (x * 2 ^ sh) = 0).
    { apply Z.bits_inj'. intros n Hn. rewrite Z.land_spec, Z.bits_0.
      destruct (Z.lt_ge_cases n sh).
      - rewrite Z.mul_pow2_bits_low by lia. apply andb_false_r.
      - rewrite (small_testbit acc sh n) by lia. auto. }
    rewrite <- Z.lxor_lor by auto. symmetry. apply Z.add_nocarry_lxor. auto. }
  induction 1; intros left sh acc rest Hl Hs Ha; (destruct left as [|left]; [cbn in Hl; lia|]).
  - cbn [app ex_dec_loop]. destruct (Z.ltb_spec v 128); [|lia].
    change 127 with (Z.ones 7). rewrite Z.land_ones by lia.
    rewrite Z.mod_small by (change (2 ^ 7) with 128; lia). rewrite L by lia. auto.
  - cbn [app ex_dec_loop]. destruct (Z.ltb_spec (b + 128) 128); [lia|].
    change 127 with (Z.ones 7). rewrite Z.land_ones by lia. change (2 ^ 7) with 128.
    replace ((b + 128) mod 128) with b by lia. rewrite L by lia.
    cbn [length] in Hl. destruct left as [|left].
    { pose proof (ex_repr_cons _ _ H1). destruct r; [congruence|cbn in Hl; lia]. }
    rewrite IHex_repr; [|lia|lia|].
    + rewrite Z.pow_add_r by lia. change (2 ^ 7) with 128. f_equal. f_equal. lia.
    + rewrite Z.pow_add_r by lia. change (2 ^ 7) with 128. nia.
Qed.

Lemma ex_size_bound : forall v m, 0 <= v -> 1 <= m -> (ex_size v <= m <-> v < 2 ^ (7 * m)).
Proof.
  intros v m Hv Hm. unfold ex_size. destruct (Z.eq_dec v 0) as [->|].
  - change (Z.log2 0) with 0. split; intros; [apply Z.pow_pos_nonneg; lia|]. change (0 / 7) with 0. lia.
  - rewrite Z.log2_lt_pow2 by lia. pose proof (Z.log2_nonneg v). lia.
Qed.

Lemma ex_enc_dec : forall m v rest, (1 <= m)%nat -> 0 <= v < 2 ^ (7 * Z.of_nat m) ->
  exists r, ex_enc m v = Ok r /\ ex_repr v r /\ ex_dec m (r ++ rest) = Ok (v, rest).
Proof.
  intros m v rest Hm Hv. destruct (ex_loop_ok v ltac:(lia)) as (r & E & R).
  pose proof (ex_repr_len _ _ R) as LR.
  assert (ex_size v <= Z.of_nat m) by (apply ex_size_bound; lia).
  exists r. unfold ex_enc. rewrite E. cbn [bind]. destruct (Z.ltb_spec (Z.of_nat m) (zlen r)); [lia|].
  split; auto. split; auto. unfold ex_dec. destruct m as [|m]; [lia|].
  rewrite (ex_dec_loop_repr v r R) by (try lia; unfold zlen in *; lia).
  f_equal. f_equal. change (2 ^ 0) with 1. lia.
Qed.

(** *** Fixed size and counted fields *)
Lemma fixed_dec_ok : forall n b rest, length b = n -> fixed_dec n (b ++ rest) = Ok (b, rest).
Proof.
  intros n b rest <-. unfold fixed_dec, require.
  rewrite zlen_app. fold (zlen b). pose proof (zlen_nonneg _ rest).
  destruct (Z.ltb_spec (zlen b + zlen rest) (zlen b)); [lia|]. cbn [bind].
  rewrite upto_app_exact, from_app_exact by reflexivity. auto.
Qed.

Lemma image_enc_dec : forall m l rest, zlen l <= m -> zlen l <= 255 ->
  image_enc m l = Ok (zlen l :: l) /\ image_dec m ((zlen l :: l) ++ rest) = Ok (l, rest).
Proof.
  intros m l rest H1 H2. unfold image_enc, image_dec.
  destruct (Z.ltb_spec m (zlen l)); [lia|]. destruct (Z.ltb_spec 255 (zlen l)); [lia|].
  split; auto. cbn [app]. destruct (Z.ltb_spec m (zlen l)); [lia|].
  rewrite upto_app_exact, from_app_exact by reflexivity. rewrite Z.eqb_refl. auto.
Qed.

Lemma bytes_okb : forall l, bytes_ok l -> forallb byte_okb l = true.
Proof.
  intros. apply forallb_forall. intros x Hx. unfold bytes_ok in H. rewrite Forall_forall in H.
  specialize (H x Hx). unfold byte_ok, byte_okb in *. lia.
Qed.

Lemma pow_256_2 : forall n, 256 ^ Z.of_nat n = 2 ^ (8 * Z.of_nat n).
Proof. intros. rewrite Z.pow_mul_r by lia. reflexivity. Qed.

Lemma signed_round : forall n v, (1 <= n)%nat ->
  - 2 ^ (8 * Z.of_nat n - 1) <= v < 2 ^ (8 * Z.of_nat n - 1) ->
  signed_enc n v = Ok (le_enc n (v mod 256 ^ Z.of_nat n)) /\
  le_dec_signed n (le_enc n (v mod 256 ^ Z.of_nat n)) = v.
Proof.
  intros n v Hn Hv.
  assert (E : 256 ^ Z.of_nat n = 2 * 2 ^ (8 * Z.of_nat n - 1)).
  { rewrite pow_256_2, <- Z.pow_succ_r by lia. f_equal. lia. }
  unfold signed_enc, le_dec_signed. set (h := 2 ^ (8 * Z.of_nat n - 1)) in *.
  assert (0 < h) by (apply Z.pow_pos_nonneg; lia).
  destruct (Z.leb_spec (- h) v); [|lia]. destruct (Z.ltb_spec v h); [|lia]. cbn [andb].
  split; auto. rewrite le_dec_enc by (apply Z.mod_pos_bound; lia). rewrite E.
  destruct (Z.lt_ge_cases v 0).
  - assert (M : v mod (2 * h) = v + 2 * h).
    { symmetry. apply Z.mod_unique with (-1); lia. }
    rewrite M. destruct (Z.ltb_spec (v + 2 * h) h); lia.
  - rewrite Z.mod_small by lia. destruct (Z.ltb_spec v h); lia.
Qed.

(** *** Bit maps *)
Definition in_el (e : bme) (p : Z) : Prop := be_start e <= p < be_start e + be_bits e.

Lemma testbit_small : forall F n, 0 <= n -> 0 <= F ->
  (forall p, n <= p -> Z.testbit F p = false) -> F < 2 ^ n.
Proof.
  intros F n Hn HF H. destruct (Z.eq_dec F 0) as [->|]; [apply Z.pow_pos_nonneg; lia|].
  apply Z.log2_lt_pow2; [lia|]. destruct (Z.lt_ge_cases (Z.log2 F) n); auto.
  exfalso. specialize (H (Z.log2 F) H0). rewrite Z.bit_log2 in H by lia. discriminate.
Qed.

Lemma bm_fold_spec : forall flen els a f,
  bm_wf flen els ->
  Forall (fun e => exists z, getattr a (be_name e) (be_const e) = Some (VInt z) /\
                             0 <= z < 2 ^ be_bits e) els ->
  0 <= f ->
  exists F, bm_fold els a f = Ok F /\ 0 <= F /\
    (forall p, 0 <= p -> (forall e, In e els -> ~ in_el e p) -> Z.testbit F p = Z.testbit f p) /\
    (forall e z, In e els -> getattr a (be_name e) (be_const e) = Some (VInt z) ->
       forall p, in_el e p -> Z.testbit f p = false -> Z.testbit F p = Z.testbit z (p - be_start e)).
Proof.
  induction els as [|e els IH]; intros a f W V Hf.
  - exists f. cbn. repeat split; auto; tauto.
  - cbn [bm_wf] in W. destruct W as (W1 & W2 & W3 & W4 & W5).
    inversion V as [|? ? (z & G & Z1) V']; subst. cbn [bm_fold]. rewrite G.
    rewrite Z.shiftr_div_pow2 by lia. rewrite Z.div_small by lia. cbn [Z.eqb negb].
    assert (Hf' : 0 <= Z.lor f (Z.shiftl z (be_start e))).
    { apply Z.lor_nonneg. split; auto. apply Z.shiftl_nonneg. lia. }
    destruct (IH a _ W5 V' Hf') as (F & E & F0 & F1 & F2). exists F. split; auto. split; auto.
    assert (SB : forall p, ~ in_el e p -> 0 <= p -> Z.testbit (Z.shiftl z (be_start e)) p = false).
    { intros p Hp Hp0. unfold in_el in Hp. rewrite Z.shiftl_spec by lia.
      destruct (Z.lt_ge_cases p (be_start e)); [apply Z.testbit_neg_r; lia|].
      apply small_testbit with (be_bits e); lia. }
    split.
    + intros p Hp H. rewrite F1; [|auto|intros; apply H; cbn; auto].
      rewrite Z.lor_spec, SB; [apply orb_false_r| |auto]. apply H. cbn. auto.
    + intros e' z' [<-|Hin] G' p Hp Hb.
      * assert (z' = z) by congruence. subst z'.
        rewrite F1.
        -- rewrite Z.lor_spec, Hb, Z.shiftl_spec by (unfold in_el in Hp; lia). auto.
        -- unfold in_el in Hp. lia.
        -- intros e' He' Hp'. specialize (W4 e' He'). unfold bme_disj, in_el in *. lia.
      * apply F2; auto. rewrite Z.lor_spec, Hb. cbn. apply SB.
        -- specialize (W4 e' Hin). unfold bme_disj, in_el in *. lia.
        -- assert (0 <= be_start e').
           { clear - W5 Hin. induction els; [contradiction|]. cbn [bm_wf] in W5. destruct Hin as [<-|]; tauto. }
           unfold in_el in Hp. lia.
Qed.

Lemma bm_wf_start : forall flen els e, bm_wf flen els -> In e els ->
  0 <= be_start e /\ 1 <= be_bits e /\ be_start e + be_bits e <= 8 * Z.of_nat flen.
Proof.
  induction els; intros e W H; [contradiction|]. cbn [bm_wf] in W. destruct H as [<-|]; [tauto|].
  apply IHels; tauto.
Qed.

Lemma bm_fold_ok : forall flen els a,
  bm_wf flen els ->
  Forall (fun e => exists z, getattr a (be_name e) (be_const e) = Some (VInt z) /\
                             0 <= z < 2 ^ be_bits e) els ->
  exists F, bm_fold els a 0 = Ok F /\ 0 <= F < 256 ^ Z.of_nat flen /\
    forall e z, In e els -> getattr a (be_name e) (be_const e) = Some (VInt z) ->
       Z.land (Z.shiftr F (be_start e)) (Z.ones (be_bits e)) = z.
Proof.
  intros flen els a W V.
  destruct (bm_fold_spec flen els a 0 W V ltac:(lia)) as (F & E & F0 & F1 & F2).
  exists F. split; auto. split.
  - split; auto. rewrite pow_256_2. apply testbit_small; [lia|auto|].
    intros p Hp. rewrite F1; [apply Z.bits_0|lia|].
    intros e He. pose proof (bm_wf_start _ _ _ W He). unfold in_el. lia.
  - intros e z He G. pose proof (bm_wf_start _ _ _ W He) as (B1 & B2 & B3).
    rewrite Forall_forall in V. destruct (V e He) as (z' & G' & Hz).
    assert (z' = z) by congruence. subst z'.
    apply Z.bits_inj'. intros n Hn. rewrite Z.land_spec, Z.shiftr_spec by lia.
    destruct (Z.lt_ge_cases n (be_bits e)).
    + rewrite Z.ones_spec_low by lia. rewrite andb_true_r.
      rewrite (F2 e z He G); [f_equal; lia|unfold in_el; lia|apply Z.bits_0].
    + rewrite Z.ones_spec_high by lia. rewrite andb_false_r. symmetry.
      apply small_testbit with (be_bits e); lia.
Qed.

(** *** Attributes *)
Lemma name_eqb_spec : forall a b, reflect (a = b) (name_eqb a b).
Proof.
  intros [x|x] [y|y]; cbn; try (constructor; congruence);
  destruct (Z.eqb_spec x y); constructor; congruence.
Qed.

Lemma val_eqb_refl : forall v, match v with VList _ | VPkt _ => False | _ => True end ->
  val_eqb v v = true.
Proof.
  destruct v; cbn; intros; try tauto; try apply Z.eqb_refl; apply leqb_eq; auto.
Qed.

Lemma setattr_ok : forall a n c v, const_flat c ->
  (match c with CNone => True | CRo k | CAny k => v = k end) ->
  exists a', setattr a n c v = Ok a' /\
    (c = CNone -> get a' n = Some v) /\
    (forall m, ~ In m (name_of n c) -> get a' m = get a m).
Proof.
  intros a n c v F E. destruct c; cbn in *.
  - exists ((n, v) :: a). split; auto. split.
    + intros _. cbn. destruct (name_eqb_spec n n); congruence.
    + intros m H. cbn. destruct (name_eqb_spec n m); auto. tauto.
  - subst. rewrite val_eqb_refl by auto. exists a. repeat split; auto; discriminate.
  - exists a. repeat split; auto; discriminate.
Qed.

Lemma bm_unpack_ok : forall els a a0 F,
  Forall (fun e => const_flat (be_const e)) els ->
  NoDup (flat_map (fun e => name_of (be_name e) (be_const e)) els) ->
  (forall e, In e els -> getattr a (be_name e) (be_const e) =
     Some (VInt (Z.land (Z.shiftr F (be_start e)) (Z.ones (be_bits e))))) ->
  exists a', bm_unpack els F a0 = Ok a' /\
    (forall e, In e els -> be_const e = CNone -> get a' (be_name e) = get a (be_name e)) /\
    (forall m, ~ In m (flat_map (fun e => name_of (be_name e) (be_const e)) els) -> get a' m = get a0 m).
Proof.
  induction els as [|e els IH]; intros a a0 F C N V.
  - exists a0. cbn. repeat split; auto; tauto.
  - inversion C; subst. cbn [flat_map] in N. cbn [bm_unpack].
    destruct (setattr_ok a0 (be_name e) (be_const e)
      (VInt (Z.land (Z.shiftr F (be_start e)) (Z.ones (be_bits e))))) as (a1 & E1 & G1 & K1); auto.
    { specialize (V e (or_introl eq_refl)). destruct (be_const e); cbn [getattr] in V; auto; congruence. }
    rewrite E1. cbn [bind].
    apply NoDup_app_inv in N as N''; destruct N'' as (_ & N' & ND).
    destruct (IH a a1 F H2 N') as (a2 & E2 & G2 & K2); [intros; apply V; cbn; auto|].
    exists a2. split; auto. split.
    + intros e' [<-|He] Hc; auto. rewrite K2.
      * rewrite G1 by auto. specialize (V e (or_introl eq_refl)). rewrite Hc in V. cbn [getattr] in V. congruence.
      * apply ND. rewrite Hc. cbn. auto.
    + intros m Hm. cbn [flat_map] in Hm. rewrite in_app_iff in Hm. rewrite K2, K1; tauto.
Qed.
