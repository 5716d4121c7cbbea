(** Properties C09 (management counters) and C51: NICE coding. *)
From Verif Require Import Base PacketModel PacketSpec PacketProofs NiceModel.

(** *** Specification: in-range values and what arrives. *)
Definition int_ok (k : ikind) (n z : Z) : Prop :=
  1 <= n <= (match k with KC => 31 | _ => 15 end) /\
  (match k with KDS => - 2 ^ (8 * n - 1) <= z < 2 ^ (8 * n - 1)
           | _ => 0 <= z < 2 ^ (8 * n) end).
Definition flat_ok (v : nval) : Prop :=
  match v with
  | NInt k n z => int_ok k n z
  | NAI l | NHI l => bytes_ok l /\ zlen l <= 255
  | NCM _ => False
  end.
Definition nval_ok (v : nval) : Prop :=
  match v with
  | NCM l => Forall flat_ok l /\ 1 <= zlen l <= 31
  | _ => flat_ok v
  end.
(** Parameter numbers are 12 bits, counters 1, 2 or 4 bytes with any
    non-negative value, counter bit maps 16 bits. *)
Definition item_ok (i : item) : Prop :=
  match i with
  | IPar p v => 0 <= p < 4096 /\ nval_ok v
  | ICtr p n v => 0 <= p < 4096 /\ (n = 1 \/ n = 2 \/ n = 4) /\ 0 <= v
  | ICtm p n m v => 0 <= p < 4096 /\ (n = 1 \/ n = 2 \/ n = 4) /\ 0 <= v /\ 0 <= m < 65536
  end.
(** What the receiver gets: the same, with counters saturated. *)
Definition received (i : item) : item :=
  match i with
  | IPar p v => IPar p v
  | ICtr p n v => ICtr p n (Z.min v (2 ^ (8 * n) - 1))
  | ICtm p n m v => ICtm p n m (Z.min v (2 ^ (8 * n) - 1))
  end.

(** *** Proofs *)
Lemma int_round : forall k n z rest, int_ok k n z ->
  exists b, int_enc k n z = Ok b /\ bytes_ok b /\ zlen b = n /\
    int_dec k n (b ++ rest) = Ok (z, rest).
Proof.
  intros k n z rest [Hn Hz].
  assert (N : Z.of_nat (Z.to_nat n) = n) by (rewrite Z2Nat.id; destruct k; lia).
  unfold int_enc, int_dec.
  assert (G : exists b, (if isigned k then signed_enc (Z.to_nat n) z else to_bytes (Z.to_nat n) z) = Ok b /\
     bytes_ok b /\ zlen b = n /\
     (if isigned k then le_dec_signed (Z.to_nat n) b else le_dec b) = z).
  { destruct k; cbn [isigned].
    2:{ destruct (signed_round (Z.to_nat n) z) as [E D]; [lia|rewrite N; lia|].
        rewrite E. eexists. repeat split; [apply le_enc_bytes| |exact D]. rewrite zlen_le_enc. lia. }
    all: rewrite to_bytes_ok by (rewrite pow_256_2, N; lia).
    all: eexists; repeat split; [apply le_enc_bytes|rewrite zlen_le_enc; lia|].
    all: apply le_dec_enc; rewrite pow_256_2, N; lia. }
  destruct G as (b & E & B & L & D). exists b. repeat split; auto.
  rewrite upto_app_exact, from_app_exact by auto. rewrite L, Z.ltb_irrefl, D. reflexivity.
Qed.

Lemma img_round : forall l rest, img_dec (zlen l :: l ++ rest) = Ok (l, rest).
Proof.
  intros. unfold img_dec. rewrite zlen_cons, zlen_app.
  pose proof (zlen_nonneg _ rest). pose proof (zlen_nonneg _ l).
  destruct (Z.ltb_spec (1 + (zlen l + zlen rest)) (zlen l + 1)); [lia|].
  rewrite upto_app_exact, from_app_exact by reflexivity. reflexivity.
Qed.

Lemma pybyte_ok : forall x, 0 <= x < 256 -> pybyte x = Ok [x].
Proof. intros. unfold pybyte, byte_okb. replace ((0 <=? x) && (x <? 256)) with true by lia. reflexivity. Qed.

(** Type codes lead back to the class; finite. *)
Definition kinds := [KDU; KDS; KH; KO; KC].
Lemma find_int : forall k n, 1 <= n <= (match k with KC => 31 | _ => 15 end) ->
  find_class (ibase k + n) = Ok (CInt k n).
Proof.
  intros k n H.
  assert (A : forall m, (m <= 31)%nat -> (1 <= m)%nat -> (Z.of_nat m <= match k with KC => 31 | _ => 15 end) ->
            find_class (ibase k + Z.of_nat m) = Ok (CInt k (Z.of_nat m))).
  { intros m H1 H2 H3. do 32 (destruct m as [|m]; [destruct k; solve [reflexivity|lia]|]). lia. }
  specialize (A (Z.to_nat n)). rewrite Z2Nat.id in A by lia. apply A; destruct k; lia.
Qed.
Lemma find_cm : forall n, 1 <= n <= 31 -> find_class (192 + n) = Ok (CCM n).
Proof.
  intros n H.
  assert (A : forall m, (m <= 31)%nat -> (1 <= m)%nat ->
            find_class (192 + Z.of_nat m) = Ok (CCM (Z.of_nat m))).
  { intros m H1 H2. do 32 (destruct m as [|m]; [solve [reflexivity|lia]|]). lia. }
  specialize (A (Z.to_nat n)). rewrite Z2Nat.id in A by lia. apply A; lia.
Qed.

Lemma flat_round : forall v rest, flat_ok v ->
  exists code c b, nv_enc v = Ok (code :: b) /\ 0 <= code < 256 /\ Z.land code 32768 = 0 /\ bytes_ok b /\
    1 <= zlen b /\
    find_class code = Ok c /\ (forall n, c <> CCM n /\ c <> CCtr n /\ c <> CCtm n) /\
    flat_dec c (b ++ rest) = Ok (v, rest).
Proof.
  intros v rest H. destruct v as [k n z|l|l|l]; cbn [flat_ok] in H; try contradiction.
  - destruct (int_round k n z rest H) as (b & E & B & L & D). destruct H as [Hn Hz].
    assert (R : 0 <= ibase k + n < 256) by (destruct k; cbn [ibase]; lia).
    exists (ibase k + n), (CInt k n), b. cbn [nv_enc]. rewrite pybyte_ok by auto. cbn [bind]. rewrite E.
    cbn [bind app]. split; [auto|]. split; [auto|]. split.
    { assert (Z.land (ibase k + n) 32768 = 0); auto. apply Z.bits_inj'. intros p Hp.
      rewrite Z.land_spec, Z.bits_0. change 32768 with (2 ^ 15). rewrite Z.pow2_bits_eqb by lia.
      destruct (Z.eqb_spec 15 p) as [<-|]; [|apply andb_false_r].
      rewrite (small_testbit _ 8) by lia. reflexivity. }
    split; [auto|]. split; [lia|].
    split; [apply find_int; destruct k; lia|]. split; [intros; repeat split; discriminate|].
    cbn [flat_dec]. rewrite D. reflexivity.
  - destruct H as [B L]. exists 64, CAI, (zlen l :: l). pose proof (zlen_nonneg _ l).
    cbn [nv_enc]. rewrite bytes_okb by auto. rewrite pybyte_ok by lia. cbn [bind app].
    split; [auto|]. split; [lia|]. split; [reflexivity|].
    split; [constructor; [unfold byte_ok; lia|auto]|]. split; [rewrite zlen_cons; lia|].
    split; [reflexivity|]. split; [intros; repeat split; discriminate|].
    cbn [flat_dec]. rewrite img_round. reflexivity.
  - destruct H as [B L]. exists 32, CHI, (zlen l :: l). pose proof (zlen_nonneg _ l).
    cbn [nv_enc]. rewrite pybyte_ok by lia. cbn [bind app].
    split; [auto|]. split; [lia|]. split; [reflexivity|].
    split; [constructor; [unfold byte_ok; lia|auto]|]. split; [rewrite zlen_cons; lia|].
    split; [reflexivity|]. split; [intros; repeat split; discriminate|].
    cbn [flat_dec]. rewrite img_round. reflexivity.
Qed.

Definition cm_enc := fix go (l : list nval) : res (list Z) :=
  match l with
  | [] => Ok []
  | x :: t => let* b := nv_enc x in let* r := go t in Ok (b ++ r)
  end.
Lemma cm_round : forall l rest, Forall flat_ok l ->
  exists b, cm_enc l = Ok b /\ bytes_ok b /\ cm_dec (length l) (b ++ rest) = Ok (l, rest) /\
    (1 <= zlen l -> 1 <= zlen b).
Proof.
  induction l as [|v l IH]; intros rest H.
  - exists []. cbn. repeat split; auto. constructor.
  - inversion H as [|? ? H1 H2]; subst.
    destruct (IH rest H2) as (b2 & E2 & B2 & D2 & _).
    destruct (flat_round v (b2 ++ rest) H1) as (code & c & b & E & C & _ & B & L1 & F & _ & D).
    exists ((code :: b) ++ b2). cbn [cm_enc]. fold cm_enc. rewrite E. cbn [bind]. rewrite E2. cbn [bind].
    split; [reflexivity|]. split.
    { apply bytes_ok_app. split; auto. constructor; auto. }
    split.
    + rewrite <- app_assoc. cbn [cm_dec length app]. rewrite F. cbn [bind]. rewrite D. cbn [bind].
      rewrite D2. reflexivity.
    + intros _. cbn [app]. rewrite zlen_cons, zlen_app. pose proof (zlen_nonneg _ b). pose proof (zlen_nonneg _ b2). lia.
Qed.

(** One encoded parameter, after its number. *)
Lemma nval_round : forall v rest, nval_ok v ->
  exists code c b, nv_enc v = Ok (code :: b) /\ 0 <= code < 256 /\ bytes_ok b /\
    find_class code = Ok c /\ forall p, item_dec c p (b ++ rest) = Ok (IPar p v, rest).
Proof.
  intros v rest H. destruct v as [k n z|l|l|l].
  1-3: destruct (flat_round _ rest H) as (code & c & b & E & C & _ & B & _ & F & X & D);
    exists code, c, b; repeat split; auto; try lia;
    intros p; specialize (X); destruct c; cbn [item_dec];
    try (rewrite D; reflexivity); exfalso; destruct (X n0) as (X1 & X2 & X3) || destruct (X n) as (X1 & X2 & X3); congruence.
  cbn [nval_ok] in H. destruct H as [H L]. destruct (cm_round l rest H) as (b & E & B & D & _).
  exists (192 + zlen l), (CCM (zlen l)), b. cbn [nv_enc]. fold cm_enc. rewrite E. cbn [bind].
  rewrite pybyte_ok by lia. cbn [bind app]. split; [auto|]. split; [lia|]. split; [auto|].
  split; [apply find_cm; lia|]. intros p. cbn [item_dec]. unfold zlen at 1. rewrite Nat2Z.id.
  rewrite D. reflexivity.
Qed.

Lemma land_mask12 : forall p, 0 <= p < 4096 -> Z.land p 4095 = p.
Proof. intros. change 4095 with (Z.ones 12). rewrite Z.land_ones by lia. apply Z.mod_small. apply H. Qed.
Lemma land_high : forall p c, 0 <= p < 4096 -> 0 <= c ->
  Z.land p (c * 4096) = 0.
Proof.
  intros p c Hp Hc. change 4096 with (2 ^ 12). rewrite <- Z.shiftl_mul_pow2 by lia.
  apply Z.bits_inj'. intros n Hn. rewrite Z.land_spec, Z.bits_0, Z.shiftl_spec by lia.
  destruct (Z.lt_ge_cases n 12).
  - rewrite (Z.testbit_neg_r c) by lia. apply andb_false_r.
  - rewrite (small_testbit p 12) by (change (2 ^ 12) with 4096; lia). reflexivity.
Qed.
Lemma lor_code : forall p c, 0 <= p < 4096 -> 0 <= c -> Z.lor p (c * 4096) = p + c * 4096.
Proof.
  intros p c Hp Hc. pose proof (land_high p c Hp Hc) as L.
  rewrite <- Z.lxor_lor, <- Z.add_nocarry_lxor by auto. reflexivity.
Qed.

Lemma upto2 : forall (x y : Z) l, upto 2 (x :: y :: l) = [x; y].
Proof. reflexivity. Qed.
Lemma from2 : forall (x y : Z) l, from 2 (x :: y :: l) = l.
Proof. reflexivity. Qed.
Lemma le2 : forall v, 0 <= v < 65536 -> exists x y, le_enc 2 v = [x; y] /\ le_dec [x; y] = v /\ 0 <= x < 256 /\ 0 <= y < 256.
Proof. intros. cbn [le_enc le_dec]. do 2 eexists. split; [reflexivity|]. lia. Qed.

Lemma pnum_round_par : forall p x y code c t, le_dec [x; y] = p -> 0 <= p < 4096 ->
  find_class code = Ok c -> pnum_dec (x :: y :: code :: t) = Ok (p, c, t).
Proof.
  intros p x y code c t E Hp F. unfold pnum_dec. rewrite upto2, from2, E.
  replace 32768 with (8 * 4096) by reflexivity. rewrite land_high by lia.
  cbn [Z.eqb negb bind]. rewrite F. cbn [bind]. rewrite land_mask12 by lia. reflexivity.
Qed.
Lemma pnum_round_ctr : forall p x y k c t, 0 <= p < 4096 -> 8 <= k < 16 ->
  le_dec [x; y] = p + k * 4096 ->
  find_class (k * 4096) = Ok c -> pnum_dec (x :: y :: t) = Ok (p, c, t).
Proof.
  intros p x y k c t Hp Hk E F. unfold pnum_dec. rewrite upto2, from2, E.
  assert (B : forall n, 0 <= n -> Z.testbit (p + k * 4096) n =
                 if n <? 12 then Z.testbit p n else Z.testbit k (n - 12)).
  { intros n Hn. rewrite <- lor_code by lia. change 4096 with (2 ^ 12).
    rewrite <- Z.shiftl_mul_pow2, Z.lor_spec, Z.shiftl_spec by lia.
    destruct (Z.ltb_spec n 12).
    - rewrite (Z.testbit_neg_r k) by lia. apply orb_false_r.
    - rewrite (small_testbit p 12) by (change (2 ^ 12) with 4096; lia). reflexivity. }
  assert (K3 : Z.testbit k 3 = true).
  { assert (k = 8 \/ k = 9 \/ k = 10 \/ k = 11 \/ k = 12 \/ k = 13 \/ k = 14 \/ k = 15) as X by lia.
    repeat destruct X as [->|X]; subst; reflexivity. }
  assert (N : Z.land (p + k * 4096) 32768 <> 0).
  { intro Z0. assert (Z.testbit (Z.land (p + k * 4096) 32768) 15 = false) by (rewrite Z0; apply Z.bits_0).
    rewrite Z.land_spec, B in H by lia. cbn [Z.ltb] in H. change (15 - 12) with 3 in H.
    change (15 <? 12) with false in H. cbn [negb] in H. rewrite K3 in H. discriminate. }
  apply Z.eqb_neq in N. rewrite N. cbn [negb bind].
  assert (M : Z.land (p + k * 4096) 61440 = k * 4096).
  { apply Z.bits_inj'. intros n Hn. rewrite Z.land_spec, B by lia.
    change 61440 with (Z.shiftl (Z.ones 4) 12). change 4096 with (2 ^ 12).
    rewrite <- Z.shiftl_mul_pow2, !Z.shiftl_spec by lia.
    destruct (Z.ltb_spec n 12).
    - rewrite !(Z.testbit_neg_r _ (n - 12)) by lia. apply andb_false_r.
    - destruct (Z.lt_ge_cases (n - 12) 4).
      + rewrite Z.ones_spec_low by lia. apply andb_true_r.
      + rewrite (small_testbit k 4) by (change (2 ^ 4) with 16; lia). reflexivity. }
  rewrite M, F. cbn [bind].
  assert (Q : Z.land (p + k * 4096) 4095 = p).
  { change 4095 with (Z.ones 12). rewrite Z.land_ones by lia. change (2 ^ 12) with 4096.
    rewrite Z.mod_add by lia. apply Z.mod_small. lia. }
  rewrite Q. reflexivity.
Qed.

Lemma ctr_cases : forall n, n = 1 \/ n = 2 \/ n = 4 ->
  exists k, 8 <= k < 16 /\ ctr_code n = k * 4096 /\ find_class (k * 4096) = Ok (CCtr n) /\
    ctr_max n = 2 ^ (8 * n) - 1.
Proof. intros n [->|[->| ->]]; [exists 10|exists 12|exists 14]; repeat split; lia. Qed.
Lemma ctm_cases : forall n, n = 1 \/ n = 2 \/ n = 4 ->
  exists k, 8 <= k < 16 /\ ctm_code n = k * 4096 /\ find_class (k * 4096) = Ok (CCtm n) /\
    ctr_max n = 2 ^ (8 * n) - 1.
Proof. intros n [->|[->| ->]]; [exists 11|exists 13|exists 15]; repeat split; lia. Qed.

Lemma item_round : forall i rest, item_ok i ->
  exists b, item_enc true i = Ok b /\ bytes_ok b /\ 3 <= zlen b /\
    exists p c r, pnum_dec (b ++ rest) = Ok (p, c, r) /\
      item_dec c p r = Ok (received i, rest).
Proof.
  intros i rest H. destruct i as [p v|p n v|p n m v]; cbn [item_ok] in H.
  - destruct H as [Hp Hv]. destruct (nval_round v rest Hv) as (code & c & b & E & C & B & F & D).
    destruct (le2 p ltac:(lia)) as (x & y & L & LD & Hx & Hy).
    cbn [item_enc]. rewrite to_bytes_ok by (cbn; lia). cbn [bind]. rewrite E, L. cbn [bind app].
    eexists. split; [reflexivity|]. split; [repeat (constructor; auto)|].
    split; [rewrite !zlen_cons; pose proof (zlen_nonneg _ b); lia|].
    exists p, c, (b ++ rest). cbn [app received]. split; [|apply D].
    apply pnum_round_par; auto.
  - destruct H as (Hp & Hn & Hv). destruct (ctr_cases n Hn) as (k & Hk & Ck & F & M).
    destruct (int_round KDU n (Z.min v (2 ^ (8 * n) - 1)) rest) as (b & E & B & L & D).
    { split; [lia|]. assert (0 < 2 ^ (8 * n)) by (apply Z.pow_pos_nonneg; lia). lia. }
    destruct (le2 (p + k * 4096) ltac:(lia)) as (x & y & L2 & LD & Hx & Hy).
    cbn [item_enc]. rewrite Ck, lor_code, M by lia.
    rewrite to_bytes_ok by (cbn; lia). cbn [bind].
    cbn [int_enc isigned] in E. rewrite L2, E. cbn [bind app].
    eexists. split; [reflexivity|]. split; [repeat (constructor; auto)|].
    split; [rewrite !zlen_cons; lia|].
    exists p, (CCtr n), (b ++ rest). cbn [app received]. split.
    + eapply pnum_round_ctr; eauto.
    + cbn [item_dec]. rewrite D. reflexivity.
  - destruct H as (Hp & Hn & Hv & Hm). destruct (ctm_cases n Hn) as (k & Hk & Ck & F & M).
    destruct (int_round KDU n (Z.min v (2 ^ (8 * n) - 1)) rest) as (b & E & B & L & D).
    { split; [lia|]. assert (0 < 2 ^ (8 * n)) by (apply Z.pow_pos_nonneg; lia). lia. }
    destruct (le2 (p + k * 4096) ltac:(lia)) as (x & y & L2 & LD & Hx & Hy).
    destruct (le2 m ltac:(lia)) as (x' & y' & L2' & LD' & Hx' & Hy').
    cbn [item_enc]. rewrite Ck, lor_code, M by lia.
    rewrite !to_bytes_ok by (cbn; lia). cbn [bind].
    cbn [int_enc isigned] in E. rewrite L2, L2', E. cbn [bind app].
    eexists. split; [reflexivity|]. split; [repeat (constructor; auto)|].
    split; [rewrite !zlen_cons; lia|].
    exists p, (CCtm n), (x' :: y' :: b ++ rest). cbn [app received]. split.
    + eapply pnum_round_ctr; eauto.
    + cbn [item_dec]. rewrite !zlen_cons, zlen_app. pose proof (zlen_nonneg _ rest).
      destruct (Z.ltb_spec (1 + (1 + (zlen b + zlen rest))) (n + 2)); [lia|].
      rewrite from2, upto2, LD', D. reflexivity.
Qed.

Lemma nice_round_aux : forall l, Forall item_ok l ->
  exists b, nice_enc true l = Ok b /\ bytes_ok b /\
    forall f tol, (length b <= f)%nat -> nice_dec f tol b = Ok (map received l).
Proof.
  induction l as [|i l IH]; intros H.
  - exists []. repeat split; [constructor|]. intros [|f] tol _; reflexivity.
  - inversion H as [|? ? H1 H2]; subst. destruct (IH H2) as (b2 & E2 & B2 & D2).
    destruct (item_round i b2 H1) as (b & E & B & L & p & c & r & P & D).
    exists (b ++ b2). cbn [nice_enc]. rewrite E. cbn [bind]. rewrite E2. split; [reflexivity|].
    split; [apply bytes_ok_app; auto|]. intros f tol Hf.
    destruct b as [|x b]; [cbn in L; lia|].
    destruct f as [|f]; [cbn [app length] in Hf; lia|].
    cbn [app nice_dec]. change (x :: b ++ b2) with ((x :: b) ++ b2).
    destruct (Z.ltb_spec (zlen ((x :: b) ++ b2)) 3) as [X|X].
    { rewrite zlen_app in X. pose proof (zlen_nonneg _ b2). lia. }
    rewrite P. cbn [bind]. rewrite D. cbn [bind]. rewrite D2; [reflexivity|].
    rewrite app_length in Hf. cbn [length] in Hf. lia.
Qed.

(** C51 and C09: for every list of in-range items, encoding a response never
    fails, and decoding yields the same parameter numbers, types and values in
    order; counters of any non-negative value arrive as min (value, 2^8n - 1). *)
Theorem nice_round_trip : forall l tol, Forall item_ok l ->
  exists b, nice_enc true l = Ok b /\ bytes_ok b /\
    nice_decode tol b = Ok (map received l).
Proof.
  intros l tol H. destruct (nice_round_aux l H) as (b & E & B & D).
  exists b. repeat split; auto. apply D. lia.
Qed.
Print Assumptions nice_round_trip.

Example nice_demo :
  let l := [IPar 0 (NInt KC 1 3); IPar 100 (NAI [65; 66]); IPar 101 (NCM [NInt KDU 2 4097; NAI [88]]);
            IPar 7 (NInt KDS 2 (-300)); IPar 502 (NHI [1; 2]); ICtr 900 1 1000; ICtm 1060 2 5 77777; ICtr 600 4 12] in
  Forall item_ok l /\ nice_enc true l =
    Ok [0;0;129;3; 100;0;64;2;65;66; 101;0;194;2;1;16;64;1;88; 7;0;18;212;254;
        246;1;32;2;1;2; 132;163;255; 36;212;5;0;255;255; 88;226;12;0;0;0].
Proof.
  cbn zeta. split; [|vm_compute; reflexivity].
  repeat (apply Forall_cons || apply Forall_nil).
  all: cbn; unfold int_ok, bytes_ok, byte_ok; repeat split; try lia; repeat constructor; cbn; lia.
Qed.

(** C51, requests: no type codes are sent; the receiver decodes with its
    parameter table, and gets the same values when the table gives each sent
    parameter its type. *)
Definition cls_of (v : nval) : option ncls :=
  match v with NInt k n _ => Some (CInt k n) | NAI _ => Some CAI | NHI _ => Some CHI | NCM _ => None end.
Definition req_ok (pd : Z -> option ncls) (i : item) : Prop :=
  match i with
  | IPar p v => 0 <= p < 4096 /\ flat_ok v /\ pd p = cls_of v
  | _ => False
  end.
Theorem nice_request_round_trip : forall pd l tol, Forall (req_ok pd) l ->
  exists b, nice_enc false l = Ok b /\ bytes_ok b /\ req_decode tol pd b = Ok l.
Proof.
  intros pd l tol H.
  assert (G : exists b, nice_enc false l = Ok b /\ bytes_ok b /\
     forall f, (length b <= f)%nat -> req_dec f tol pd b = Ok l).
  2:{ destruct G as (b & E & B & D). exists b. repeat split; auto. apply D. lia. }
  induction H as [|i l Hi Hl IH].
  - exists []. repeat split; [constructor|]. intros [|f] _; reflexivity.
  - destruct IH as (b2 & E2 & B2 & D2). destruct i as [p v|p n v|p n m v]; try contradiction.
    destruct Hi as (Hp & Hv & Hc).
    destruct (flat_round v b2 Hv) as (code & c & b & E & C & _ & B & L1 & F & X & D).
    destruct (le2 p ltac:(lia)) as (x & y & L & LD & Hx & Hy).
    exists (([x; y] ++ b) ++ b2). cbn [nice_enc item_enc].
    rewrite to_bytes_ok by (cbn; lia). cbn [bind]. rewrite E, L. cbn [bind app].
    change (from 1 (code :: b)) with b. rewrite E2. cbn [bind]. split; [reflexivity|].
    split; [repeat (constructor; auto); apply bytes_ok_app; auto|].
    intros f Hf. destruct f as [|f]; [cbn [app length] in Hf; lia|].
    cbn [app req_dec]. rewrite !zlen_cons, zlen_app. pose proof (zlen_nonneg _ b2).
    destruct (Z.ltb_spec (1 + (1 + (zlen b + zlen b2))) 3); [lia|].
    rewrite upto2, from2, LD.
    assert (M : Z.land p 36863 = p).
    { replace 36863 with (Z.lor 4095 (8 * 4096)) by reflexivity. rewrite Z.land_lor_distr_r, land_high by lia.
      rewrite Z.lor_0_r. apply land_mask12. lia. }
    rewrite M, Hc.
    assert (CC : cls_of v = Some c).
    { destruct v as [k n z|t|t|t]; cbn [flat_ok] in Hv; try contradiction; cbn [cls_of];
        cbn [nv_enc] in E.
      - rewrite pybyte_ok in E by (destruct Hv as [Hv _]; destruct k; cbn [ibase]; lia). cbn [bind] in E.
        destruct (int_enc k n z); cbn in E; [|discriminate]. injection E as <- _.
        rewrite find_int in F by (destruct Hv; destruct k; lia). congruence.
      - destruct (forallb byte_okb t); [|discriminate]. destruct (pybyte (zlen t)); cbn in E; [|discriminate].
        injection E as <- _. cbn in F. congruence.
      - destruct (pybyte (zlen t)); cbn in E; [|discriminate].
        injection E as <- _. cbn in F. congruence. }
    rewrite CC. rewrite D. cbn [bind]. rewrite D2; [reflexivity|].
    cbn [app length] in Hf. rewrite app_length in Hf. lia.
Qed.
Print Assumptions nice_request_round_trip.
Example nice_request_demo :
  let pd := fun p => if p =? 500 then Some CAI else if p =? 0 then Some (CInt KC 1) else None in
  Forall (req_ok pd) [IPar 0 (NInt KC 1 1); IPar 500 (NAI [65; 66; 67])].
Proof. cbn zeta. repeat constructor; cbn; unfold byte_ok; lia. Qed.

(** Decoding a response from arbitrary bytes: the only exception besides
    DecodeError is the TypeError of a coded multiple nested in another. *)
Lemma find_class_cases : forall code, match find_class code with Ok _ => True | Err e => e = EDecode end.
Proof.
  intros. unfold find_class.
  repeat match goal with |- context [if ?b then _ else _] => destruct b; auto end.
Qed.
Lemma int_dec_safe : forall k n b, 0 <= n -> match int_dec k n b with
  | Ok (_, r) => exists p, b = p ++ r /\ zlen p = n | Err e => e = EDecode end.
Proof.
  intros k n b Hn. unfold int_dec. destruct (Z.ltb_spec (zlen (upto n b)) n); auto.
  exists (upto n b). rewrite upto_from. split; auto. unfold zlen, upto in *. rewrite firstn_length in *. lia.
Qed.
Lemma img_dec_safe : forall b, match img_dec b with
  | Ok (_, r) => exists p, b = p ++ r | Err e => e = EDecode end.
Proof.
  intros [|x t]; cbn [img_dec]; auto. destruct (zlen (x :: t) <? x + 1); auto.
  exists (x :: upto x t). cbn [app]. rewrite upto_from. auto.
Qed.
Definition flat_cls (c : ncls) : Prop := match c with CInt _ n => 0 <= n | CCM n | CCtr n | CCtm n => 0 <= n | _ => True end.
Lemma find_class_n : forall code c, find_class code = Ok c -> flat_cls c.
Proof.
  intros code c. unfold find_class.
  assert (L : forall m, 0 <= m -> 0 <= Z.land code m) by (intros m Hm; apply Z.land_nonneg; auto).
  assert (0 <= Z.land code (if Z.land code 128 =? 0 then 15 else 31)) by (destruct (Z.land code 128 =? 0); apply L; lia).
  set (m := Z.land code (if Z.land code 128 =? 0 then 15 else 31)) in *. clearbody m.
  repeat match goal with |- context [if ?b then _ else _] => destruct b end;
    intros E; inversion E; subst; cbn; auto; lia.
Qed.
Definition nsafe {A} (b : list Z) (r : res (A * list Z)) : Prop :=
  match r with Ok (_, r) => exists p, b = p ++ r | Err e => e = EDecode \/ e = EType end.
Lemma flat_dec_safe : forall c b, flat_cls c -> nsafe b (flat_dec c b).
Proof.
  intros c b Hc. destruct c; cbn [flat_dec nsafe]; auto.
  - pose proof (int_dec_safe k n b Hc). destruct (int_dec k n b) as [[z r]|e]; cbn; auto.
    destruct H as (p & E & _). eauto.
  - pose proof (img_dec_safe b). destruct (img_dec b) as [[z r]|e]; cbn; auto.
  - pose proof (img_dec_safe b). destruct (img_dec b) as [[z r]|e]; cbn; auto.
Qed.
Lemma cm_dec_safe : forall n b, nsafe b (cm_dec n b).
Proof.
  induction n as [|n IH]; intros b; cbn [cm_dec].
  - exists []. reflexivity.
  - destruct b as [|code t]; [cbn; auto|]. pose proof (find_class_cases code).
    destruct (find_class code) as [c|e] eqn:F; cbn [bind nsafe]; auto.
    pose proof (flat_dec_safe c t (find_class_n _ _ F)) as S.
    destruct (flat_dec c t) as [[v r]|e]; cbn [bind nsafe] in *; auto. destruct S as (p & ->).
    specialize (IH r). destruct (cm_dec n r) as [[l r']|e]; cbn [bind nsafe] in *; auto.
    destruct IH as (q & ->). exists (code :: p ++ q). cbn [app]. rewrite app_assoc. reflexivity.
Qed.
Lemma item_dec_safe : forall c p b, flat_cls c -> nsafe b (item_dec c p b).
Proof.
  intros c p b Hc.
  assert (W : nsafe b (let* (v, r) := flat_dec c b in Ok (IPar p v, r))).
  { pose proof (flat_dec_safe c b Hc) as S.
    destruct (flat_dec c b) as [[v r]|e]; cbn [bind nsafe] in *; auto. }
  destruct c; cbn [item_dec]; auto; clear W.
  - pose proof (cm_dec_safe (Z.to_nat n) b) as S. destruct (cm_dec (Z.to_nat n) b) as [[v r]|e]; cbn [bind nsafe] in *; auto.
  - pose proof (int_dec_safe KDU n b Hc) as S. destruct (int_dec KDU n b) as [[v r]|e]; cbn [bind nsafe] in *; auto.
    destruct S as (q & E & _). eauto.
  - cbn in Hc. destruct (Z.ltb_spec (zlen b) (n + 2)); cbn [nsafe]; auto.
    pose proof (int_dec_safe KDU n (from 2 b) Hc) as S.
    destruct (int_dec KDU n (from 2 b)) as [[v r]|e]; cbn [bind nsafe] in *; auto.
    destruct S as (q & E & _). exists (upto 2 b ++ q). rewrite <- app_assoc, <- E. symmetry. apply upto_from.
Qed.
Theorem nice_decode_safe_partial : forall b tol,
  match nice_decode tol b with Ok _ => True | Err e => e = EDecode \/ e = EType end.
Proof.
  intros b tol. unfold nice_decode.
  assert (G : forall f b, (length b <= f)%nat ->
    match nice_dec f tol b with Ok _ => True | Err e => e = EDecode \/ e = EType end).
  2:{ apply G. lia. }
  clear b. induction f as [|f IH]; intros b H.
  - destruct b; [cbn; auto|cbn in H; lia].
  - destruct b as [|x b]; [cbn; auto|]. cbn [nice_dec].
    destruct (Z.ltb_spec (zlen (x :: b)) 3) as [L|L]; [destruct tol; auto|].
    destruct b as [|y b]; [cbn in L; lia|]. destruct b as [|z b]; [cbn in L; lia|].
    assert (P : match pnum_dec (x :: y :: z :: b) with
                | Ok (p, c, r) => flat_cls c /\ exists q, x :: y :: z :: b = x :: q ++ r
                | Err e => e = EDecode end).
    { unfold pnum_dec. rewrite from2. cbn [bind].
      assert (C : forall q code r, z :: b = q ++ r ->
        match (let* c := find_class code in Ok (Z.land (le_dec (upto 2 (x :: y :: z :: b))) 4095, c, r)) with
        | Ok (p, c, r) => flat_cls c /\ exists q, x :: y :: z :: b = x :: q ++ r
        | Err e => e = EDecode end).
      { intros q code r E. pose proof (find_class_cases code).
        destruct (find_class code) eqn:F; cbn [bind]; auto.
        split; [eapply find_class_n; eauto|]. exists (y :: q). cbn [app]. rewrite E. reflexivity. }
      destruct (negb _); cbn [bind]; [apply (C [])|apply (C [z])]; reflexivity. }
    destruct (pnum_dec (x :: y :: z :: b)) as [[[p c] r]|e]; cbn [bind]; auto.
    destruct P as (Hc & q & E). pose proof (item_dec_safe c p r Hc) as S.
    destruct (item_dec c p r) as [[i r']|e]; cbn [bind nsafe] in *; auto.
    destruct S as (q' & ->).
    specialize (IH r'). destruct (nice_dec f tol r') as [l|e]; cbn [bind]; auto.
    apply IH. injection E as E. apply (f_equal (@length Z)) in E. cbn [length] in *.
    rewrite !app_length in E. lia.
Qed.
Print Assumptions nice_decode_safe_partial.

(** The full claim (DecodeError only) is false: a coded multiple containing a
    coded multiple escapes as a TypeError. *)
Theorem nice_decode_safe_refuted : exists b, bytes_ok b /\ nice_decode false b = Err EType.
Proof.
  exists [1; 0; 193; 193; 1; 5]. split; [|vm_compute; reflexivity].
  repeat constructor; unfold byte_ok; lia.
Qed.
Print Assumptions nice_decode_safe_refuted.

(** Values the coding does not carry: an empty coded multiple and one of 32
    items encode without complaint but the result is rejected on decode; the
    items of a request cannot be coded multiples. *)
Theorem nice_cm_empty_refuted : exists v, v = NCM [] /\
  exists b, nice_enc true [IPar 1 v] = Ok b /\ nice_decode false b = Err EDecode.
Proof. eexists. split; [reflexivity|]. eexists. split; vm_compute; reflexivity. Qed.
Theorem nice_cm_32_refuted : exists b,
  nice_enc true [IPar 1 (NCM (repeat (NInt KDU 1 0) 32))] = Ok b /\ nice_decode false b = Err EDecode.
Proof. eexists. split; vm_compute; reflexivity. Qed.
(** Parameter numbers of 4096 and up are accepted by encode and come back as a
    different parameter. *)
Theorem nice_pnum_refuted : exists b, nice_enc true [IPar 4097 (NInt KDU 1 9)] = Ok b /\
  nice_decode false b = Ok [IPar 1 (NInt KDU 1 9)].
Proof. eexists. split; vm_compute; reflexivity. Qed.
