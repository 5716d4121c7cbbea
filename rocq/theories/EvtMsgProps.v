(** Property C84: event messages. *)
From Verif Require Import Base Dict PacketModel PacketSpec PacketProofs PacketRound PacketSafe PacketProps PacketCheck AddrModel AddrProps EvtMsgModel.

(** * Specification *)
(** Which events can be sent. *)
Definition evt_ok (e : evt) : Prop :=
  0 <= v_console e < 2 /\ 0 <= v_file e < 2 /\ 0 <= v_monitor e < 2 /\ 0 <= v_code e < 32 /\ 0 <= v_class e < 512 /\
  0 <= v_halfday e < 65536 /\ 0 <= v_seconds e < 65536 /\ 0 <= v_ms e < 1024 /\ 0 <= v_absent e < 2.
Definition name_ok (n : list Z) : Prop := bytes_ok n /\ zlen n <= 127.
Definition source_ok (s : source) : Prop := valid_id (s_id s) /\ name_ok (s_name s).
Definition entity_ok (x : entity) : Prop :=
  match x with
  | ENone => True
  | ENode v n _ => valid_id v /\ name_ok n
  | EStr k n => 0 < k < 255 /\ k <> 5 /\ bytes_ok n /\ zlen n <= 255
  | EArea v => 0 <= v < 256
  end.
(** The header by the network management specification: words have the low byte first. *)
Definition word (v : Z) : list Z := [v mod 256; v / 256].
Definition header (e : evt) : list Z :=
  [1; v_console e + 2 * v_file e + 4 * v_monitor e] ++ word (v_code e + 64 * v_class e) ++ word (v_halfday e) ++
  word (v_seconds e) ++ word (v_ms e + 32768 * v_absent e).

Lemma hdr_ok : layout_ok HDR = true. Proof. reflexivity. Qed.
Lemma hattrs_ok e : evt_ok e -> rows_ok HDR (hattrs e).
Proof.
  intros (A & B & C & D & E & F & G & H & I). unfold HDR. cbn [rows_ok row_ok].
  repeat match goal with |- _ /\ _ => split | |- Forall _ _ => constructor | |- True => exact Logic.I end;
  eexists; (split; [reflexivity |]); cbn [val_ok be be_bits]; try (change (256 ^ Z.of_nat 1) with 256); try (change (256 ^ Z.of_nat 2) with 65536); try assumption; lia.
Qed.
Lemma lor_high : forall x k y, 0 <= k -> 0 <= x < 2 ^ k -> Z.lor x (Z.shiftl y k) = x + y * 2 ^ k.
Proof.
  intros x k y Hk Hx. rewrite <- Z.shiftl_mul_pow2 by auto.
  rewrite <- Z.lxor_lor, <- Z.add_nocarry_lxor; auto; apply Z.bits_inj'; intros n Hn;
    rewrite Z.land_spec, Z.shiftl_spec, Z.bits_0 by auto; destruct (Z.ltb_spec n k);
    try (rewrite (Z.testbit_neg_r y) by lia; apply andb_false_r);
    destruct (Z.eq_dec x 0) as [->|]; try (rewrite Z.bits_0; reflexivity);
    (rewrite (Z.bits_above_log2 x n); [reflexivity|lia|]); apply Z.log2_lt_pow2; try lia;
    apply Z.lt_le_trans with (2 ^ k); try lia; apply Z.pow_le_mono_r; lia.
Qed.
Lemma sh0 v b : 0 <= b -> 0 <= v < 2 ^ b -> Z.shiftr v b = 0.
Proof. intros B V. rewrite Z.shiftr_div_pow2 by lia. apply Z.div_small. exact V. Qed.
Lemma word_enc v : 0 <= v < 65536 -> to_bytes 2 v = Ok (word v).
Proof.
  intros V. unfold to_bytes. change (256 ^ Z.of_nat 2) with 65536. replace ((0 <=? v) && (v <? 65536)) with true by lia.
  cbn [le_enc]. unfold word. f_equal. f_equal. f_equal. lia.
Qed.
(** The header is what the specification says. *)
Theorem evt_wire e : evt_ok e -> encode HDR (hattrs e) = Ok (header e).
Proof.
  intros (A & B & C & D & E & F & G & H & I). unfold encode, HDR.
  assert (X1 : bm_enc 1 [be 1 0 1; be 2 1 1; be 3 2 1] (hattrs e) = Ok [v_console e + 2 * v_file e + 4 * v_monitor e]).
  { unfold bm_enc. cbn [bm_fold be be_name be_const be_start be_bits getattr get hattrs name_eqb Z.eqb Pos.eqb].
    rewrite !sh0 by (try change (2 ^ 1) with 2; lia). cbn [Z.eqb negb].
    rewrite Z.lor_0_l, Z.shiftl_0_r. rewrite (lor_high _ 1) by (try change (2 ^ 1) with 2; lia). rewrite (lor_high _ 2) by (try change (2 ^ 2) with 4; try change (2 ^ 1) with 2; lia).
    change (2 ^ 1) with 2. change (2 ^ 2) with 4. unfold to_bytes. change (256 ^ Z.of_nat 1) with 256.
    cbn [bind]. match goal with |- context [if ?c then _ else _] => replace c with true by lia end. cbn [le_enc]. f_equal. f_equal. lia. }
  assert (X2 : bm_enc 2 [be 4 0 5; be 5 6 9] (hattrs e) = Ok (word (v_code e + 64 * v_class e))).
  { unfold bm_enc. cbn [bm_fold be be_name be_const be_start be_bits getattr get hattrs name_eqb Z.eqb Pos.eqb].
    rewrite !sh0 by (try change (2 ^ 5) with 32; try change (2 ^ 9) with 512; lia). cbn [Z.eqb negb].
    rewrite Z.lor_0_l, Z.shiftl_0_r. rewrite (lor_high _ 6) by (try change (2 ^ 6) with 64; lia). change (2 ^ 6) with 64.
    cbn [bind]. rewrite word_enc by lia. f_equal. f_equal. lia. }
  assert (X3 : bm_enc 2 [be 8 0 10; be 9 15 1] (hattrs e) = Ok (word (v_ms e + 32768 * v_absent e))).
  { unfold bm_enc. cbn [bm_fold be be_name be_const be_start be_bits getattr get hattrs name_eqb Z.eqb Pos.eqb].
    rewrite !sh0 by (try change (2 ^ 10) with 1024; try change (2 ^ 1) with 2; lia). cbn [Z.eqb negb].
    rewrite Z.lor_0_l, Z.shiftl_0_r. rewrite (lor_high _ 15) by (try change (2 ^ 15) with 32768; lia). change (2 ^ 15) with 32768.
    cbn [bind]. rewrite word_enc by lia. f_equal. f_equal. lia. }
  cbn [enc_rows enc_row]. rewrite X1, X2, X3. cbn [getattr get hattrs name_eqb Z.eqb Pos.eqb enc_ty].
  rewrite !word_enc by lia. reflexivity.
Qed.
Print Assumptions evt_wire.

Lemma hdr_decode e rest : evt_ok e -> exists a, decode true HDR (header e ++ rest) = Ok (a, rest) /\ hevt a = e.
Proof.
  intros O. destruct (layout_round_trip HDR (hattrs e) hdr_ok (hattrs_ok e O)) as (b & E & _ & _ & D).
  rewrite (evt_wire e O) in E. injection E as <-. destruct (D true rest) as (a & X & Y & _); [discriminate |].
  exists a. split; [exact X |]. unfold HDR in Y. cbn [agree_rows agree_row] in Y. destruct Y as (_ & Y1 & Y2 & Y3 & Y4 & Y5 & _).
  assert (I1 := Y1 _ (or_introl eq_refl) eq_refl). assert (I2 := Y1 _ (or_intror (or_introl eq_refl)) eq_refl).
  assert (I3 := Y1 _ (or_intror (or_intror (or_introl eq_refl))) eq_refl). assert (I4 := Y2 _ (or_introl eq_refl) eq_refl).
  assert (I5 := Y2 _ (or_intror (or_introl eq_refl)) eq_refl). assert (I8 := Y5 _ (or_introl eq_refl) eq_refl).
  assert (I9 := Y5 _ (or_intror (or_introl eq_refl)) eq_refl).
  cbn [be be_name get hattrs name_eqb Z.eqb Pos.eqb] in I1, I2, I3, I4, I5, I8, I9.
  cbn [get hattrs name_eqb Z.eqb Pos.eqb] in Y3, Y4.
  destruct (get a (FN 6)) as [v6 |] eqn:G6; [| destruct Y3]. destruct (get a (FN 7)) as [v7 |] eqn:G7; [| destruct Y4]. cbn [veq] in Y3, Y4. subst v6 v7.
  unfold hevt, geti. rewrite I1, I2, I3, I4, I5, G6, G7, I8, I9. destruct e. reflexivity.
Qed.
Lemma ent_round x rest : entity_ok x -> exists b, ent_encode x = Ok b /\ ent_decode (b ++ rest) = Ok (x, rest).
Proof.
  destruct x as [| v n ex | k n | v]; cbn [entity_ok ent_encode]; intros O.
  - exists [255]. split; reflexivity.
  - destruct O as (V & B & L). destruct (nicenode_round_trip v n ex rest V B L) as (b & E & D). rewrite E. exists (0 :: b). split; [reflexivity |].
    cbn [app ent_decode Z.eqb]. rewrite D. reflexivity.
  - destruct O as (K & K5 & B & L). unfold ascii_enc. replace (forallb byte_okb n) with true
      by (symmetry; apply forallb_forall; intros c I; unfold bytes_ok in B; rewrite Forall_forall in B; specialize (B c I); unfold byte_ok in B; unfold byte_okb; lia).
    unfold image_enc. replace (255 <? zlen n) with false by lia. eexists. split; [reflexivity |].
    cbn [app ent_decode]. replace (k =? 255) with false by lia. replace (k =? 0) with false by lia. replace (k =? 5) with false by lia.
    unfold image_dec. replace (255 <? zlen n) with false by lia. unfold upto, from, zlen. rewrite Nat2Z.id, firstn_app, firstn_all, Nat.sub_diag, skipn_app, skipn_all, Nat.sub_diag.
    cbn [firstn skipn app]. rewrite app_nil_r, Z.eqb_refl. reflexivity.
  - unfold to_bytes. change (256 ^ Z.of_nat 1) with 256. replace ((0 <=? v) && (v <? 256)) with true by lia. eexists. split; [reflexivity |].
    cbn [le_enc app ent_decode Z.eqb Pos.eqb nth_error from skipn]. rewrite Z.mod_small by lia. reflexivity.
Qed.
(** The entity on the wire: its type, then a node address and name with the executor flag,
    a counted name, or a null and the area. *)
Definition ent_wire (x : entity) : list Z :=
  match x with
  | ENone => [255]
  | ENode v n ex => [0] ++ word v ++ [zlen n + (if ex then 128 else 0)] ++ n
  | EStr k n => [k; zlen n] ++ n
  | EArea v => [5; 0; v]
  end.
Theorem evt_entity x : entity_ok x -> ent_encode x = Ok (ent_wire x).
Proof.
  destruct x as [| v n ex | k n | v]; cbn [entity_ok ent_encode ent_wire]; intros O.
  - reflexivity.
  - destruct O as ((a & b & (A & B & _) & V) & _ & L). unfold nicenode_encode, nid_encode. rewrite word_enc by lia. cbn [bind].
    pose proof (zlen_nonneg _ n). unfold to_bytes. change (256 ^ Z.of_nat 1) with 256.
    match goal with |- context [if ?c then Ok (le_enc 1 _) else _] => replace c with true by (destruct ex; lia) end.
    cbn [bind le_enc app]. unfold word. cbn [app]. rewrite (Z.mod_small (zlen n + _)) by (destruct ex; lia). reflexivity.
  - destruct O as (_ & _ & B & L). unfold ascii_enc. replace (forallb byte_okb n) with true
      by (symmetry; apply forallb_forall; intros c I; unfold bytes_ok in B; rewrite Forall_forall in B; specialize (B c I); unfold byte_ok in B; unfold byte_okb; lia).
    unfold image_enc. replace (255 <? zlen n) with false by lia. reflexivity.
  - unfold to_bytes. change (256 ^ Z.of_nat 1) with 256. replace ((0 <=? v) && (v <? 256)) with true by lia. cbn [le_enc bind]. rewrite Z.mod_small by lia. reflexivity.
Qed.
Print Assumptions evt_entity.
(** An event arrives as it was sent: sinks, class and code, time, source, entity, and the
    data after them. *)
Theorem evt_round e s x data : evt_ok e -> source_ok s -> entity_ok x ->
  exists m, evt_encode e s x data = Ok m /\ evt_decode m = Ok (e, s, x, data).
Proof.
  intros O [V [B L]] X. unfold evt_encode. rewrite (evt_wire e O).
  destruct (ent_round x data X) as (c & C & C').
  destruct (nicenode_round_trip (s_id s) (s_name s) (s_ex s) (c ++ data) V B L) as (b & E & E'). rewrite E, C.
  eexists. split; [reflexivity |]. unfold evt_decode.
  assert (R : require (header e ++ b ++ c ++ data) 4 = Ok tt).
  { unfold require. replace (zlen (header e ++ b ++ c ++ data) <? 4) with false; [reflexivity |]. unfold zlen. rewrite app_length. unfold header, word. cbn [length app]. lia. }
  rewrite R. destruct (hdr_decode e (b ++ c ++ data) O) as (a & D & Y). cbn [bind]. rewrite D. cbn [bind]. rewrite E'. cbn [atfield bind]. rewrite C'. cbn [atfield bind]. rewrite Y. destruct s. reflexivity.
Qed.
Print Assumptions evt_round.

(** The time: until 32768 days after 1977 (the year 2066) an event can be sent, and its
    time is shown to the millisecond at which it was made, or to the second if it has no
    milliseconds. *)
Theorem evt_when t hd sec ms : evt_time t = (hd, sec, ms) ->
  shown hd sec ms false = t / 1000 /\ shown hd sec ms true = 1000 * (t / 1000000) /\ 0 <= sec < 43200 /\ 0 <= ms < 1000 /\
  (0 <= hd < 65536 <-> 0 <= t < 32768 * DAY).
Proof.
  unfold evt_time, shown, DAY. intros E. injection E as <- <- <-.
  assert (A : ((t / 86400000000 * 2 + t mod 86400000000 / 1000000 / 43200) / 2) = t / 86400000000) by (Z.div_mod_to_equations; lia).
  assert (B : ((t / 86400000000 * 2 + t mod 86400000000 / 1000000 / 43200) mod 2) = t mod 86400000000 / 1000000 / 43200) by (Z.div_mod_to_equations; lia).
  rewrite A, B. split; [| split; [| split; [| split]]]; try (clear A B; Z.div_mod_to_equations; lia).
Qed.
Print Assumptions evt_when.
(** Later events have later times. *)
Theorem evt_order t t' hd sec ms hd' sec' ms' : evt_time t = (hd, sec, ms) -> evt_time t' = (hd', sec', ms') -> t <= t' ->
  hd < hd' \/ (hd = hd' /\ (sec < sec' \/ (sec = sec' /\ ms <= ms'))).
Proof.
  intros E E' L. destruct (evt_when _ _ _ _ E) as (S & _ & A & B & _). destruct (evt_when _ _ _ _ E') as (S' & _ & A' & B' & _).
  assert (Q : t / 1000 <= t' / 1000) by (apply Z.div_le_mono; lia). rewrite <- S, <- S' in Q. unfold shown in Q.
  clear E E' S S'. Z.div_mod_to_equations. lia.
Qed.
Print Assumptions evt_order.
(** Afterwards every event is an OverflowError where it is encoded. *)
Theorem evt_limit t hd sec ms e s x data : evt_time t = (hd, sec, ms) -> 32768 * DAY <= t ->
  v_halfday e = hd -> evt_ok (mkEvt (v_console e) (v_file e) (v_monitor e) (v_code e) (v_class e) 0 (v_seconds e) (v_ms e) (v_absent e)) ->
  evt_encode e s x data = Err EOverflow.
Proof.
  intros E T H O. destruct (evt_when _ _ _ _ E) as (_ & _ & _ & _ & [_ R2]).
  assert (HD : 65536 <= hd) by (unfold evt_time, DAY in *; injection E as <- <- <-; clear R2 H; Z.div_mod_to_equations; lia).
  pose proof (evt_wire _ O) as W. unfold evt_encode, encode, HDR in *. cbn [enc_rows enc_row] in *.
  set (b1 := bm_enc 1 _ (hattrs e)). set (b2 := bm_enc 2 [be 4 0 5; be 5 6 9] (hattrs e)).
  change (bm_enc 1 _ (hattrs (mkEvt _ _ _ _ _ _ _ _ _))) with b1 in W. change (bm_enc 2 [be 4 0 5; be 5 6 9] (hattrs (mkEvt _ _ _ _ _ _ _ _ _))) with b2 in W.
  cbn [getattr get hattrs name_eqb Z.eqb Pos.eqb enc_ty v_halfday] in W |- *. rewrite H.
  replace (to_bytes 2 hd) with (@Err (list Z) EOverflow) by (unfold to_bytes; change (256 ^ Z.of_nat 2) with 65536; replace ((0 <=? hd) && (hd <? 65536)) with false by lia; reflexivity).
  change (to_bytes 1 1) with (Ok [1]) in *. destruct b1 as [x1 |]; [| discriminate W]. destruct b2 as [x2 |]; [reflexivity | discriminate W].
Qed.
Print Assumptions evt_limit.

(** Whatever arrives, the listener gets an event or a DecodeError, which it logs; no other
    exception. *)
Theorem evt_safe m : bytes_ok m -> match evt_decode m with Ok _ => True | Err e => e = EDecode end.
Proof.
  intros B. unfold evt_decode. unfold require. destruct (zlen m <? 4); [reflexivity |]. cbn [bind].
  pose proof (layout_safe HDR true m hdr_ok B) as S. destruct (decode true HDR m) as [[a r] | e]; [| exact S]. cbn [bind].
  assert (N : forall b, nicenode_decode b <> Err EDiverge).
  { intros b. unfold nicenode_decode. destruct (nth_error b 2) as [ln |]; [| discriminate]. cbv zeta. unfold nodeid, nid_finish.
    repeat match goal with |- context [if ?c then _ else _] => destruct c; cbn [bind] end; discriminate. }
  specialize (N r) as N1. destruct (nicenode_decode r) as [[[[v n] ex] r2] | e]; cbn [atfield bind].
  - assert (M : ent_decode r2 <> Err EDiverge).
    { unfold ent_decode. destruct r2 as [| k b]; [discriminate |]. destruct (k =? 255); [discriminate |]. destruct (k =? 0).
      - specialize (N b). destruct (nicenode_decode b) as [[[[v' n'] ex'] r'] | e']; [discriminate |]. cbn [bind]. intros X. apply N. congruence.
      - destruct (k =? 5); [destruct (nth_error b 1); discriminate |]. unfold image_dec. destruct b as [| c b]; [discriminate |].
        destruct (255 <? c); [discriminate |]. destruct (_ =? c); discriminate. }
    destruct (ent_decode r2) as [[y r3] | e]; cbn [atfield bind]; [exact Logic.I |]. destruct e; try reflexivity. congruence.
  - destruct e; try reflexivity. congruence.
Qed.
Print Assumptions evt_safe.

Definition evt1 : evt := mkEvt 1 0 1 14 4 36000 43199 999 0.
Example evt_ex : evt_ok evt1 /\ source_ok (mkSrc 2050 [80; 89] true) /\ entity_ok (EStr 3 [69; 84; 72]) /\
  evt_encode evt1 (mkSrc 2050 [80; 89] true) (EStr 3 [69; 84; 72]) [7]
  = Ok [1; 5; 14; 1; 160; 140; 191; 168; 231; 3; 2; 8; 130; 80; 89; 3; 3; 69; 84; 72; 7].
Proof.
  split; [unfold evt_ok, evt1; cbn [v_console v_file v_monitor v_code v_class v_halfday v_seconds v_ms v_absent]; lia |].
  split; [split; [exists 2, 2; unfold valid_node; cbn [s_id]; lia | split; [repeat constructor; unfold byte_ok; lia | unfold zlen; cbn; lia]] |].
  split; [cbn [entity_ok]; repeat split; try lia; [repeat constructor; unfold byte_ok; lia | unfold zlen; cbn; lia] | vm_compute; reflexivity].
Qed.
Example evt_ex_short : evt_decode [1; 5; 14; 1; 160; 140; 191; 168; 231; 3; 2; 8; 130; 80; 89] = Err EDecode.
Proof. vm_compute. reflexivity. Qed.
Example evt_ex_time : evt_time (18000 * DAY + 86399999999) = (36001, 43199, 999).
Proof. vm_compute. reflexivity. Qed.
