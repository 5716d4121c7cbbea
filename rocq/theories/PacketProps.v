(** Properties C06-C09: packet coding.  The specification predicates (which
    layouts are meaningful, which values are in range, when two packets have
    the same field values) are in PacketSpec.v. *)
From Verif Require Import Base PacketModel PacketSpec PacketProofs PacketRound PacketSafe.

(** C06: for any well formed layout and any in-range attributes, encoding
    succeeds, produces bytes, and decoding the result followed by anything
    (nothing, if the layout takes the rest of the buffer) returns exactly what
    follows and a packet with the same field values and no other attributes,
    in tolerant mode or not. *)
Theorem packet_round_trip : forall L a,
  wf_rows L -> NoDup (names_rows L) -> rows_ok L a ->
  exists b, encode L a = Ok b /\ bytes_ok b /\ zlen b = wlen_rows L a /\
    forall tol rest, (final_rows L = true -> rest = []) ->
      exists a', decode tol L (b ++ rest) = Ok (a', rest) /\
        agree_rows L a a' /\ forall n, ~ In n (names_rows L) -> get a' n = None.
Proof.
  intros L a W N V. destruct (proj1 (proj2 (proj2 round_all)) L W N a V) as (b & E & B & Z & _ & D).
  exists b. repeat split; auto. intros tol rest Hr.
  destruct (D tol [] rest Hr) as (a' & X & Q & K); [intros n _; reflexivity|].
  exists a'. split; [exact X|]. split; [exact Q|]. intros n Hn. rewrite K; auto.
Qed.
Print Assumptions packet_round_trip.

(** C06: the constructor from a buffer accepts exactly the encoding, and
    rejects it when anything follows. *)
Theorem packet_of_bytes : forall L a tol,
  wf_rows L -> NoDup (names_rows L) -> rows_ok L a ->
  exists b, encode L a = Ok b /\
    (exists a', of_bytes tol L b = Ok a' /\ agree_rows L a a') /\
    (final_rows L = false -> forall x rest, of_bytes tol L (b ++ x :: rest) = Err EDecode).
Proof.
  intros L a tol W N V. destruct (packet_round_trip L a W N V) as (b & E & B & Z & D).
  exists b. split; auto. unfold of_bytes. split.
  - destruct (D tol [] (fun _ => eq_refl)) as (a' & X & Q & _). rewrite app_nil_r in X.
    rewrite X. cbn [bind]. eauto.
  - intros F x rest. destruct (D tol (x :: rest)) as (a' & X & _); [congruence|].
    rewrite X. reflexivity.
Qed.
Print Assumptions packet_of_bytes.

(** A non-trivial layout and value meeting the hypotheses: a routing-header-like
    packet with a constant bit field, a list, a nested packet and a TLV group
    with an absent item. *)
Definition demo_layout : rows :=
  rcons (RBM 1 [{| be_name := FN 0; be_start := 0; be_bits := 3; be_const := CAny (VInt 2) |};
                {| be_name := FN 1; be_start := 5; be_bits := 3; be_const := CNone |}])
 (rcons (RSimple (TEX 3) (FN 2) CNone)
 (rcons (RSimple (TLIST (TA 6) (Some 2%nat)) (FN 3) CNone)
 (rcons (RSimple (TPKT (rcons (RSimple (TSIGNED 2) (FN 0) CNone)
                       (rcons (RSimple (TB 2) (FN 1) (CRo (VInt 576))) rnil))) (FN 4) CNone)
 (rcons (RRES 1)
 (rcons (RTLV 1 1 true
          (ccons 1 (RSimple (TB 2) (FN 5) CNone)
          (ccons 9 (RSimple TITLV (FN 6) CNone)
          (ccons 7 (RBM 1 [{| be_name := FN 7; be_start := 1; be_bits := 4; be_const := CNone |}])
           cnil)))) rnil))))).
Definition demo_attrs : attrs :=
  [(FN 1, VInt 5); (FN 2, VInt 300); (FN 3, VList [VStr [65; 66]; VStr []]);
   (FN 4, VPkt [(FN 0, VInt (-2))]); (FN 6, VBytes [1; 2; 3]); (FN 7, VInt 9)].
(** Decision procedures, only to discharge the example. *)
Fixpoint nodupb (l : list name) : bool :=
  match l with [] => true | x :: t => negb (existsb (name_eqb x) t) && nodupb t end.
Lemma nodupb_ok : forall l, nodupb l = true -> NoDup l.
Proof.
  induction l as [|x l IH]; intros H; constructor; cbn in H; apply andb_prop in H as [H1 H2]; auto.
  intro X. apply negb_true_iff in H1. assert (existsb (name_eqb x) l = true).
  { apply existsb_exists. exists x. split; auto. destruct (name_eqb_spec x x); congruence. }
  congruence.
Qed.
Example demo_layout_ok : wf_rows demo_layout /\ NoDup (names_rows demo_layout) /\
  rows_ok demo_layout demo_attrs /\ final_rows demo_layout = true /\
  encode demo_layout demo_attrs =
    Ok [162; 172; 2; 2; 65; 66; 0; 254; 255; 64; 2; 0; 9; 3; 1; 2; 3; 7; 1; 18].
Proof.
  split; [|split; [apply nodupb_ok; reflexivity|split; [|split; [reflexivity|vm_compute; reflexivity]]]].
  - cbn [demo_layout wf_rows]. repeat split; cbn; auto; try lia.
    all: try (intros f [<-|[]]; unfold bme_disj; cbn; lia).
    all: try (repeat constructor; cbn; auto; fail).
    all: try (apply nodupb_ok; reflexivity).
    all: try match goal with H : In _ _ |- _ => cbn in H; intuition lia end.
    + repeat constructor; cbn; intuition discriminate.
  - cbn [demo_layout rows_ok]. repeat split.
    all: try (cbn; lia).
    all: try (repeat (constructor || eexists); cbn; try lia; repeat constructor; unfold byte_ok; lia).
Qed.

(** C07: decoding any bytes with any layout that makes progress (see
    [safe_rows]) either yields a packet and a suffix of the input, or raises
    DecodeError; no other exception, no endless loop. *)
Theorem packet_decode_safe : forall L tol buf,
  safe_rows L -> bytes_ok buf ->
  match decode tol L buf with
  | Ok (_, rest) => exists p, buf = p ++ rest
  | Err e => e = EDecode
  end.
Proof.
  intros L tol buf S B. unfold decode.
  pose proof (proj1 (proj2 (proj2 safe_all)) L S tol [] buf B) as H.
  destruct (dec_rows tol L [] buf) as [[a r]|e]; cbn in H; auto. destruct H as (p & E & _). eauto.
Qed.
Print Assumptions packet_decode_safe.
Example packet_decode_safe_demo : safe_rows demo_layout /\
  decode false demo_layout [162; 172; 130; 129; 1] = Err EDecode /\
  decode true demo_layout [162; 172; 2; 2; 65; 66; 0; 254; 255; 64; 2; 0; 1; 1; 1] = Err EDecode /\
  decode true demo_layout [162; 172; 2; 2; 65; 66; 0; 254; 255; 64; 3; 0] = Err EDecode.
Proof. split; [cbn; repeat split; lia|]. repeat split; vm_compute; reflexivity. Qed.

(** The claim for every layout is false: an uncounted list of elements that
    can be empty never terminates on non-empty input, and EX(0) fails with
    NameError inside a TLV group.  No layout in pydecnet has either. *)
Theorem packet_decode_safe_refuted :
  decode false (rcons (RSimple (TLIST (TB 0) None) (FN 0) CNone) rnil) [1] = Err EDiverge /\
  decode false (rcons (RTLV 1 1 false (ccons 1 (RSimple (TEX 0) (FN 0) CNone) cnil)) rnil) [1; 1; 1] = Err EName.
Proof. split; vm_compute; reflexivity. Qed.
Print Assumptions packet_decode_safe_refuted.

(** Limits of C06 at the edges of the layout language: overlapping bit field
    elements do not round trip, and a zero-padded BV returns its padding. *)
Theorem packet_round_trip_refuted :
  (exists L a b a', encode L a = Ok b /\ decode false L b = Ok (a', []) /\
     L = rcons (RBM 1 [{| be_name := FN 0; be_start := 0; be_bits := 4; be_const := CNone |};
                       {| be_name := FN 1; be_start := 2; be_bits := 4; be_const := CNone |}]) rnil /\
     get a (FN 0) = Some (VInt 1) /\ get a' (FN 0) = Some (VInt 5)) /\
  (exists a b a', encode (rcons (RSimple (TBV 3) (FN 0) CNone) rnil) a = Ok b /\
     decode false (rcons (RSimple (TBV 3) (FN 0) CNone) rnil) b = Ok (a', []) /\
     get a (FN 0) = Some (VBytes [7]) /\ get a' (FN 0) = Some (VBytes [7; 0; 0])).
Proof.
  split.
  - eexists _, [(FN 0, VInt 1); (FN 1, VInt 1)], _, _.
    split; [|split; [|split; [reflexivity|]]]; vm_compute; repeat split; reflexivity.
  - exists [(FN 0, VBytes [7])]. do 2 eexists. repeat split; vm_compute; reflexivity.
Qed.
Print Assumptions packet_round_trip_refuted.

(** *** C08 *)
(** Value of a sequence of 7-bit digits, least significant first. *)
Fixpoint ex_value (l : list Z) : Z :=
  match l with [] => 0 | b :: t => b mod 128 + 128 * ex_value t end.
(** Continuation flag on all but the last byte. *)
Fixpoint ex_form (l : list Z) : Prop :=
  match l with
  | [] => False
  | [b] => 0 <= b < 128
  | b :: t => 128 <= b < 256 /\ ex_form t
  end.

Lemma ex_repr_form : forall v r, ex_repr v r -> ex_form r /\ ex_value r = v.
Proof.
  induction 1 as [v H|v b r Hb Hv R [F V]].
  - cbn [ex_form ex_value]. lia.
  - pose proof (ex_repr_cons _ _ R). destruct r as [|x r]; [congruence|].
    change (ex_form ((b + 128) :: x :: r)) with (128 <= b + 128 < 256 /\ ex_form (x :: r)).
    change (ex_value ((b + 128) :: x :: r)) with ((b + 128) mod 128 + 128 * ex_value (x :: r)).
    rewrite V. split; [split; [lia|exact F]|]. lia.
Qed.

(** Encoding: fails with DecodeError iff more than [m] bytes are needed,
    otherwise yields the shortest sequence in the documented form, of length
    1 + floor (log2 v / 7), and decoding gives the value back and leaves what
    follows. *)
Theorem ex_encoding : forall m v, (1 <= m)%nat -> 0 <= v ->
  (v < 2 ^ (7 * Z.of_nat m) /\
   exists r, ex_enc m v = Ok r /\ ex_form r /\ ex_value r = v /\ zlen r = ex_size v /\
     (forall l, ex_form l -> ex_value l = v -> zlen r <= zlen l) /\
     forall rest, ex_dec m (r ++ rest) = Ok (v, rest)) \/
  (2 ^ (7 * Z.of_nat m) <= v /\ ex_enc m v = Err EDecode).
Proof.
  intros m v Hm Hv. destruct (Z.lt_ge_cases v (2 ^ (7 * Z.of_nat m))) as [C|C].
  - left. split; auto. destruct (ex_enc_dec m v [] Hm ltac:(lia)) as (r & E & R & _).
    exists r. destruct (ex_repr_form v r R) as [F V]. pose proof (ex_repr_len _ _ R) as LR.
    repeat split; auto.
    + intros l Fl Vl. rewrite LR.
      assert (B : forall l, ex_form l -> 0 <= ex_value l < 2 ^ (7 * zlen l) /\ 1 <= zlen l).
      { clear. induction l as [|b l IH]; [contradiction|]. destruct l as [|c l].
        - intros H. cbn [ex_form] in H. cbn [ex_value]. unfold zlen. cbn [length].
          change (2 ^ (7 * Z.of_nat 1)) with 128. lia.
        - intros [H1 H2]. specialize (IH H2). change (ex_value (b :: c :: l)) with (b mod 128 + 128 * ex_value (c :: l)).
          rewrite (zlen_cons _ b). replace (7 * (1 + zlen (c :: l))) with (7 + 7 * zlen (c :: l)) by lia.
          rewrite Z.pow_add_r by lia. change (2 ^ 7) with 128. lia. }
      destruct (B l Fl) as [B1 B2]. apply ex_size_bound; lia.
    + intros rest. destruct (ex_enc_dec m v rest Hm ltac:(lia)) as (r' & E' & _ & D').
      rewrite E in E'. injection E' as <-. exact D'.
  - right. split; auto. unfold ex_enc. destruct (ex_loop_ok v Hv) as (r & E & R). rewrite E. cbn [bind].
    rewrite (ex_repr_len _ _ R). destruct (Z.ltb_spec (Z.of_nat m) (ex_size v)); auto.
    exfalso. apply (ex_size_bound v (Z.of_nat m)) in H; lia.
Qed.
Print Assumptions ex_encoding.

(** Decoding, for any input bytes: succeeds exactly when a sequence in the
    documented form of at most [m] bytes starts the buffer, and then yields its
    value and the rest. *)
Theorem ex_decoding : forall m buf v rest, (1 <= m)%nat -> bytes_ok buf ->
  (ex_dec m buf = Ok (v, rest) <->
   exists r, buf = r ++ rest /\ ex_form r /\ (length r <= m)%nat /\ ex_value r = v).
Proof.
  intros m buf v rest Hm B.
  assert (LS : forall acc x sh, 0 <= sh -> 0 <= acc < 2 ^ sh -> 0 <= x ->
              Z.lor acc (Z.shiftl x sh) = acc + x * 2 ^ sh).
  { intros acc x sh Hs Ha Hx. rewrite <- Z.shiftl_mul_pow2 by lia.
    rewrite <- Z.lxor_lor, <- Z.add_nocarry_lxor; auto.
    all: apply Z.bits_inj'; intros p Hp; rewrite Z.land_spec, Z.bits_0, Z.shiftl_spec by lia;
      destruct (Z.lt_ge_cases p sh); [rewrite (Z.testbit_neg_r x) by lia; apply andb_false_r
                                     |rewrite (small_testbit acc sh) by lia; reflexivity]. }
  assert (G : forall l sh acc buf, 0 <= sh -> 0 <= acc < 2 ^ sh -> bytes_ok buf ->
    (ex_dec_loop l sh acc buf = Ok (v, rest) <->
     exists r, buf = r ++ rest /\ ex_form r /\ (length r <= l)%nat /\ acc + ex_value r * 2 ^ sh = v)).
  { clear m buf Hm B. induction l as [|l IH]; intros sh acc buf Hs Ha B.
    - cbn [ex_dec_loop]. split; [discriminate|]. intros (r & _ & F & L & _).
      destruct r; [contradiction|cbn in L; lia].
    - cbn [ex_dec_loop]. destruct buf as [|b t].
      { split; [discriminate|]. intros (r & E & F & _). destruct r; [contradiction|discriminate]. }
      inversion B as [|? ? Hb Bt]; subst. unfold byte_ok in Hb.
      assert (LB : Z.land b 127 = b mod 128) by (change 127 with (Z.ones 7); apply Z.land_ones; lia).
      rewrite LB, LS by lia.
      destruct (Z.ltb_spec b 128).
      + split.
        * intros E. injection E as <- <-. exists [b]. cbn [app ex_form ex_value length].
          repeat split; try lia. 
        * intros (r & E & F & L & V). destruct r as [|x r]; [contradiction|].
          injection E as <- E. destruct r as [|y r].
          -- cbn [app] in E. subst t. cbn [ex_value] in V. f_equal. f_equal. lia.
          -- destruct F as [F _]. lia.
      + assert (P : 0 < 2 ^ sh) by (apply Z.pow_pos_nonneg; lia).
        assert (P7 : 2 ^ (sh + 7) = 128 * 2 ^ sh) by (rewrite Z.pow_add_r by lia; change (2 ^ 7) with 128; lia).
        assert (A' : 0 <= acc + b mod 128 * 2 ^ sh < 2 ^ (sh + 7)) by (rewrite P7; nia).
        assert (Q : (exists r, t = r ++ rest /\ ex_form r /\ (length r <= l)%nat /\
                        acc + b mod 128 * 2 ^ sh + ex_value r * 2 ^ (sh + 7) = v) <->
                    (exists r, b :: t = r ++ rest /\ ex_form r /\ (length r <= S l)%nat /\
                        acc + ex_value r * 2 ^ sh = v)).
        { rewrite P7. split.
          - intros (r & -> & F & L & V). exists (b :: r). split; [reflexivity|].
            destruct r as [|y r]; [contradiction|]. split; [split; [lia|exact F]|].
            split; [cbn [length] in *; lia|].
            change (ex_value (b :: y :: r)) with (b mod 128 + 128 * ex_value (y :: r)). rewrite <- V. ring.
          - intros (r & E & F & L & V). destruct r as [|x r]; [contradiction|].
            injection E as <- E. destruct r as [|y r]; [cbn [ex_form] in F; lia|].
            exists (y :: r). split; [exact E|]. destruct F as [_ F]. split; [exact F|].
            split; [cbn [length] in *; lia|].
            change (ex_value (b :: y :: r)) with (b mod 128 + 128 * ex_value (y :: r)) in V. rewrite <- V. ring. }
        rewrite <- Q. destruct l as [|l].
        * split; [discriminate|]. intros (r & _ & F & L & _). destruct r; [contradiction|cbn in L; lia].
        * apply IH; auto; lia. }
  unfold ex_dec. destruct m as [|m]; [lia|]. rewrite (G (S m) 0 0 buf) by (auto; change (2 ^ 0) with 1; lia).
  change (2 ^ 0) with 1. split; intros (r & E & F & L & V); exists r; repeat split; auto; lia.
Qed.
Print Assumptions ex_decoding.

(** No encoding is a proper prefix of another. *)
Theorem ex_prefix_code : forall m m' v v' r r' s,
  ex_enc m v = Ok r -> ex_enc m' v' = Ok r' -> 0 <= v -> 0 <= v' -> r' = r ++ s -> s = [] /\ v = v'.
Proof.
  intros m m' v v' r r' s E E' Hv Hv' ->.
  assert (R : ex_repr v r).
  { destruct (ex_loop_ok v Hv) as (x & X & R). unfold ex_enc in E. rewrite X in E. cbn [bind] in E.
    destruct (Z.of_nat m <? zlen x); [discriminate|]. congruence. }
  assert (R' : ex_repr v' (r ++ s)).
  { destruct (ex_loop_ok v' Hv') as (x & X & R'). unfold ex_enc in E'. rewrite X in E'. cbn [bind] in E'.
    destruct (Z.of_nat m' <? zlen x); [discriminate|]. congruence. }
  clear E E'. destruct (ex_repr_form _ _ R) as [F V]. destruct (ex_repr_form _ _ R') as [F' V'].
  assert (s = []).
  { clear R R' V V'. induction r as [|b r IH]; [contradiction|].
    destruct r as [|c r].
    - destruct s; auto. cbn [app ex_form] in *. destruct F'; lia.
    - destruct F as [_ F]. destruct F' as [_ F']. auto. }
  subst s. rewrite app_nil_r in V'. split; auto. congruence.
Qed.
Print Assumptions ex_prefix_code.
Example ex_demo : ex_enc 3 300 = Ok [172; 2] /\ ex_enc 1 300 = Err EDecode /\
  ex_dec 3 [172; 2; 9] = Ok (300, [9]) /\ ex_enc 3 2097151 = Ok [255; 255; 127] /\ ex_enc 3 2097152 = Err EDecode.
Proof. repeat split; vm_compute; reflexivity. Qed.
(** A negative integer makes the encoder loop forever. *)
Theorem ex_negative_refuted : forall f v, v < 0 -> ex_loop f v = Err EDiverge.
Proof.
  induction f as [|f IH]; intros v H; cbn [ex_loop]; auto. rewrite shiftr7.
  destruct (Z.eqb_spec (v / 128) 0); [lia|]. rewrite IH by lia. reflexivity.
Qed.
Print Assumptions ex_negative_refuted.

(** *** C09: packet counters. *)
Theorem ctr_saturates : forall n v rest, (n <= 8)%nat -> 0 <= v ->
  exists b, enc_ty (TCTR n) (VInt v) = Ok b /\ length b = n /\ bytes_ok b /\
    dec_ty (TCTR n) (b ++ rest) = Ok (VInt (Z.min v (2 ^ (8 * Z.of_nat n) - 1)), rest).
Proof.
  intros n v rest Hn Hv.
  assert (P : 0 < 2 ^ (8 * Z.of_nat n)) by (apply Z.pow_pos_nonneg; lia).
  assert (E : ctr_enc n v = Ok (le_enc n (Z.min v (2 ^ (8 * Z.of_nat n) - 1)))).
  { unfold ctr_enc, maxint. destruct (Nat.leb_spec n 8); [|lia]. cbn [bind].
    destruct (Z.leb_spec v (2 ^ (8 * Z.of_nat n) - 1)); rewrite to_bytes_ok by (rewrite pow_256_2; lia);
      do 2 f_equal; lia. }
  exists (le_enc n (Z.min v (2 ^ (8 * Z.of_nat n) - 1))). cbn [enc_ty dec_ty]. rewrite E.
  split; [reflexivity|]. split; [apply le_enc_length|]. split; [apply le_enc_bytes|].
  rewrite fixed_dec_ok by apply le_enc_length. cbn [bind]. rewrite le_dec_enc; auto. rewrite pow_256_2. lia.
Qed.
Print Assumptions ctr_saturates.
Example ctr_demo : enc_ty (TCTR 2) (VInt 70000) = Ok [255; 255] /\ enc_ty (TCTR 2) (VInt 65534) = Ok [254; 255].
Proof. split; reflexivity. Qed.

(** *** TLV groups *)
(** A run of items written down as (tag bytes, length bytes, value), for a group
    that knows none of the tags. *)
Definition item_bytes (i : list Z * list Z * list Z) : list Z := let '(t, l, v) := i in t ++ l ++ v.
Definition item_ok (tlen llen : nat) (i : list Z * list Z * list Z) : Prop :=
  let '(t, l, v) := i in length t = tlen /\ length l = llen /\ le_dec l = zlen v.
Definition item_attr (i : list Z * list Z * list Z) : name * val := let '(t, _, v) := i in (FW (le_dec t), VBytes v).
(** A group that accepts any tag keeps every unknown item under its tag with
    exactly its value bytes; one that does not rejects the message. *)
Theorem tlv_unknown : forall items tol tlen llen look a fuel, (1 <= tlen + llen)%nat ->
  Forall (item_ok tlen llen) items -> (forall i, In i items -> look (le_dec (fst (fst i))) = None) ->
  (length (flat_map item_bytes items) <= fuel)%nat ->
  tlv_loop fuel tol true tlen llen look a (flat_map item_bytes items) = Ok (rev (map item_attr items) ++ a) /\
  (items <> [] -> tlv_loop fuel tol false tlen llen look a (flat_map item_bytes items) = Err EDecode).
Proof.
  induction items as [|[[t l] v] items IH]; intros tol tlen llen look a fuel P W U F.
  - split; [destruct fuel; reflexivity|contradiction].
  - inversion W as [|? ? W0 W']; subst. destruct W0 as (Lt & Ll & Lv). subst. cbn [flat_map item_bytes] in *.
    assert (Hd : exists b r, (t ++ l ++ v) ++ flat_map item_bytes items = b :: r).
    { destruct t as [|b t]; [destruct l as [|b l]; [cbn in P; lia|]|]; cbn [app]; eauto. }
    destruct Hd as (b & r & Hd). destruct fuel as [|fuel]; [rewrite Hd in F; cbn [length] in F; lia|].
    pose proof (U (t, l, v) (or_introl eq_refl)) as U0. cbn [fst] in U0.
    assert (T : upto (Z.of_nat (length t)) ((t ++ l ++ v) ++ flat_map item_bytes items) = t)
      by (rewrite <- app_assoc; apply upto_app_exact; reflexivity).
    assert (L : upto (Z.of_nat (length l)) (from (Z.of_nat (length t)) ((t ++ l ++ v) ++ flat_map item_bytes items)) = l).
    { rewrite <- app_assoc, from_app_exact by reflexivity. rewrite <- app_assoc. apply upto_app_exact. reflexivity. }
    assert (B : from (Z.of_nat (length t + length l)) ((t ++ l ++ v) ++ flat_map item_bytes items) = v ++ flat_map item_bytes items).
    { rewrite <- !app_assoc. rewrite app_assoc. apply from_app_exact. unfold zlen. rewrite app_length. reflexivity. }
    assert (H1 : (zlen ((t ++ l ++ v) ++ flat_map item_bytes items) <? Z.of_nat (length t + length l)) = false).
    { rewrite !zlen_app. pose proof (zlen_nonneg _ v). pose proof (zlen_nonneg _ (flat_map item_bytes items)). unfold zlen in *. lia. }
    assert (H2 : (zlen (v ++ flat_map item_bytes items) <? zlen v) = false).
    { rewrite zlen_app. pose proof (zlen_nonneg _ (flat_map item_bytes items)). lia. }
    assert (Step : forall w, tlv_loop (S fuel) tol w (length t) (length l) look a ((t ++ l ++ v) ++ flat_map item_bytes items) =
      if w then tlv_loop fuel tol w (length t) (length l) look (item_attr (t, l, v) :: a) (flat_map item_bytes items) else Err EDecode).
    { intros w. set (buf := (t ++ l ++ v) ++ flat_map item_bytes items) in *. rewrite Hd in *. cbn [tlv_loop]. rewrite H1, T, L, B, Lv, H2, U0.
      destruct w; [|reflexivity]. cbn [bind]. rewrite upto_app_exact, from_app_exact by reflexivity. reflexivity. }
    split.
    + rewrite Step. destruct (IH tol (length t) (length l) look (item_attr (t, l, v) :: a) fuel P W') as (E & _).
      * intros i Hi. apply U. right. auto.
      * rewrite Hd in F. apply (f_equal (@length Z)) in Hd. rewrite !app_length in Hd. cbn [length] in *. lia.
      * rewrite E. cbn [map rev]. rewrite <- app_assoc. reflexivity.
    + intros _. apply (Step false).
Qed.
Print Assumptions tlv_unknown.
(** The information field of a MOP system id with two vendor items. *)
Example tlv_unknown_witness :
  tlv_loop 20 false true 2 1 (fun _ => None) [] ([100; 0; 2; 7; 8] ++ [101; 1; 0]) = Ok [(FW 357, VBytes []); (FW 100, VBytes [7; 8])] /\
  Forall (item_ok 2 1) [([100; 0], [2], [7; 8]); ([101; 1], [0], [])].
Proof. split; [vm_compute; reflexivity|repeat constructor]. Qed.
