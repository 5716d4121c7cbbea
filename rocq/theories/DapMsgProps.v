(** C72: what DAP messages say. *)
From Coq Require Import String.
From Verif Require Import Base PacketModel PacketSpec PacketProofs DapMsgModel.

(** *** What is meant *)
(** The value a message has for a name: its own, that of its class, or the
    default. *)
Definition value (a : attrs) (n : name) (c : const) (d : val) : val :=
  match c with CNone => match get a n with Some v => v | None => d end | CRo v | CAny v => v end.
Definition held (n : name) (c : const) (v : val) : list (name * val) := match c with CNone => [(n, v)] | _ => [] end.
(** The empty value. *)
Definition empty (t : ty) : val :=
  match t with TA _ => VStr [] | TI _ | TPAYLOAD => VBytes [] | _ => VInt 0 end.
Definition padded (k : nat) (v : val) : val := match v with VStr s => VStr (s ++ repeat 0 (k - length s)) | _ => v end.
(** What a field says: names and values, in order. *)
Definition says (f : fld) (a : attrs) : list (name * val) :=
  match f with
  | FTy t n c => held n c (value a n c (empty t))
  | FBMX _ els | FBMap _ els =>
      flat_map (fun e => held (be_name e) (be_const e) (value a (be_name e) (be_const e) (VInt 0))) els
  | FInt _ n => [(n, value a n CNone (VInt 0))]
  | FAV k n => [(n, padded k (value a n CNone (VStr [])))]
  | FVer k n => [(n, value a n CNone (VBytes (repeat 0 k)))]
  end.
(** Bit fields that share bits have the same bits there. *)
Definition bits_agree (els : list bme) (a : attrs) : Prop :=
  forall e1 e2 z1 z2 p, In e1 els -> In e2 els ->
    value a (be_name e1) (be_const e1) (VInt 0) = VInt z1 -> value a (be_name e2) (be_const e2) (VInt 0) = VInt z2 ->
    be_start e1 <= p < be_start e1 + be_bits e1 -> be_start e2 <= p < be_start e2 + be_bits e2 ->
    Z.testbit z1 (p - be_start e1) = Z.testbit z2 (p - be_start e2).
Definition agree (f : fld) (a : attrs) : Prop := match f with FBMX _ els | FBMap _ els => bits_agree els a | _ => True end.
(** What the default string of a field says. *)
Definition reads (f : fld) (d : list Z) (l : list (name * val)) : Prop := exists x, enc_fld f x = Ok d /\ agree f x /\ l = says f x.
(** What a row of a message says to the reader, if the row was sent. *)
Inductive sent_row (a : attrs) : drow -> list (name * val) -> Prop :=
| sr_row : forall f, sent_row a (DRow f) (says f a)
| sr_def : forall d f, sent_row a (DDef d f) (says f a)
| sr_if_on : forall g f, flag a g = true -> sent_row a (DIf g f) (says f a)
| sr_if_off : forall g f, flag a g = false -> sent_row a (DIf g f) []
| sr_else_on : forall g d f, flag a g = true -> sent_row a (DIfElse g d f) (says f a)
| sr_else_off : forall g d f l, flag a g = false -> reads f d l -> sent_row a (DIfElse g d f) l.
(** What it says if it was left out at the end: everything 0 or empty,
    or the default that the layout gives. *)
Inductive omitted_row (on : name -> bool) : drow -> list (name * val) -> Prop :=
| or_row : forall f, omitted_row on (DRow f) (says f [])
| or_def : forall d f l, reads f d l -> omitted_row on (DDef d f) l
| or_if_on : forall g f, on g = true -> omitted_row on (DIf g f) (says f [])
| or_if_off : forall g f, on g = false -> omitted_row on (DIf g f) []
| or_else_on : forall g d f, on g = true -> omitted_row on (DIfElse g d f) (says f [])
| or_else_off : forall g d f l, on g = false -> reads f d l -> omitted_row on (DIfElse g d f) l.
(** The flags a row can hold, and the names it sets. *)
Definition el_names (els : list bme) : list name := flat_map (fun e => match be_const e with CNone => [be_name e] | _ => [] end) els.
Definition flags_of (r : drow) : list name := match r with DRow (FBMX _ els) => el_names els | _ => [] end.
Definition fld_names (f : fld) : list name :=
  match f with
  | FTy _ n CNone | FInt _ n | FAV _ n | FVer _ n => [n]
  | FTy _ _ _ => []
  | FBMX _ els | FBMap _ els => el_names els
  end.
Definition row_fld (r : drow) : fld := match r with DRow f | DIf _ f | DIfElse _ _ f | DDef _ f => f end.
(** A message of which the rows [l1] were sent and [l2] left out. *)
Definition told (l1 l2 : list drow) (a : attrs) (facts : list (name * val)) : Prop :=
  exists f1 f2, Forall2 (sent_row a) l1 f1 /\
    Forall2 (omitted_row (fun g => existsb (name_eqb g) (flat_map flags_of l1) && flag a g)) l2 f2 /\ facts = concat f1 ++ concat f2.

(** *** Layouts that make sense *)
Definition el_ok (top : Z) (e : bme) : bool :=
  (0 <=? be_start e) && (1 <=? be_bits e) && (be_start e + be_bits e <=? top) &&
  match be_const e with CNone | CRo (VInt 0) => true | _ => false end.
Fixpoint distinct (l : list name) : bool :=
  match l with [] => true | n :: t => negb (existsb (name_eqb n) t) && distinct t end.
Definition fld_ok (f : fld) : bool :=
  match f with
  | FTy (TB n) _ CNone => (1 <=? n)%nat && (n <=? 128)%nat
  | FTy (TA m) _ CNone | FTy (TI m) _ CNone => (0 <=? m) && (m <=? 255)
  | FBMX m els => (1 <=? m)%nat && forallb (el_ok (7 * Z.of_nat m)) els && distinct (el_names els)
  | FBMap k els => (1 <=? k)%nat && (k <=? 128)%nat && forallb (el_ok (8 * Z.of_nat k)) els && distinct (el_names els)
  | FInt m _ => (0 <=? m) && (m <=? 255)
  | FAV k _ | FVer k _ => (1 <=? k)%nat && (k <=? 128)%nat
  | _ => false
  end.
(** The rest of the message, which may be empty. *)
Definition final (r : drow) : bool := match r with DDef [] (FTy TPAYLOAD _ CNone) => true | _ => false end.
Fixpoint rows_ok (seen : list name) (l : list drow) : bool :=
  match l with
  | [] => true
  | r :: t =>
      (fld_ok (row_fld r) || (final r && match t with [] => true | _ => false end)) &&
      match r with DIf g _ | DIfElse g _ _ => existsb (name_eqb g) seen | _ => true end &&
      forallb (fun n => negb (existsb (name_eqb n) seen)) (fld_names (row_fld r)) &&
      rows_ok (flags_of r ++ seen) t
  end.
Definition has_default (r : drow) : Prop := match r with DIfElse _ d f | DDef d f => exists l, reads f d l | _ => True end.

(** *** Fields *)
Lemma mem_spec : forall n l, existsb (name_eqb n) l = true <-> In n l.
Proof.
  intros n l. rewrite existsb_exists. split.
  - intros (x & I & E). destruct (name_eqb_spec n x) as [-> | N]; [exact I | discriminate E].
  - intro I. exists n. split; [exact I|]. destruct (name_eqb_spec n n) as [_ | N]; [reflexivity | contradiction N; reflexivity].
Qed.
Lemma mem_false : forall n l, existsb (name_eqb n) l = false <-> ~ In n l.
Proof. intros n l. rewrite <- mem_spec. destruct (existsb (name_eqb n) l); split; intro H; try congruence. Qed.
Lemma distinct_nodup : forall l, distinct l = true -> NoDup l.
Proof.
  induction l as [|n l IH]; intro H; [constructor|]. cbn [distinct] in H. apply andb_prop in H as [H1 H2]. constructor; [|auto].
  apply mem_false. destruct (existsb (name_eqb n) l); [discriminate H1 | reflexivity].
Qed.
Lemma el_ok_spec : forall top e, el_ok top e = true ->
  0 <= be_start e /\ 1 <= be_bits e /\ be_start e + be_bits e <= top /\ (be_const e = CNone \/ be_const e = CRo (VInt 0)).
Proof.
  intros top e H. unfold el_ok in H. apply andb_prop in H as [H C]. apply andb_prop in H as [H B3]. apply andb_prop in H as [B1 B2].
  split; [lia|]. split; [lia|]. split; [lia|]. destruct (be_const e) as [|[z| | | |]|]; try discriminate C; auto. destruct z; try discriminate C. auto.
Qed.
(** The bits of the whole field. *)
Definition zval (a : attrs) (e : bme) : Z := match value a (be_name e) (be_const e) (VInt 0) with VInt z => z | _ => 0 end.
Lemma getattr_value : forall a n c d, match getattr a n c with Some v => v | None => d end = value a n c d.
Proof. intros a n [|v|v] d; reflexivity. Qed.
Lemma shr_small : forall z b, 0 <= b -> Z.shiftr z b = 0 -> 0 <= z < 2 ^ b.
Proof. intros z b B H. rewrite Z.shiftr_div_pow2 in H by exact B. assert (0 < 2 ^ b) by (apply Z.pow_pos_nonneg; lia). apply Z.div_small_iff in H; lia. Qed.
Lemma fold_bits : forall top els a f0 F, forallb (el_ok top) els = true -> 0 <= f0 -> bm_fold els a f0 = Ok F ->
  0 <= F /\
  Forall (fun e => value a (be_name e) (be_const e) (VInt 0) = VInt (zval a e) /\ 0 <= zval a e < 2 ^ be_bits e) els /\
  forall p, 0 <= p -> Z.testbit F p = Z.testbit f0 p || existsb (fun e => Z.testbit (zval a e) (p - be_start e)) els.
Proof.
  intros top. induction els as [|e els IH]; intros a f0 F W P H; cbn [bm_fold] in H.
  - injection H as <-. split; [exact P|]. split; [constructor|]. intros p _. cbn [existsb]. rewrite orb_false_r. reflexivity.
  - cbn [forallb] in W. apply andb_prop in W as [W1 W2]. apply el_ok_spec in W1 as (B1 & B2 & B3 & _). rewrite getattr_value in H.
    destruct (value a (be_name e) (be_const e) (VInt 0)) as [z| | | |] eqn:V; try discriminate H.
    destruct (Z.eqb_spec (Z.shiftr z (be_bits e)) 0) as [S | S]; cbn [negb] in H; [|discriminate H].
    apply shr_small in S; [|lia].
    assert (P1 : 0 <= Z.lor f0 (Z.shiftl z (be_start e))) by (apply Z.lor_nonneg; split; [exact P | apply Z.shiftl_nonneg; lia]).
    destruct (IH a _ F W2 P1 H) as (F0 & FV & FB). assert (Zv : zval a e = z) by (unfold zval; rewrite V; reflexivity).
    split; [exact F0|]. split; [constructor; [rewrite Zv; auto | exact FV]|].
    intros p Hp. rewrite FB by exact Hp. rewrite Z.lor_spec, Z.shiftl_spec by exact Hp. cbn [existsb]. rewrite Zv, orb_assoc. reflexivity.
Qed.
Lemma fold_top : forall top els a F, 0 <= top -> forallb (el_ok top) els = true -> bm_fold els a 0 = Ok F -> 0 <= F < 2 ^ top.
Proof.
  intros top els a F T W H. destruct (fold_bits top els a 0 F W ltac:(lia) H) as (F0 & FV & FB). split; [exact F0|].
  apply testbit_small; [exact T | exact F0|]. intros p Hp. rewrite FB by lia. rewrite Z.bits_0. cbn [orb].
  destruct (existsb (fun e => Z.testbit (zval a e) (p - be_start e)) els) eqn:X; [|reflexivity]. exfalso.
  apply existsb_exists in X as (e & I & X). rewrite Forall_forall in FV. destruct (FV e I) as [_ R].
  rewrite forallb_forall in W. apply W in I. apply el_ok_spec in I as (B1 & B2 & B3 & _).
  rewrite (small_testbit _ (be_bits e) _ R) in X by lia. discriminate X.
Qed.
Lemma fold_val : forall top els a F e, forallb (el_ok top) els = true -> bits_agree els a -> bm_fold els a 0 = Ok F -> In e els ->
  VInt (Z.land (Z.shiftr F (be_start e)) (Z.ones (be_bits e))) = value a (be_name e) (be_const e) (VInt 0).
Proof.
  intros top els a F e W A H I. destruct (fold_bits top els a 0 F W ltac:(lia) H) as (F0 & FV & FB).
  pose proof FV as FV'. rewrite Forall_forall in FV. destruct (FV e I) as [V R]. rewrite V. f_equal.
  rewrite forallb_forall in W. pose proof (W e I) as We. apply el_ok_spec in We as (B1 & B2 & B3 & _).
  apply Z.bits_inj'. intros n Hn. rewrite Z.land_spec, Z.shiftr_spec by lia. destruct (Z.lt_ge_cases n (be_bits e)) as [L | G].
  - rewrite Z.ones_spec_low by lia. rewrite andb_true_r, FB by lia. rewrite Z.bits_0. cbn [orb].
    destruct (existsb (fun e0 => Z.testbit (zval a e0) (n + be_start e - be_start e0)) els) eqn:X; symmetry.
    + apply existsb_exists in X as (e2 & I2 & X). destruct (FV e2 I2) as [V2 R2]. pose proof (W e2 I2) as We2. apply el_ok_spec in We2 as (C1 & C2 & C3 & _).
      assert (In2 : be_start e2 <= n + be_start e < be_start e2 + be_bits e2).
      { destruct (Z.lt_ge_cases (n + be_start e - be_start e2) 0) as [Neg | NN]; [rewrite Z.testbit_neg_r in X by exact Neg; discriminate X|].
        destruct (Z.lt_ge_cases (n + be_start e - be_start e2) (be_bits e2)) as [Lo | Hi]; [lia|]. rewrite (small_testbit _ (be_bits e2) _ R2) in X by lia. discriminate X. }
      rewrite <- X. replace n with (n + be_start e - be_start e) at 1 by lia. apply (A e e2 _ _ (n + be_start e) I I2 V V2); lia.
    + destruct (Z.testbit (zval a e) n) eqn:T; [|reflexivity]. rewrite <- X. symmetry. apply existsb_exists. exists e. split; [exact I|].
      replace (n + be_start e - be_start e) with n by lia. exact T.
  - rewrite Z.ones_spec_high by lia. rewrite andb_false_r. symmetry. apply (small_testbit _ (be_bits e) _ R). exact G.
Qed.
(** Setting the bits. *)
Definition el_says (a : attrs) (els : list bme) : list (name * val) :=
  flat_map (fun e => held (be_name e) (be_const e) (value a (be_name e) (be_const e) (VInt 0))) els.
Lemma unpack_says : forall top F a els a0, forallb (el_ok top) els = true ->
  (forall e, In e els -> VInt (Z.land (Z.shiftr F (be_start e)) (Z.ones (be_bits e))) = value a (be_name e) (be_const e) (VInt 0)) ->
  bm_unpack els F a0 = Ok (rev (el_says a els) ++ a0).
Proof.
  intros top F a. induction els as [|e els IH]; intros a0 W V; [reflexivity|]. cbn [forallb] in W. apply andb_prop in W as [W1 W2].
  apply el_ok_spec in W1 as (_ & _ & _ & C). cbn [bm_unpack]. rewrite (V e (or_introl eq_refl)).
  assert (S : setattr a0 (be_name e) (be_const e) (value a (be_name e) (be_const e) (VInt 0)) =
              Ok (rev (held (be_name e) (be_const e) (value a (be_name e) (be_const e) (VInt 0))) ++ a0)).
  { destruct C as [-> | ->]; reflexivity. }
  rewrite S. cbn [bind]. rewrite IH; [|exact W2 | intros x I; apply V; right; exact I]. unfold el_says. cbn [flat_map]. rewrite rev_app_distr, <- app_assoc. reflexivity.
Qed.
Lemma zeros_dec : forall n, le_dec (repeat 0 n) = 0.
Proof. induction n as [|n IH]; [reflexivity|]. cbn [repeat le_dec]. rewrite IH. reflexivity. Qed.
Lemma bit_length_bytes : forall v, 0 <= v -> v < 256 ^ ((bit_length v + 7) / 8) /\ 0 <= (bit_length v + 7) / 8.
Proof.
  intros v H. unfold bit_length. destruct (Z.eqb_spec v 0) as [-> | N]; [cbn; lia|]. rewrite Z.abs_eq by exact H.
  pose proof (Z.log2_nonneg v) as L. split; [|lia]. change 256 with (2 ^ 8). rewrite <- Z.pow_mul_r by lia.
  apply Z.log2_lt_pow2; lia.
Qed.
(** A field that was sent. *)
Lemma field_sent : forall f a b a0 rest, fld_ok f = true -> agree f a -> enc_fld f a = Ok b ->
  b <> [] /\ dec_fld f a0 (b ++ rest) = Ok (rev (says f a) ++ a0, rest).
Proof.
  intros f a b a0 rest W A H. destruct f as [t n c|m els|k els|m n|k n|k n]; cbn [enc_fld dec_fld fld_ok agree says] in *.
  - destruct c as [|v|v]; [|destruct t; discriminate W|destruct t; discriminate W]. rewrite getattr_value in H. cbn [held value].
    destruct t as [k|k|k|m|m|m| |k| |t o|r]; try discriminate W; cbn [enc_ty dec_ty dflt empty] in *.
    + apply andb_prop in W as [W1 W2]. destruct (value a n CNone (VInt 0)) as [z| | | |] eqn:V; try discriminate H. cbn [value] in V. rewrite V.
      apply to_bytes_inv in H as [R ->]. rewrite fixed_dec_ok by apply le_enc_length. cbn [bind setattr atfield rev app]. rewrite le_dec_enc by exact R.
      split; [|reflexivity]. destruct k; [discriminate W1 | discriminate].
    + apply andb_prop in W as [W1 W2]. destruct (value a n CNone (VBytes [])) as [|l| | |] eqn:V; try discriminate H. cbn [value] in V. rewrite V.
      unfold image_enc in H. destruct (Z.ltb_spec m (zlen l)) as [L | L]; [discriminate H|]. destruct (Z.ltb_spec 255 (zlen l)) as [L2 | L2]; [discriminate H|].
      injection H as <-. split; [discriminate|]. destruct (image_enc_dec m l rest L L2) as [_ D]. rewrite D. reflexivity.
    + apply andb_prop in W as [W1 W2]. destruct (value a n CNone (VStr [])) as [| |l| |] eqn:V; try discriminate H. cbn [value] in V. rewrite V.
      unfold ascii_enc in H. destruct (forallb byte_okb l); [|discriminate H].
      unfold image_enc in H. destruct (Z.ltb_spec m (zlen l)) as [L | L]; [discriminate H|]. destruct (Z.ltb_spec 255 (zlen l)) as [L2 | L2]; [discriminate H|].
      injection H as <-. split; [discriminate|]. destruct (image_enc_dec m l rest L L2) as [_ D]. rewrite D. reflexivity.
  - apply andb_prop in W as [W _]. apply andb_prop in W as [W1 W2]. destruct (bm_fold els a 0) as [F|] eqn:E; [|discriminate H]. cbn [bind] in H.
    pose proof (fold_top (7 * Z.of_nat m) els a F ltac:(lia) W2 E) as R. apply Nat.leb_le in W1. destruct (ex_enc_dec m F rest W1 R) as (r & E2 & RP & D).
    rewrite E2 in H. injection H as <-. split; [apply (ex_repr_cons F r RP)|]. rewrite D. cbn [bind].
    rewrite (unpack_says (7 * Z.of_nat m) F a els a0 W2); [reflexivity|]. intros e I. apply (fold_val (7 * Z.of_nat m) els a F e W2 A E I).
  - apply andb_prop in W as [W _]. apply andb_prop in W as [W W2]. apply andb_prop in W as [W1 W3]. unfold bm_enc in H. destruct (bm_fold els a 0) as [F|] eqn:E; [|discriminate H]. cbn [bind] in H.
    apply to_bytes_inv in H as [R ->]. rewrite fixed_dec_ok by apply le_enc_length. cbn [bind]. rewrite le_dec_enc by exact R.
    split; [destruct k; [discriminate W1 | discriminate]|]. rewrite (unpack_says (8 * Z.of_nat k) F a els a0 W2); [reflexivity|]. intros e I. apply (fold_val (8 * Z.of_nat k) els a F e W2 A E I).
  - apply andb_prop in W as [W1 W2].
    assert (K : exists z, value a n CNone (VInt 0) = VInt z /\ int_enc m z = Ok b).
    { cbn [value]. destruct (get a n) as [[z| | | |]|]; try discriminate H; eauto. }
    destruct K as (z & V & K). rewrite V. clear H. unfold int_enc in K. cbv zeta in K.
    set (l := (bit_length z + 7) / 8) in *. destruct (Z.ltb_spec m l) as [L | L]; [discriminate K|].
    destruct (to_bytes (Z.to_nat l) z) as [c|] eqn:T; [|discriminate K]. cbn [bind] in K. injection K as <-. split; [discriminate|].
    apply to_bytes_inv in T as [R ->]. assert (L0 : 0 <= l) by (apply bit_length_bytes; lia).
    assert (ZL : zlen (le_enc (Z.to_nat l) z) = l) by (rewrite zlen_le_enc; lia).
    destruct (image_enc_dec m (le_enc (Z.to_nat l) z) rest ltac:(lia) ltac:(lia)) as [_ D]. rewrite ZL in D. rewrite D. cbn [bind]. rewrite le_dec_enc by exact R. reflexivity.
  - apply andb_prop in W as [W1 W2].
    assert (K : exists s, value a n CNone (VStr []) = VStr s /\ av_enc k s = Ok b).
    { cbn [value]. destruct (get a n) as [[z| | | |]|]; try discriminate H; eauto. }
    destruct K as (s & V & K). rewrite V. cbn [padded]. unfold av_enc in K. destruct (forallb byte_okb s); [|discriminate K].
    unfold bv_enc in K. destruct (Z.ltb_spec (Z.of_nat k) (zlen s)) as [L | L]; [discriminate K|]. injection K as <-. unfold zlen in L.
    assert (LN : length (s ++ repeat 0 (k - length s)) = k) by (rewrite app_length, repeat_length; lia).
    split; [intro X; rewrite X in LN; cbn [length] in LN; destruct k; [discriminate W1 | discriminate LN]|].
    rewrite (fixed_dec_ok k _ rest LN). reflexivity.
  - apply andb_prop in W as [W1 W2]. cbn [value]. destruct (get a n) as [[z|l| | |]|]; try discriminate H.
    destruct (Z.eqb_spec (zlen l) (Z.of_nat k)) as [L | L]; [|discriminate H]. injection H as <-. unfold zlen in L.
    split; [intro X; rewrite X in L; cbn [length] in L; destruct k; [discriminate W1 | discriminate L]|].
    rewrite (fixed_dec_ok k l rest) by lia. reflexivity.
Qed.
(** A field that was left out. *)
Lemma default_split : forall k, (k <= 128)%nat -> dapdefault = repeat 0 k ++ repeat 0 (128 - k).
Proof. intros k H. unfold dapdefault. rewrite <- repeat_app. f_equal. lia. Qed.
Lemma field_omitted : forall f a0, fld_ok f = true -> exists rest, dec_fld f a0 dapdefault = Ok (rev (says f []) ++ a0, rest).
Proof.
  assert (EX : forall m, (1 <= m)%nat -> ex_dec m dapdefault = Ok (0, repeat 0 127)) by (intros [|m] L; [lia | reflexivity]).
  assert (IM : forall m, 0 <= m -> image_dec m dapdefault = Ok ([], repeat 0 127)).
  { intros m L. change dapdefault with (0 :: repeat 0 127). unfold image_dec. destruct (Z.ltb_spec m 0) as [X | X]; [lia | reflexivity]. }
  assert (FX : forall k, (k <= 128)%nat -> fixed_dec k dapdefault = Ok (repeat 0 k, repeat 0 (128 - k))).
  { intros k L. rewrite (default_split k L). apply fixed_dec_ok, repeat_length. }
  assert (BM : forall top els a0, forallb (el_ok top) els = true -> bm_unpack els 0 a0 = Ok (rev (el_says [] els) ++ a0)).
  { intros top els a0 W. apply (unpack_says top 0 [] els a0 W). intros e I. rewrite forallb_forall in W. apply W in I. apply el_ok_spec in I as (_ & _ & _ & C).
    rewrite Z.shiftr_0_l, Z.land_0_l. destruct C as [-> | ->]; reflexivity. }
  intros f a0 W. destruct f as [t n c|m els|k els|m n|k n|k n]; cbn [dec_fld fld_ok says] in *.
  - destruct c as [|v|v]; [|destruct t; discriminate W|destruct t; discriminate W]. cbn [held value get].
    destruct t as [k|k|k|m|m|m| |k| |t o|r]; try discriminate W; cbn [dec_ty empty] in *; apply andb_prop in W as [W1 W2].
    + apply Nat.leb_le in W2. rewrite (FX k W2). cbn [bind setattr atfield]. rewrite zeros_dec. eexists. reflexivity.
    + rewrite (IM m) by lia. eexists. reflexivity.
    + rewrite (IM m) by lia. eexists. reflexivity.
  - apply andb_prop in W as [W _]. apply andb_prop in W as [W1 W2]. apply Nat.leb_le in W1. rewrite (EX m W1). cbn [bind]. rewrite (BM _ els a0 W2). eexists. reflexivity.
  - apply andb_prop in W as [W _]. apply andb_prop in W as [W W2]. apply andb_prop in W as [W1 W3]. apply Nat.leb_le in W3. rewrite (FX k W3). cbn [bind]. rewrite zeros_dec, (BM _ els a0 W2). eexists. reflexivity.
  - apply andb_prop in W as [W1 W2]. rewrite (IM m) by lia. eexists. reflexivity.
  - apply andb_prop in W as [W1 W2]. apply Nat.leb_le in W2. rewrite (FX k W2). cbn [bind value get padded app length]. rewrite Nat.sub_0_r. eexists. reflexivity.
  - apply andb_prop in W as [W1 W2]. apply Nat.leb_le in W2. rewrite (FX k W2). eexists. reflexivity.
Qed.

(** *** Names *)
Lemma el_says_names : forall a els, map fst (el_says a els) = el_names els.
Proof.
  intros a. induction els as [|e els IH]; [reflexivity|]. unfold el_says, el_names in *. cbn [flat_map]. rewrite map_app, IH. f_equal.
  destruct (be_const e); reflexivity.
Qed.
Lemma says_names : forall f a, map fst (says f a) = fld_names f.
Proof. intros [t n [|v|v]|m els|k els|m n|k n|k n] a; try reflexivity; apply el_says_names. Qed.
Lemma get_skip : forall l a0 n, ~ In n (map fst l) -> get (rev l ++ a0) n = get a0 n.
Proof.
  induction l as [|[m v] l IH]; intros a0 n N; [reflexivity|]. cbn [rev]. rewrite <- app_assoc. rewrite IH by (intro X; apply N; right; exact X).
  cbn [app get]. destruct (name_eqb_spec m n) as [-> | D]; [contradiction N; left; reflexivity | reflexivity].
Qed.
Lemma get_said : forall l a0 n v, NoDup (map fst l) -> In (n, v) l -> get (rev l ++ a0) n = Some v.
Proof.
  induction l as [|[m w] l IH]; intros a0 n v N I; [contradiction I|]. cbn [map fst] in N. inversion N as [|? ? N1 N2]; subst. cbn [rev]. rewrite <- app_assoc. destruct I as [E | I].
  - injection E as -> ->. rewrite get_skip by exact N1. cbn [app get]. destruct (name_eqb_spec n n) as [_ | D]; [reflexivity | contradiction D; reflexivity].
  - apply IH; assumption.
Qed.
Lemma el_said : forall a els n, In n (el_names els) -> In (n, value a n CNone (VInt 0)) (el_says a els).
Proof.
  intros a. induction els as [|e els IH]; intros n I; [contradiction I|]. unfold el_names, el_says in *. cbn [flat_map] in *. apply in_app_or in I as [I | I]; apply in_or_app.
  - left. destruct (be_const e); [|contradiction I|contradiction I]. destruct I as [<- | []]. left. reflexivity.
  - right. apply IH, I.
Qed.
Lemma flag_new : forall a m els a0 g, fld_ok (FBMX m els) = true -> In g (el_names els) ->
  flag (rev (says (FBMX m els) a) ++ a0) g = flag a g.
Proof.
  intros a m els a0 g W I. cbn [fld_ok] in W. apply andb_prop in W as [_ W]. apply distinct_nodup in W. unfold flag.
  change (says (FBMX m els) a) with (el_says a els).
  rewrite (get_said (el_says a els) a0 g (value a g CNone (VInt 0))); [|rewrite el_says_names; exact W | apply el_said, I]. cbn [value]. destruct (get a g); reflexivity.
Qed.

(** *** The loop *)
Definition st (done : bool) (buf x : list Z) : Prop := (x <> [] /\ done = false /\ buf = x) \/ (x = [] /\ done = true).
Definition agree_row (a : attrs) (r : drow) : Prop :=
  match r with DIf g f | DIfElse g _ f => flag a g = true -> agree f a | DRow f | DDef _ f => agree f a end.
Definition same_flag (a0 a : attrs) (r : drow) : Prop := match r with DIf g _ | DIfElse g _ _ => flag a0 g = flag a g | _ => True end.
Lemma st_next : forall x, st (match x with [] => true | _ => false end) x x.
Proof. intros [|c x]; [right; auto | left; split; [discriminate | auto]]. Qed.
Lemma st_same : forall done buf x, st done buf x ->
  st (match (if done then dapdefault else buf) with [] => true | _ => done end) (if done then dapdefault else buf) x.
Proof.
  intros done buf x [(N & -> & ->) | (-> & ->)]; [|right; split; reflexivity]. left. split; [exact N|]. destruct x; [contradiction N; reflexivity | auto].
Qed.
Lemma row_sent : forall r a b1 x a0 l done buf, fld_ok (row_fld r) = true -> agree_row a r -> enc_drow r a = Ok b1 -> sent_row a r l ->
  same_flag a0 a r -> st done buf (b1 ++ x) ->
  exists buf', dec_drow done r a0 (if done then dapdefault else buf) = Ok (rev l ++ a0, buf') /\ st (match buf' with [] => true | _ => done end) buf' x.
Proof.
  intros r a b1 x a0 l done buf W A E S G T.
  assert (ON : forall f, fld_ok f = true -> agree f a -> enc_fld f a = Ok b1 ->
            done = false /\ dec_fld f a0 buf = Ok (rev (says f a) ++ a0, x) /\ st (match x with [] => true | _ => done end) x x).
  { intros f Wf Af Ef. destruct (field_sent f a b1 a0 x Wf Af Ef) as [NB D]. destruct T as [(N & -> & ->) | (X & _)].
    - split; [reflexivity|]. split; [exact D | apply st_next].
    - destruct b1; [contradiction NB; reflexivity | discriminate X]. }
  destruct S as [f|d f|g f Fl|g f Fl|g d f Fl|g d f l Fl R]; cbn [row_fld agree_row enc_drow same_flag dec_drow] in *.
  - destruct (ON f W A E) as (-> & D & S'). exists x. auto.
  - destruct (ON f W A E) as (-> & D & S'). exists x. auto.
  - rewrite Fl in E. rewrite G, Fl. destruct (ON f W (A Fl) E) as (-> & D & S'). exists x. auto.
  - rewrite Fl in E. injection E as <-. rewrite G, Fl. eexists. split; [reflexivity|]. apply st_same, T.
  - rewrite Fl in E. rewrite G, Fl. destruct (ON f W (A Fl) E) as (-> & D & S'). exists x. auto.
  - rewrite Fl in E. injection E as <-. rewrite G, Fl. destruct R as (y & Ey & Ay & ->). destruct (field_sent f y d a0 [] W Ay Ey) as [_ D]. rewrite app_nil_r in D. rewrite D.
    cbn [bind]. eexists. split; [reflexivity|]. apply st_same, T.
Qed.
Lemma sent_names : forall a r l, sent_row a r l -> incl (map fst l) (fld_names (row_fld r)).
Proof.
  intros a r l S. destruct S as [f|d f|g f Fl|g f Fl|g d f Fl|g d f l Fl R]; cbn [row_fld]; try (rewrite says_names; apply incl_refl).
  - intros n [].
  - destruct R as (y & _ & _ & ->). rewrite says_names. apply incl_refl.
Qed.
Fixpoint seen_after (l : list drow) (seen : list name) : list name := match l with [] => seen | r :: t => seen_after t (flags_of r ++ seen) end.
Lemma flags_step : forall r a a0 l seen, fld_ok (row_fld r) = true -> sent_row a r l ->
  forallb (fun n => negb (existsb (name_eqb n) seen)) (fld_names (row_fld r)) = true ->
  (forall g, In g seen -> flag a0 g = flag a g) -> forall g, In g (flags_of r ++ seen) -> flag (rev l ++ a0) g = flag a g.
Proof.
  intros r a a0 l seen W S N H g I. apply in_app_or in I as [I | I].
  - destruct S as [f|d f|g' f Fl|g' f Fl|g' d f Fl|g' d f l Fl R]; cbn [flags_of] in I; try contradiction I. destruct f as [t n c|m els|k els|m n|k n|k n]; try contradiction I.
    apply flag_new; assumption.
  - unfold flag. rewrite get_skip; [apply H, I|]. intro X. apply (sent_names a r l S) in X. rewrite forallb_forall in N. specialize (N g X).
    apply mem_spec in I. rewrite I in N. discriminate N.
Qed.
Lemma loop_sent : forall l1 l2 a e seen a0 b done buf F, rows_ok seen (l1 ++ l2) = true -> Forall (agree_row a) l1 -> enc_msg l1 a = Ok b ->
  (forall g, In g seen -> flag a0 g = flag a g) -> Forall2 (sent_row a) l1 F -> (existsb final l1 = true -> e = []) -> st done buf (b ++ e) ->
  rows_ok (seen_after l1 seen) l2 = true /\
  exists done' buf', dec_loop (l1 ++ l2) done a0 buf = dec_loop l2 done' (rev (concat F) ++ a0) buf' /\ st done' buf' e /\
    forall g, In g (seen_after l1 seen) -> flag (rev (concat F) ++ a0) g = flag a g.
Proof.
  induction l1 as [|r l1 IH]; intros l2 a e seen a0 b done buf F W A E H S P T.
  - inversion S; subst. cbn [enc_msg] in E. injection E as <-. cbn [app concat rev seen_after dec_loop] in *. split; [exact W|]. exists done, buf. auto.
  - inversion S as [|? l ? F' S1 S2]; subst. inversion A as [|? ? A1 A2]; subst. cbn [app rows_ok] in W. apply andb_prop in W as [W W4]. apply andb_prop in W as [W W3]. apply andb_prop in W as [W1 W2].
    cbn [enc_msg] in E. destruct (enc_drow r a) as [b1|] eqn:E1; [|discriminate E]. cbn [bind] in E. destruct (enc_msg l1 a) as [b2|] eqn:E2; [|discriminate E]. cbn [bind] in E. injection E as <-.
    cbn [existsb] in P. apply orb_prop in W1 as [W1 | W1].
    + rewrite <- app_assoc in T. assert (G : same_flag a0 a r). { destruct r as [f|g f|g d f|d f]; cbn [same_flag]; [exact I | | | exact I]; apply H, mem_spec, W2. }
      destruct (row_sent r a b1 (b2 ++ e) a0 l done buf W1 A1 E1 S1 G T) as (buf' & D & T').
      pose proof (flags_step r a a0 l seen W1 S1 W3 H) as H'.
      assert (P' : existsb final l1 = true -> e = []) by (intro X; apply P; rewrite X; apply orb_true_r).
      destruct (IH l2 a e (flags_of r ++ seen) (rev l ++ a0) b2 _ buf' F' W4 A2 E2 H' S2 P' T') as (R & done2 & buf2 & D2 & T2 & H2).
      split; [exact R|]. exists done2, buf2. cbn [app dec_loop]. rewrite D. cbn [bind]. cbn [concat seen_after]. rewrite rev_app_distr, <- app_assoc. auto.
    + apply andb_prop in W1 as [Fi W1]. destruct (l1 ++ l2) as [|x y] eqn:L; [|discriminate W1]. apply app_eq_nil in L as [-> ->]. inversion S2; subst.
      rewrite Fi in P. specialize (P eq_refl) as ->. cbn [enc_msg] in E2. injection E2 as <-. rewrite !app_nil_r in T. cbn [app seen_after concat]. rewrite app_nil_r.
      split; [reflexivity|]. destruct r as [f|g f|g d f|d f]; try discriminate Fi. destruct d as [|? ?]; [|discriminate Fi].
      destruct f as [t n c|m els|k els|m n|k n|k n]; try discriminate Fi. destruct t as [k|k|k|m|m|m| |k| |t o|q]; try discriminate Fi. destruct c as [|v|v]; try discriminate Fi.
      cbn [enc_drow enc_fld] in E1. rewrite getattr_value in E1. cbn [enc_ty dflt] in E1. inversion S1; subst. cbn [says held empty flags_of app].
      destruct (value a n CNone (VBytes [])) as [|c| | |] eqn:V; try discriminate E1. injection E1 as ->.
      assert (X : dec_drow done (DDef [] (FTy TPAYLOAD n CNone)) a0 (if done then dapdefault else buf) = Ok ((n, VBytes b1) :: a0, [])).
      { destruct T as [(N & -> & ->) | (-> & ->)]; reflexivity. }
      exists true, []. cbn [dec_loop]. rewrite X. cbn [bind rev app]. split; [reflexivity|]. split; [right; auto|].
      intros g I. unfold flag. cbn [get]. destruct (name_eqb_spec n g) as [-> | _]; [|apply H, I].
      cbn [row_fld fld_names forallb] in W3. apply mem_spec in I. rewrite I in W3. discriminate W3.
Qed.
Lemma omitted_names : forall on r l, omitted_row on r l -> incl (map fst l) (fld_names (row_fld r)).
Proof.
  intros on r l S. destruct S as [f|d f l R|g f Fl|g f Fl|g d f Fl|g d f l Fl R]; cbn [row_fld]; try (rewrite says_names; apply incl_refl).
  - destruct R as (y & _ & _ & ->). rewrite says_names. apply incl_refl.
  - intros n [].
  - destruct R as (y & _ & _ & ->). rewrite says_names. apply incl_refl.
Qed.
Lemma loop_omitted : forall l2 on seen a0 buf F, rows_ok seen l2 = true -> (forall g, In g seen -> flag a0 g = on g) ->
  (forall g, In g (flat_map flags_of l2) -> on g = false) -> Forall2 (omitted_row on) l2 F ->
  exists buf', dec_loop l2 true a0 buf = Ok (rev (concat F) ++ a0, buf', true).
Proof.
  induction l2 as [|r l2 IH]; intros on seen a0 buf F W H Z S.
  - inversion S; subst. exists buf. reflexivity.
  - inversion S as [|? l ? F' S1 S2]; subst. cbn [rows_ok] in W. apply andb_prop in W as [W W4]. apply andb_prop in W as [W W3]. apply andb_prop in W as [W1 W2].
    assert (D : exists buf', dec_drow true r a0 dapdefault = Ok (rev l ++ a0, buf')).
    { assert (RD : forall f d, fld_ok f = true -> reads f d l -> dec_fld f a0 d = Ok (rev l ++ a0, [])).
      { intros f d Wf (y & Ey & Ay & ->). destruct (field_sent f y d a0 [] Wf Ay Ey) as [_ D]. rewrite app_nil_r in D. exact D. }
      apply orb_prop in W1 as [W1 | W1].
      - destruct S1 as [f|d f l R|g f Fl|g f Fl|g d f Fl|g d f l Fl R]; cbn [row_fld dec_drow] in *.
        + apply field_omitted, W1.
        + exists []. apply RD; assumption.
        + apply mem_spec in W2. rewrite (H g W2), Fl. apply field_omitted, W1.
        + apply mem_spec in W2. rewrite (H g W2), Fl. eexists. reflexivity.
        + apply mem_spec in W2. rewrite (H g W2), Fl. apply field_omitted, W1.
        + apply mem_spec in W2. rewrite (H g W2), Fl. rewrite (RD f d W1 R). eexists. reflexivity.
      - apply andb_prop in W1 as [Fi _]. destruct r as [f|g f|g d f|d f]; try discriminate Fi. destruct d as [|? ?]; [|discriminate Fi].
        destruct f as [t n c|m els|k els|m n|k n|k n]; try discriminate Fi. destruct t as [k|k|k|m|m|m| |k| |t o|q]; try discriminate Fi. destruct c as [|v|v]; try discriminate Fi.
        inversion S1 as [|? ? ? R| | | |]; subst. destruct R as (y & Ey & _ & ->). cbn [enc_fld] in Ey. rewrite getattr_value in Ey. cbn [enc_ty dflt says held empty] in *.
        destruct (value y n CNone (VBytes [])) as [|c| | |]; try discriminate Ey. injection Ey as ->. exists []. reflexivity. }
    destruct D as [buf' D]. cbn [dec_loop]. rewrite D. cbn [bind].
    assert (H' : forall g, In g (flags_of r ++ seen) -> flag (rev l ++ a0) g = on g).
    { intros g I. apply in_app_or in I as [I | I].
      - rewrite (Z g) by (cbn [flat_map]; apply in_or_app; left; exact I).
        destruct S1 as [f|d f l R|g' f Fl|g' f Fl|g' d f Fl|g' d f l Fl R]; cbn [flags_of] in I; try contradiction I. destruct f as [t n c|m els|k els|m n|k n|k n]; try contradiction I.
        cbn [row_fld] in W1. rewrite (flag_new [] m els a0 g); [reflexivity | | exact I]. apply orb_prop in W1 as [W1 | W1]; [exact W1 | discriminate W1].
      - unfold flag. rewrite get_skip; [apply H, I|]. intro X. apply (omitted_names on r l S1) in X. rewrite forallb_forall in W3. specialize (W3 g X).
        apply mem_spec in I. rewrite I in W3. discriminate W3. }
    assert (Z' : forall g, In g (flat_map flags_of l2) -> on g = false) by (intros g I; apply Z; cbn [flat_map]; apply in_or_app; right; exact I).
    destruct (IH on (flags_of r ++ seen) (rev l ++ a0) buf' F' W4 H' Z' S2) as [buf2 D2].
    exists buf2. replace (match buf' with [] => true | _ :: _ => true end) with true by (destruct buf'; reflexivity). rewrite D2. cbn [concat]. rewrite rev_app_distr, <- app_assoc. reflexivity.
Qed.
Lemma seen_in : forall l seen g, In g (seen_after l seen) <-> In g seen \/ In g (flat_map flags_of l).
Proof.
  induction l as [|r l IH]; intros seen g; cbn [seen_after flat_map]; [cbn [In]; tauto|]. rewrite IH, !in_app_iff. tauto.
Qed.
Lemma flags_fresh : forall l seen g, rows_ok seen l = true -> In g (flat_map flags_of l) -> ~ In g seen.
Proof.
  induction l as [|r l IH]; intros seen g W I X; [exact I|]. cbn [rows_ok] in W. apply andb_prop in W as [W W4]. apply andb_prop in W as [W W3].
  cbn [flat_map] in I. apply in_app_or in I as [I | I].
  - rewrite forallb_forall in W3. assert (N : In g (fld_names (row_fld r))). { destruct r as [f|g' f|g' d f|d f]; try contradiction I. destruct f; try contradiction I. exact I. }
    specialize (W3 g N). apply mem_spec in X. rewrite X in W3. discriminate W3.
  - apply (IH _ g W4 I). apply in_or_app. right. exact X.
Qed.

(** *** C72: what a message says *)
(** The first row of every message. *)
Definition type_row (n : name) (t : Z) : drow := DRow (FTy (TB 1) n (CAny (VInt t))).
Lemma type_sent : forall n t a l1 b, enc_msg (type_row n t :: l1) a = Ok b -> exists b2, b = t :: b2 /\ enc_msg l1 a = Ok b2.
Proof.
  intros n t a l1 b E. unfold type_row in E. cbn [enc_msg enc_drow enc_fld getattr enc_ty] in E. destruct (to_bytes 1 t) as [b1|] eqn:T; [|discriminate E]. cbn [bind] in E.
  destruct (enc_msg l1 a) as [b2|]; [|discriminate E]. cbn [bind] in E. injection E as <-. apply to_bytes_inv in T as [R ->]. exists b2. split; [|reflexivity].
  cbn [le_enc app]. change (256 ^ Z.of_nat 1) with 256 in R. rewrite Z.mod_small by lia. reflexivity.
Qed.
Lemma type_dec : forall n t l x a0, dec_loop (type_row n t :: l) false a0 (t :: x) = dec_loop l (match x with [] => true | _ => false end) a0 x.
Proof.
  intros n t l x a0. unfold type_row. cbn [dec_loop dec_drow dec_fld dec_ty]. change (t :: x) with ([t] ++ x). rewrite fixed_dec_ok by reflexivity. reflexivity.
Qed.
(** A message of which the first rows are sent, and the others left out because
    they hold defaults, is read as what it says; nothing else is
    reported. *)
Theorem dap_message : forall n t l1 l2 a b facts, rows_ok [] (l1 ++ l2) = true -> Forall (agree_row a) l1 ->
  enc_msg (type_row n t :: l1) a = Ok b -> told l1 l2 a facts -> dec_msg (type_row n t :: l1 ++ l2) b = Ok (rev facts, []).
Proof.
  intros n t l1 l2 a b facts W A E (F1 & F2 & S1 & S2 & ->). apply type_sent in E as (b2 & -> & E). unfold dec_msg. rewrite type_dec.
  assert (T : st (match b2 with [] => true | _ => false end) b2 (b2 ++ [])) by (rewrite app_nil_r; apply st_next).
  destruct (loop_sent l1 l2 a [] [] [] b2 _ b2 F1 W A E ltac:(intros g []) S1 (fun _ => eq_refl) T) as (W2 & done & buf & D & T2 & H).
  rewrite D. destruct T2 as [(N & _) | (_ & ->)]; [contradiction N; reflexivity|].
  set (on := fun g => existsb (name_eqb g) (flat_map flags_of l1) && flag a g) in *.
  assert (H2 : forall g, In g (seen_after l1 []) -> flag (rev (concat F1) ++ []) g = on g).
  { intros g I. rewrite (H g I). apply seen_in in I as [[] | I]. unfold on. apply mem_spec in I. rewrite I. reflexivity. }
  assert (Z : forall g, In g (flat_map flags_of l2) -> on g = false).
  { intros g I. unfold on. destruct (existsb (name_eqb g) (flat_map flags_of l1)) eqn:X; [|reflexivity]. exfalso. apply mem_spec in X.
    apply (flags_fresh l2 _ g W2 I). apply seen_in. right. exact X. }
  destruct (loop_omitted l2 on (seen_after l1 []) (rev (concat F1) ++ []) buf F2 W2 H2 Z S2) as [buf2 D2]. rewrite D2. cbn [bind fst snd].
  rewrite rev_app_distr, app_nil_r. reflexivity.
Qed.
Print Assumptions dap_message.
(** Every message says something definite. *)
Theorem dap_told : forall l1 l2 a, Forall has_default (l1 ++ l2) -> exists facts, told l1 l2 a facts.
Proof.
  intros l1 l2 a H. apply Forall_app in H as [H1 H2].
  assert (S : exists F, Forall2 (sent_row a) l1 F).
  { induction H1 as [|r l D H1 IH]; [exists []; constructor|]. destruct IH as [F IH].
    assert (X : exists x, sent_row a r x).
    { destruct r as [f|g f|g d f|d f]; cbn [has_default] in D; [eexists; constructor| | |eexists; constructor]; destruct (flag a g) eqn:G.
      - eexists. apply sr_if_on, G.
      - eexists. apply sr_if_off, G.
      - eexists. apply sr_else_on, G.
      - destruct D as [x R]. eexists. apply sr_else_off; [exact G | exact R]. }
    destruct X as [x X]. exists (x :: F). constructor; assumption. }
  assert (O : forall on, exists F, Forall2 (omitted_row on) l2 F).
  { intro on. clear H1 S. induction H2 as [|r l D H1 IH]; [exists []; constructor|]. destruct IH as [F IH].
    assert (X : exists x, omitted_row on r x).
    { destruct r as [f|g f|g d f|d f]; cbn [has_default] in D; [eexists; constructor| | |destruct D as [x R]; eexists; constructor; exact R]; destruct (on g) eqn:G.
      - eexists. apply or_if_on, G.
      - eexists. apply or_if_off, G.
      - eexists. apply or_else_on, G.
      - destruct D as [x R]. eexists. apply or_else_off; [exact G | exact R]. }
    destruct X as [x X]. exists (x :: F). constructor; assumption. }
  destruct S as [F1 S]. destruct (O (fun g => existsb (name_eqb g) (flat_map flags_of l1) && flag a g)) as [F2 O2].
  exists (concat F1 ++ concat F2), F1, F2. auto.
Qed.
Print Assumptions dap_told.
(** What follows the last field is not an error: it is printed, on standard
    output (unless the layout ends with a payload, which takes it). *)
Theorem dap_extra : forall n t l a b e facts, rows_ok [] l = true -> Forall (agree_row a) l -> existsb final l = false ->
  enc_msg (type_row n t :: l) a = Ok b -> told l [] a facts -> dec_msg (type_row n t :: l) (b ++ e) = Ok (rev facts, e).
Proof.
  intros n t l a b e facts W A NF E (F1 & F2 & S1 & S2 & ->). inversion S2; subst. apply type_sent in E as (b2 & -> & E). unfold dec_msg. cbn [app]. rewrite type_dec.
  assert (T : st (match b2 ++ e with [] => true | _ => false end) (b2 ++ e) (b2 ++ e)) by apply st_next.
  assert (W' : rows_ok [] (l ++ []) = true) by (rewrite app_nil_r; exact W).
  destruct (loop_sent l [] a e [] [] b2 _ (b2 ++ e) F1 W' A E ltac:(intros g []) S1 ltac:(intro X; congruence) T) as (W2 & done & buf & D & T2 & H).
  rewrite app_nil_r in D. rewrite D. cbn [dec_loop bind fst snd concat]. rewrite !app_nil_r. destruct T2 as [(_ & -> & ->) | (-> & ->)]; reflexivity.
Qed.
Print Assumptions dap_extra.

(** *** The messages of the package *)
Fixpoint apart (els : list bme) : bool :=
  match els with
  | [] => true
  | e :: t => forallb (fun x => (be_start e + be_bits e <=? be_start x) || (be_start x + be_bits x <=? be_start e)) t && apart t
  end.
Lemma apart_agree : forall els a, apart els = true -> bits_agree els a.
Proof.
  intros els a W e1 e2 z1 z2 p I1 I2 V1 V2 P1 P2. assert (E : e1 = e2).
  { revert W I1 I2. clear V1 V2. induction els as [|e els IH]; intros W I1 I2; [contradiction I1|]. cbn [apart] in W. apply andb_prop in W as [W1 W2].
    rewrite forallb_forall in W1. destruct I1 as [<- | I1], I2 as [<- | I2]; [reflexivity | | | auto]; exfalso.
    - specialize (W1 e2 I2). cbv beta in W1. lia.
    - specialize (W1 e1 I1). cbv beta in W1. lia. }
  subst e2. congruence.
Qed.
Definition apart_fld (f : fld) : bool := match f with FBMX _ els | FBMap _ els => apart els | _ => true end.
Lemma apart_row : forall a r, apart_fld (row_fld r) = true -> agree_row a r.
Proof.
  intros a r H. assert (A : agree (row_fld r) a) by (destruct (row_fld r); try exact I; apply apart_agree, H). destruct r; cbn [agree_row row_fld] in *; auto.
Qed.
(** The layouts make sense, with different types, and all their defaults are
    values of their fields; so [dap_message] and [dap_told] hold of all of
    them. *)
Lemma reads_intro : forall f d x, apart_fld f = true -> enc_fld f x = Ok d -> exists l, reads f d l.
Proof. intros f d x A E. exists (says f x), x. split; [exact E|]. split; [destruct f; try exact I; apply apart_agree, A | reflexivity]. Qed.
Theorem dap_layouts : map (fun l => hd_error l) layouts = map (fun t => Some (type_row (nm "type") t)) [1; 2; 3; 4; 5; 6; 7; 8; 9; 13; 14; 15] /\
  Forall (fun l => rows_ok [] (tl l) = true /\ Forall has_default (tl l)) layouts.
Proof.
  split; [reflexivity|]. unfold layouts.
  repeat (apply Forall_cons; [split; [vm_compute; reflexivity|]|]); [..|apply Forall_nil].
  all: match goal with |- Forall has_default (tl ?l) => unfold l end; unfold header; cbn [app tl]; repeat (apply Forall_cons; [try exact I|]); try apply Forall_nil; cbn [has_default].
  - apply (reads_intro _ _ [(nm "image", VInt 1)]); vm_compute; reflexivity.
  - apply (reads_intro _ _ [(nm "rfm", VInt 1)]); vm_compute; reflexivity.
  - apply (reads_intro _ _ [(nm "bls", VInt 512)]); vm_compute; reflexivity.
  - apply (reads_intro _ _ [(nm "bsz", VInt 8)]); vm_compute; reflexivity.
  - apply (reads_intro _ _ [(nm "fb_get", VInt 1)]); vm_compute; reflexivity.
  - apply (reads_intro _ _ [(nm "shr_fb_get", VInt 1)]); vm_compute; reflexivity.
  - apply (reads_intro _ _ [(nm "ctlfunc", VInt 1)]); vm_compute; reflexivity.
  - apply (reads_intro _ _ []); vm_compute; reflexivity.
  - apply (reads_intro _ _ []); vm_compute; reflexivity.
Qed.
Print Assumptions dap_layouts.
(** Only in Prot do bit fields share bits. *)
Theorem dap_apart : forall l, In l layouts -> l <> l_prot -> forall a, Forall (agree_row a) l.
Proof.
  assert (W : forallb (fun l => forallb (fun r => apart_fld (row_fld r)) l || match hd_error l with Some (DRow (FTy _ _ (CAny (VInt 14)))) => true | _ => false end) layouts = true) by (vm_compute; reflexivity).
  intros l I N a. rewrite forallb_forall in W. specialize (W l I). apply orb_prop in W as [W | W].
  - apply Forall_forall. intros r R. rewrite forallb_forall in W. apply apart_row, W, R.
  - exfalso. unfold layouts in I. repeat (destruct I as [<- | I]; [try discriminate W; try (apply N; reflexivity)|]). exact I.
Qed.
Print Assumptions dap_apart.
(** There the two protection bits that RSTS has are those for read and
    write. *)
Definition rw_ok (c : string) (a : attrs) : Prop :=
  exists r w, 0 <= r < 2 /\ 0 <= w < 2 /\ value a (nm (c ++ "_noread")) CNone (VInt 0) = VInt r /\
    value a (nm (c ++ "_nowrite")) CNone (VInt 0) = VInt w /\ value a (nm (c ++ "_rw")) CNone (VInt 0) = VInt (r + 2 * w).
Lemma rw_agree : forall c a, rw_ok c a -> bits_agree
  [bit (c ++ "_noread") 0 1; bit (c ++ "_nowrite") 1 1; bit (c ++ "_noexec") 2 1; bit (c ++ "_nodel") 3 1; bit (c ++ "_noappend") 4 1;
   bit (c ++ "_nodir") 5 1; bit (c ++ "_noupdate") 6 1; bit (c ++ "_nochprot") 7 1; bit (c ++ "_noextend") 8 1; bit (c ++ "_rw") 0 2] a.
Proof.
  intros c a (r & w & R & W & V1 & V2 & V3) e1 e2 z1 z2 p I1 I2 X1 X2 P1 P2.
  assert (T : Z.testbit (r + 2 * w) 0 = Z.testbit r 0 /\ Z.testbit (r + 2 * w) 1 = Z.testbit w 0).
  { assert (r = 0 \/ r = 1) as [-> | ->] by lia; assert (w = 0 \/ w = 1) as [-> | ->] by lia; split; reflexivity. }
  destruct T as [T0 T1]. cbn [In] in I1, I2.
  repeat (destruct I1 as [<- | I1]; [repeat (destruct I2 as [<- | I2]; [cbn [bit be_name be_const be_start be_bits] in *; try lia; try congruence|]); try contradiction I2|]); try contradiction I1.
  - assert (p = 0) as -> by lia. replace z1 with r by congruence. replace z2 with (r + 2 * w) by congruence. symmetry. exact T0.
  - assert (p = 1) as -> by lia. replace z1 with w by congruence. replace z2 with (r + 2 * w) by congruence. symmetry. exact T1.
  - assert (p = 0) as -> by lia. replace z1 with (r + 2 * w) by congruence. replace z2 with r by congruence. exact T0.
  - assert (p = 1) as -> by lia. replace z1 with (r + 2 * w) by congruence. replace z2 with w by congruence. exact T1.
Qed.
Theorem dap_prot : forall a, rw_ok "s" a -> rw_ok "o" a -> rw_ok "g" a -> rw_ok "w" a -> Forall (agree_row a) l_prot.
Proof.
  intros a S O G W. unfold l_prot, header. cbn [app].
  repeat (apply Forall_cons; [|]); try apply Forall_nil; try (apply apart_row; vm_compute; reflexivity); intros _.
  - exact (rw_agree "s" a S).
  - exact (rw_agree "o" a O).
  - exact (rw_agree "g" a G).
  - exact (rw_agree "w" a W).
Qed.
Print Assumptions dap_prot.
(** Reading never does anything worse than refuse a message. *)
Definition calm {A} (r : res A) : Prop := match r with Ok _ | Err EDecode => True | _ => False end.
Lemma calm_bind : forall A B (r : res A) (k : A -> res B), calm r -> (forall x, calm (k x)) -> calm (bind r k).
Proof. intros A B [x|e] k H K; [apply K | exact H]. Qed.
Lemma ex_calm : forall m sh v buf, calm (ex_dec_loop m sh v buf).
Proof.
  induction m as [|m IH]; intros sh v buf; [exact I|]. cbn [ex_dec_loop]. destruct buf as [|b t]; [exact I|]. cbv zeta. destruct (b <? 128); [exact I|]. destruct m as [|m]; [exact I | apply IH].
Qed.
Lemma fixed_calm : forall k buf, calm (fixed_dec k buf).
Proof. intros k buf. unfold fixed_dec. apply calm_bind; [unfold require; destruct (_ <? _); exact I | intro x; exact I]. Qed.
Lemma image_calm : forall m buf, calm (image_dec m buf).
Proof. intros m [|c t]; [exact I|]. cbn [image_dec]. destruct (m <? c); [exact I|]. destruct (_ =? _); exact I. Qed.
Lemma set_calm : forall a n c v, calm (setattr a n c v).
Proof. intros a n [|k|k] v; cbn [setattr]; try exact I. destruct (val_eqb v k); exact I. Qed.
Lemma unpack_calm : forall els v a, calm (bm_unpack els v a).
Proof. induction els as [|e els IH]; intros v a; [exact I|]. cbn [bm_unpack]. apply calm_bind; [apply set_calm | intro x; apply IH]. Qed.
Definition tame (f : fld) : bool := match f with FTy (TB _) _ _ | FTy (TA _) _ _ | FTy (TI _) _ _ | FTy TPAYLOAD _ _ => true | FTy _ _ _ => false | FBMX m _ => (1 <=? m)%nat | _ => true end.
Lemma fld_calm : forall f a buf, tame f = true -> calm (dec_fld f a buf).
Proof.
  intros f a buf T. assert (AT : forall A (r : res A), calm r -> calm (atfield r)) by (intros A [x|[]] H; first [exact I | contradiction H]).
  destruct f as [t n c|m els|k els|m n|k n|k n]; cbn [dec_fld].
  - apply AT. apply calm_bind; [|intros [v r]; apply calm_bind; [apply set_calm | intro x; exact I]].
    destruct t; try discriminate T; cbn [dec_ty]; try exact I; (apply calm_bind; [apply fixed_calm || apply image_calm | intros [v r]; exact I]).
  - apply calm_bind; [destruct m as [|m]; [discriminate T | apply ex_calm]|]. intros [v r]. apply calm_bind; [apply unpack_calm | intro x; exact I].
  - apply calm_bind; [apply fixed_calm|]. intros [v r]. apply calm_bind; [apply unpack_calm | intro x; exact I].
  - apply calm_bind; [apply image_calm | intros [v r]; exact I].
  - apply calm_bind; [apply fixed_calm | intros [v r]; exact I].
  - apply calm_bind; [apply fixed_calm | intros [v r]; exact I].
Qed.
Theorem dap_calm : forall l buf, In l layouts -> (exists x, dec_msg l buf = Ok x) \/ dec_msg l buf = Err EDecode.
Proof.
  assert (W : forallb (fun l => forallb (fun r => tame (row_fld r)) l) layouts = true) by (vm_compute; reflexivity).
  assert (L : forall l done a buf, forallb (fun r => tame (row_fld r)) l = true -> calm (dec_loop l done a buf)).
  { induction l as [|r l IH]; intros done a buf T; [exact I|]. cbn [forallb] in T. apply andb_prop in T as [T1 T2]. cbn [dec_loop].
    apply calm_bind; [|intros [a' b']; apply IH, T2]. destruct r as [f|g f|g d f|d f]; cbn [dec_drow row_fld] in *; try (apply fld_calm, T1).
    - destruct (flag a g); [apply fld_calm, T1 | exact I].
    - destruct (flag a g); [apply fld_calm, T1|]. apply calm_bind; [apply fld_calm, T1 | intros [? ?]; exact I]. }
  intros l buf I. rewrite forallb_forall in W. assert (C : calm (dec_msg l buf)).
  { unfold dec_msg. apply calm_bind; [apply L, W, I|]. intros [x d]. exact Logic.I. }
  destruct (dec_msg l buf) as [x|[]]; try contradiction C; [left; eexists; reflexivity | right; reflexivity].
Qed.
Print Assumptions dap_calm.
(** A field with a name of its own: the reader has it exactly if the message
    says it. *)
Theorem dap_lookup : forall facts n v, NoDup (map fst facts) -> (get (rev facts) n = Some v <-> In (n, v) facts).
Proof.
  intros facts n v N. rewrite <- (app_nil_r (rev facts)). split; [|apply (get_said facts [] n v N)].
  intro G. assert (I : In n (map fst facts)).
  { destruct (in_dec (fun x y => match name_eqb_spec x y with ReflectT _ p => left p | ReflectF _ p => right p end) n (map fst facts)) as [I | NI]; [exact I|].
    rewrite (get_skip facts [] n NI) in G. discriminate G. }
  apply in_map_iff in I as ([n' v'] & E & I). cbn [fst] in E. subst n'. rewrite (get_said facts [] n v' N I) in G. injection G as <-. exact I.
Qed.
Print Assumptions dap_lookup.
Lemma names_apart : forall (rs : list drow) (fs : list (list (name * val))), Forall2 (fun r (l : list (name * val)) => map fst l = [] \/ map fst l = fld_names (row_fld r)) rs fs ->
  NoDup (flat_map (fun r => fld_names (row_fld r)) rs) -> NoDup (map fst (concat fs)) /\ incl (map fst (concat fs)) (flat_map (fun r => fld_names (row_fld r)) rs).
Proof.
  intros rs fs F. induction F as [|r l rs fs E F IH]; intro N; [split; [constructor | intros x []]|]. cbn [flat_map concat] in *. rewrite map_app.
  assert (N2 : NoDup (flat_map (fun r => fld_names (row_fld r)) rs)) by (clear -N; induction (fld_names (row_fld r)); [exact N | inversion N; auto]).
  destruct (IH N2) as [IH1 IH2]. destruct E as [E | E]; rewrite E.
  - split; [exact IH1|]. intros x I. apply in_or_app. right. apply IH2, I.
  - split; [|intros x I; apply in_app_or in I; apply in_or_app; destruct I as [I | I]; [left; exact I | right; apply IH2, I]].
    clear - N IH1 IH2. induction (fld_names (row_fld r)) as [|y t IH]; [exact IH1|]. cbn [app] in *. inversion N as [|? ? NI N' EE]; subst. constructor; [|apply IH, N'].
    intro I. apply NI. apply in_app_or in I. apply in_or_app. destruct I as [I | I]; [left; exact I | right; apply IH2, I].
Qed.
Lemma Forall2_app_l : forall A B (P : A -> B -> Prop) l1 l2 m1 m2, Forall2 P l1 m1 -> Forall2 P l2 m2 -> Forall2 P (l1 ++ l2) (m1 ++ m2).
Proof. intros A B P l1 l2 m1 m2 F G. induction F; [exact G | constructor; assumption]. Qed.
Lemma Forall2_weaken : forall A B (P Q : A -> B -> Prop) l m, (forall x y, P x y -> Q x y) -> Forall2 P l m -> Forall2 Q l m.
Proof. intros A B P Q l m H F. induction F; constructor; auto. Qed.
(** In every message but the configuration and the attributes each name stands
    for one field, so that the reader has exactly what the message says. *)
Theorem dap_clear : forall l l1 l2 a b facts n v, In l layouts -> l <> l_config -> l <> l_attrib -> Forall (agree_row a) (tl l) -> tl l = l1 ++ l2 ->
  enc_msg (firstn 1 l ++ l1) a = Ok b -> told l1 l2 a facts -> exists got, dec_msg l b = Ok (got, []) /\ (get got n = Some v <-> In (n, v) facts).
Proof.
  intros l l1 l2 a b facts n v I NC NA A S E T.
  assert (D : NoDup (flat_map (fun r => fld_names (row_fld r)) (tl l))).
  { apply distinct_nodup. assert (W : forallb (fun l => distinct (flat_map (fun r => fld_names (row_fld r)) (tl l))) [l_access; l_control; l_continue; l_ack; l_acccomplete; l_data; l_status; l_date; l_prot; l_name] = true) by (vm_compute; reflexivity).
    rewrite forallb_forall in W. apply W. unfold layouts in I. cbn [In] in I |- *. intuition congruence. }
  assert (H : exists t, l = type_row (nm "type") t :: tl l /\ rows_ok [] (tl l) = true).
  { destruct dap_layouts as (HD & W). rewrite Forall_forall in W. destruct (W l I) as [W1 _].
    assert (J : In (hd_error l) (map (fun t => Some (type_row (nm "type") t)) [1; 2; 3; 4; 5; 6; 7; 8; 9; 13; 14; 15])) by (rewrite <- HD; apply (in_map (fun l => hd_error l)), I).
    apply in_map_iff in J as (t & J & _). exists t. split; [|exact W1]. destruct l as [|r l]; [discriminate J|]. injection J as ->. reflexivity. }
  destruct H as (t & L & W). rewrite L in E. cbn [firstn app] in E. rewrite S in W, A, D. apply Forall_app in A as [A1 A2]. exists (rev facts). split.
  - rewrite L, S. exact (dap_message _ _ _ _ a _ _ W A1 E T).
  - apply dap_lookup. destruct T as (f1 & f2 & S1 & S2 & ->). rewrite <- concat_app.
    apply (names_apart (l1 ++ l2)); [|exact D]. apply Forall2_app_l; [revert S1 | revert S2]; apply Forall2_weaken; intros r x HS; inversion HS; subst; cbn [row_fld];
      try (left; reflexivity); right; rewrite ?says_names; try reflexivity; match goal with HR : reads _ _ _ |- _ => destruct HR as (? & _ & _ & ->); apply says_names end.
Qed.
Print Assumptions dap_clear.
(** *** On the wire *)
Definition int_is (a : attrs) (s : string) (v : Z) : Prop := get a (nm s) = Some (VInt v).
(** What the shortest messages mean. *)
Theorem dap_defaults :
  (exists a, dec_msg l_attrib [2] = Ok (a, []) /\ int_is a "image" 1 /\ int_is a "ascii" 0 /\ int_is a "rfm" 1 /\ int_is a "bls" 512 /\ int_is a "bsz" 8 /\ get a (nm "org") = None) /\
  (exists a, dec_msg l_access [3; 0; 1] = Ok (a, []) /\ int_is a "accfunc" 1 /\ get a (nm "filespec") = Some (VStr []) /\ int_is a "fb_get" 1 /\ int_is a "shr_fb_get" 1 /\ int_is a "fb_put" 0 /\ int_is a "main" 0) /\
  (exists a, dec_msg l_control [4] = Ok (a, []) /\ int_is a "ctlfunc" 1 /\ get a (nm "rac") = None) /\
  (exists a, dec_msg l_data [8; 0; 1; 7] = Ok (a, []) /\ int_is a "recnum" 7 /\ get a (nm "payload") = Some (VBytes [])) /\
  (exists a, dec_msg l_config [1] = Ok (a, []) /\ int_is a "bufsiz" 0 /\ get a (nm "version") = Some (VBytes [0; 0; 0; 0; 0])).
Proof. repeat split; eexists; (split; [vm_compute; reflexivity|]); repeat split; vm_compute; reflexivity. Qed.
Print Assumptions dap_defaults.
(** How messages look. *)
Theorem dap_wire :
  enc_msg l_config [(nm "bufsiz", VInt 1459); (nm "ostype", VInt 192); (nm "filesys", VInt 13); (nm "version", VBytes [7; 0; 0; 0; 0]); (nm "fo_seq", VInt 1); (nm "seq_xfer", VInt 1); (nm "blocking", VInt 1); (nm "dir", VInt 1); (nm "glob", VInt 1)] =
    Ok [1; 0; 179; 5; 192; 13; 7; 0; 0; 0; 0; 162; 128; 144; 144; 128; 8] /\
  enc_msg l_attrib [(nm "m_datatype", VInt 1); (nm "ascii", VInt 1); (nm "m_org", VInt 1); (nm "m_rfm", VInt 1); (nm "rfm", VInt 2); (nm "m_rat", VInt 1); (nm "fb_cr", VInt 1); (nm "m_alq", VInt 1); (nm "alq", VInt 300); (nm "m_ebk", VInt 1); (nm "ebk", VInt 0)] =
    Ok [2; 0; 207; 128; 16; 1; 0; 2; 2; 2; 44; 1; 0] /\
  enc_msg l_access [(nm "accfunc", VInt 6); (nm "filespec", VStr [42]); (nm "fb_get", VInt 1); (nm "name", VInt 1); (nm "main", VInt 1)] = Ok [3; 0; 6; 0; 1; 42; 2; 0; 129; 2] /\
  enc_msg l_control [(nm "ctlfunc", VInt 2); (nm "m_rac", VInt 1); (nm "rac", VInt 3); (nm "m_key", VInt 1); (nm "key", VBytes [9; 8])] = Ok [4; 0; 2; 3; 3; 2; 9; 8] /\
  enc_msg l_continue [(nm "confunc", VInt 4)] = Ok [5; 0; 4] /\
  enc_msg l_ack [] = Ok [6; 0] /\
  enc_msg l_acccomplete [(nm "cmpfunc", VInt 1); (nm "fb_dlt", VInt 1); (nm "check", VInt 258)] = Ok [7; 0; 1; 128; 128; 128; 2; 2; 1] /\
  enc_msg l_data [(nm "recnum", VInt 256); (nm "payload", VBytes [1; 2])] = Ok [8; 0; 2; 0; 1; 1; 2] /\
  enc_msg l_status [(nm "maccode", VInt 4); (nm "miccode", VInt 50)] = Ok [9; 0; 50; 64] /\
  enc_msg l_date [(nm "m_rvn", VInt 1); (nm "rvn", VInt 3)] = Ok [13; 0; 8; 3; 0] /\
  enc_msg l_prot [(nm "m_owner", VInt 1); (nm "owner", VStr [65]); (nm "m_protgrp", VInt 1); (nm "g_rw", VInt 2); (nm "g_noexec", VInt 1)] = Ok [14; 0; 9; 1; 65; 6] /\
  enc_msg l_name [(nm "filename", VInt 1); (nm "namespec", VStr [97; 98])] = Ok [15; 0; 2; 2; 97; 98] /\
  enc_msg l_ack [(nm "m_length", VInt 1); (nm "m_streamid", VInt 1); (nm "streamid", VInt 5); (nm "length", VInt 9)] = Ok [6; 3; 5; 9].
Proof. repeat split; vm_compute; reflexivity. Qed.
Print Assumptions dap_wire.
(** Optional fields of fixed width, most of them in one message. *)
Theorem dap_wire_optional :
  enc_msg l_attrib [(nm "m_org", VInt 1); (nm "org", VInt 1); (nm "m_bls", VInt 1); (nm "bls", VInt 258); (nm "m_mrs", VInt 1); (nm "mrs", VInt 772); (nm "m_bks", VInt 1); (nm "bks", VInt 5);
    (nm "m_fsz", VInt 1); (nm "fsz", VInt 6); (nm "m_mrn", VInt 1); (nm "mrn", VInt 1800); (nm "m_runsys", VInt 1); (nm "runsys", VStr [65; 66]); (nm "m_deq", VInt 1); (nm "deq", VInt 2314);
    (nm "m_bsz", VInt 1); (nm "bsz", VInt 11); (nm "m_lrl", VInt 1); (nm "lrl", VInt 3085); (nm "m_hbk", VInt 1); (nm "hbk", VInt 14); (nm "m_ffb", VInt 1); (nm "ffb", VInt 3856); (nm "m_sbn", VInt 1); (nm "sbn", VInt 17)] =
    Ok [2; 0; 178; 223; 108; 1; 2; 1; 4; 3; 5; 6; 2; 8; 7; 2; 65; 66; 10; 9; 11; 13; 12; 1; 14; 16; 15; 1; 17] /\
  enc_msg l_ack [(nm "m_len256", VInt 1); (nm "len256", VInt 7); (nm "m_bitcnt", VInt 1); (nm "bitcnt", VInt 3)] = Ok [6; 12; 7; 3] /\
  enc_msg l_control [(nm "ctlfunc", VInt 2); (nm "m_krf", VInt 1); (nm "krf", VInt 4)] = Ok [4; 0; 2; 4; 4].
Proof. repeat split; vm_compute; reflexivity. Qed.
Print Assumptions dap_wire_optional.
(** *** What the code does otherwise *)
(** FALSE of the code: that the reader of attributes can tell what was sent.
    The spool bits of the file options and of the device have the same name:
    these two messages differ, and are read as the same. *)
Lemma get_over : forall x n v v' y m, In n (map fst x) -> get (x ++ (n, v) :: y) m = get (x ++ (n, v') :: y) m.
Proof.
  induction x as [|[n' v0] x IH]; intros n v v' y m I; [contradiction I|]. cbn [app get map fst In] in *. destruct (name_eqb_spec n' m) as [->|N]; [reflexivity|].
  destruct I as [-> | I]; [|apply IH, I]. clear IH. induction x as [|[n1 v1] x IH]; cbn [app get].
  - destruct (name_eqb_spec n m); [contradiction | reflexivity].
  - destruct (name_eqb n1 m); [reflexivity | exact IH].
Qed.
Theorem dap_spool_refuted : exists b1 b2 a1 a2, b1 <> b2 /\ dec_msg l_attrib b1 = Ok (a1, []) /\ dec_msg l_attrib b2 = Ok (a2, []) /\ int_is a1 "m_fop" 1 /\ forall n, get a1 n = get a2 n.
Proof.
  exists [2; 0; 128; 160; 1; 128; 128; 64; 128; 4], [2; 0; 128; 160; 1; 0; 128; 4].
  destruct (dec_msg l_attrib [2; 0; 128; 160; 1; 128; 128; 64; 128; 4]) as [[a1 e1]|] eqn:D1; [|vm_compute in D1; discriminate D1].
  destruct (dec_msg l_attrib [2; 0; 128; 160; 1; 0; 128; 4]) as [[a2 e2]|] eqn:D2; [|vm_compute in D2; discriminate D2].
  exists a1, a2. vm_compute in D1, D2. injection D1 as <- <-. injection D2 as <- <-.
  split; [discriminate|]. split; [reflexivity|]. split; [reflexivity|]. split; [vm_compute; reflexivity|]. intro n.
  match goal with |- get ?l1 _ = get ?l2 _ =>
    let k := eval vm_compute in (length (filter (fun p => true) l1)) in
    let rec go pre x y :=
      lazymatch x with
      | ?p :: ?x' => lazymatch y with
          | p :: ?y' => go (p :: pre) x' y'
          | (?m, ?v2) :: ?y' => let h := eval cbn [rev app] in (rev pre) in lazymatch p with (?m1, ?v1) => exact (get_over h m1 v1 v2 x' n ltac:(vm_compute; tauto)) end
          end
      end in go (@nil (name * val)) l1 l2
  end.
Qed.
Print Assumptions dap_spool_refuted.
(** FALSE of the code: that a request to open a file may carry a password.
    The field is missing from the layout: what was meant as the password is
    left over, and printed where the answers to session control go. *)
Theorem dap_password_refuted : forall a b pw facts, enc_msg l_access a = Ok b -> told (tl l_access) [] a facts ->
  dec_msg l_access (b ++ zlen pw :: pw) = Ok (rev facts, zlen pw :: pw).
Proof.
  intros a b pw facts E T. change l_access with (type_row (nm "type") 3 :: tl l_access) in E |- *. apply (dap_extra _ _ _ a); try assumption.
  - vm_compute. reflexivity.
  - assert (F : Forall (agree_row a) l_access) by (apply dap_apart; [unfold layouts; cbn [In]; tauto | discriminate]). inversion F. assumption.
  - vm_compute. reflexivity.
Qed.
Print Assumptions dap_password_refuted.

(** *** Cases *)
(** A directory request: sent whole, then without its last field, then with a
    password. *)
Definition ls : attrs := [(nm "accfunc", VInt 6); (nm "filespec", VStr [42]); (nm "fb_get", VInt 1); (nm "shr_fb_put", VInt 1); (nm "name", VInt 1); (nm "main", VInt 1)].
Example ls_sent : exists facts b, told (tl l_access) [] ls facts /\ enc_msg l_access ls = Ok b /\ dec_msg l_access b = Ok (rev facts, []) /\ In (nm "filespec", VStr [42]) facts /\ In (nm "shr_fb_put", VInt 1) facts /\ In (nm "fb_put", VInt 0) facts /\
  dec_msg l_access (b ++ [2; 104; 105]) = Ok (rev facts, [2; 104; 105]).
Proof.
  destruct (dap_told (tl l_access) [] ls) as (facts & T).
  { destruct dap_layouts as (_ & H). rewrite app_nil_r. rewrite Forall_forall in H. apply (H l_access). unfold layouts. cbn [In]. tauto. }
  exists facts, [3; 0; 6; 0; 1; 42; 2; 1; 129; 2].
  assert (E : enc_msg l_access ls = Ok [3; 0; 6; 0; 1; 42; 2; 1; 129; 2]) by (vm_compute; reflexivity).
  assert (P := dap_password_refuted ls _ [104; 105] facts E T). split; [exact T|]. split; [exact E|].
  assert (R : dec_msg l_access [3; 0; 6; 0; 1; 42; 2; 1; 129; 2] = Ok (rev facts, [])).
  { change l_access with (type_row (nm "type") 3 :: tl l_access ++ []). apply (dap_message _ _ _ _ ls); try assumption.
    - vm_compute. reflexivity.
    - assert (F : Forall (agree_row ls) l_access) by (apply dap_apart; [unfold layouts; cbn [In]; tauto | discriminate]). inversion F. assumption. }
  split; [exact R|]. vm_compute in R. injection R as R. apply (f_equal (@rev _)) in R. rewrite rev_involutive in R. split; [|split; [|split; [|exact P]]]; rewrite <- R; vm_compute; tauto.
Qed.
Example prot_meets : rw_ok "s" [(nm "s_rw", VInt 2); (nm "s_nowrite", VInt 1)] /\ rw_ok "g" [(nm "s_rw", VInt 2); (nm "s_nowrite", VInt 1)].
Proof. split; [exists 0, 1 | exists 0, 0]; repeat split; vm_compute; congruence. Qed.
