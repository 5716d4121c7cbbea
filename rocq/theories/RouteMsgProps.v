(** C24: routing message coding and checksum.  C23: the update process. *)
From Verif Require Import Base RouteMsgModel.

(** *** Words and carries *)
Lemma carry_eq : forall s, carry s = s mod 65536 + s / 65536.
Proof. intros. unfold carry. change 65535 with (Z.ones 16). rewrite Z.land_ones, Z.shiftr_div_pow2 by lia. reflexivity. Qed.
Lemma carries : forall x, 0 <= x < 2 ^ 32 -> exists k, x = carry (carry x) + 65535 * k /\ 0 <= carry (carry x) < 65536 /\ (0 < x -> 0 < carry (carry x)) /\ 0 <= k.
Proof. intros x H. rewrite !carry_eq. exists (x / 65536 + (x mod 65536 + x / 65536) / 65536). lia. Qed.
Lemma compl_eq : forall w, word_ok w -> compl w = 65535 - w.
Proof.
  intros w H. unfold word_ok in H. unfold compl. change 65535 with (Z.ones 16) at 1. rewrite Z.land_ones by lia. unfold Z.lnot.
  change (2 ^ 16) with 65536. lia.
Qed.
Lemma words_dec_enc : forall l, Forall word_ok l -> words_dec (flat_map word_bytes l) = l.
Proof.
  induction 1 as [|w l H F IH]; [reflexivity|]. cbn [flat_map word_bytes app words_dec]. rewrite IH. unfold word_ok in H. f_equal. lia.
Qed.
Lemma words_enc_ok : forall l, Forall word_ok l -> words_enc l = Ok (flat_map word_bytes l).
Proof.
  intros l F. unfold words_enc. replace (forallb _ l) with true; [reflexivity|]. symmetry. apply forallb_forall. rewrite Forall_forall in F.
  intros x Hx. apply F in Hx. unfold word_ok in Hx. lia.
Qed.
Lemma word_bytes_ok : forall l, Forall word_ok l -> bytes_ok (flat_map word_bytes l).
Proof.
  induction 1 as [|w l H F IH]; [constructor|]. unfold word_ok in H. cbn [flat_map word_bytes app].
  constructor; [unfold byte_ok; lia|]. constructor; [unfold byte_ok; lia|exact IH].
Qed.
Lemma word_bytes_len : forall l, zlen (flat_map word_bytes l) = 2 * zlen l.
Proof. induction l as [|w l IH]; [reflexivity|]. cbn [flat_map word_bytes app]. rewrite !zlen_cons, IH. lia. Qed.
Lemma to2 : forall x, word_ok x -> to_bytes 2 x = Ok (word_bytes x).
Proof. intros x H. unfold word_ok in H. rewrite to_bytes_ok by lia. cbn [le_enc]. unfold word_bytes. do 3 f_equal. lia. Qed.
Lemma sum_app : forall a b, sum (a ++ b) = sum a + sum b.
Proof. unfold sum. induction a as [|x a IH]; intros; cbn [app fold_right]; [lia|]. rewrite IH. lia. Qed.
Lemma sum_range : forall l, Forall word_ok l -> 0 <= sum l <= 65535 * zlen l.
Proof.
  unfold sum. induction 1 as [|w l H F IH]; cbn [fold_right]; [rewrite zlen_nil; lia|]. unfold word_ok in H. rewrite zlen_cons. lia.
Qed.
Lemma flat_words_app : forall a b, flat_map word_bytes (a ++ b) = flat_map word_bytes a ++ flat_map word_bytes b.
Proof. intros. apply flat_map_app. Qed.
Lemma last_app1 : forall (a : list Z) x, last (a ++ [x]) 0 = x.
Proof. intros. apply last_last. Qed.
(** Decoding a byte string of even length gives the words it is made of. *)
Lemma words_of_bytes : forall b, bytes_ok b -> Z.odd (zlen b) = false ->
  Forall word_ok (words_dec b) /\ flat_map word_bytes (words_dec b) = b.
Proof.
  assert (G : forall n b, (length b <= n)%nat -> bytes_ok b -> Z.odd (zlen b) = false ->
    Forall word_ok (words_dec b) /\ flat_map word_bytes (words_dec b) = b).
  { induction n as [|n IH]; intros b L B O.
    - destruct b; [split; [constructor|reflexivity]|cbn [length] in L; lia].
    - destruct b as [|x [|y b]]; [split; [constructor|reflexivity]|discriminate O|]. inversion_clear B as [|? ? Bx B1]. inversion_clear B1 as [|? ? By B2].
      cbn [words_dec length] in *. rewrite !zlen_cons in O. replace (1 + (1 + zlen b)) with (zlen b + 2 * 1) in O by lia. rewrite Z.odd_add_mul_2 in O.
      destruct (IH b ltac:(lia) B2 O) as (W & E). unfold byte_ok in *. split; [constructor; auto; unfold word_ok; lia|].
      cbn [flat_map word_bytes app]. rewrite E. f_equal; [lia|f_equal; lia]. }
  intros b. apply (G (length b)). lia.
Qed.

(** *** Segments *)
Definition limit (lv : level) : Z := match lv with L1 => 1024 | L2 => 64 end.
(** The lowest destination: node 0 (the nearest level 2 router), area 1. *)
Definition lowest (lv : level) : Z := match lv with L1 => 0 | L2 => 1 end.
Definition seg_ok (lv : level) (s : seg) : Prop :=
  lowest lv <= fst s /\ 1 <= zlen (snd s) /\ fst s + zlen (snd s) <= limit lv /\ Forall word_ok (snd s).
Definition seg_words (s : seg) : list Z := zlen (snd s) :: fst s :: snd s.
Definition segs_words (l : list seg) : list Z := flat_map seg_words l.
Lemma segs_words_ok : forall lv l, Forall (seg_ok lv) l -> Forall word_ok (segs_words l).
Proof.
  intros lv. induction 1 as [|s l (A & B & C & D) F IH]; [constructor|]. cbn [segs_words flat_map]. apply Forall_app. split; auto.
  pose proof (zlen_nonneg _ (snd s)). unfold limit, lowest, lowid in *. constructor; [unfold word_ok; destruct lv; lia|]. constructor; [unfold word_ok; destruct lv; lia|auto].
Qed.
Lemma segs_enc_ok : forall lv l, Forall (seg_ok lv) l -> segs_enc l = Ok (flat_map word_bytes (segs_words l)).
Proof.
  intros lv. induction 1 as [|s l S F IH]; [reflexivity|]. cbn [segs_enc].
  pose proof (segs_words_ok lv [s] (Forall_cons _ S (Forall_nil _))) as W. cbn [segs_words flat_map app] in W. unfold seg_words in W.
  rewrite app_nil_r in W. inversion_clear W as [|? ? W1 W2]. inversion_clear W2 as [|? ? W3 W4].
  unfold seg_enc. rewrite (to2 _ W1), (to2 _ W3), (words_enc_ok _ W4), IH. cbn [bind]. f_equal.
  cbn [segs_words flat_map]. rewrite flat_words_app. unfold seg_words. cbn [flat_map]. rewrite <- !app_assoc. reflexivity.
Qed.
Lemma segs_dec_ok : forall lv l, Forall (seg_ok lv) l -> forall f, (length (segs_words l) <= f)%nat -> segs_dec f lv (segs_words l) = Ok l.
Proof.
  intros lv. induction 1 as [|[st es] l (A & B & C & D) F IH]; intros f L; [destruct f; reflexivity|].
  change (segs_words ((st, es) :: l)) with (zlen es :: st :: es ++ segs_words l) in *. cbn [fst snd length] in *. rewrite app_length in L.
  destruct f as [|f]; [lia|]. cbn [segs_dec seg_dec].
  replace (seg_invalid lv (zlen es) st) with false by (symmetry; unfold seg_invalid, limit, lowest in *; destruct lv; lia). cbn [bind].
  rewrite upto_app_exact, from_app_exact by reflexivity. rewrite IH by lia. reflexivity.
Qed.

(** *** Round trip *)
Definition accepts (c : idxcls) (f : fmt) : bool :=
  match c, f with IL1, F4 L1 | IP34, F4 L1 | IP34, F3 | IPh3, F3 | IL2, F4 L2 => true | _, _ => false end.
Lemma last_word : forall W c, word_ok c -> forall b, b = flat_map word_bytes (W ++ [c]) -> Forall word_ok W ->
  removelast (words_dec b) = W /\ last (words_dec b) 0 = c /\ Z.odd (zlen b) = false /\ (zlen b =? 0) = false.
Proof.
  intros W c C b -> F. rewrite words_dec_enc by (apply Forall_app; auto). rewrite removelast_last, last_app1.
  rewrite word_bytes_len. split; auto. split; auto. rewrite zlen_app. pose proof (zlen_nonneg _ W). change (zlen [c]) with 1.
  split; [rewrite Z.odd_mul; reflexivity|lia].
Qed.
Lemma residue_ok : forall W s0 init, Forall word_ok W -> zlen W < 65535 -> (init = 0 \/ init = 1) -> s0 = carry (carry (sum W + init)) ->
  word_ok s0 /\ carry (carry (sum W + compl s0)) = 65535 - init.
Proof.
  intros W s0 init F L I E. pose proof (sum_range W F) as R.
  destruct (carries (sum W + init)) as (k & K & B & P & Kp); [lia|]. rewrite <- E in *. split; [unfold word_ok; lia|].
  rewrite compl_eq by (unfold word_ok; lia). destruct (carries (sum W + (65535 - s0))) as (k2 & K2 & B2 & P2 & Kp2); [lia|].
  set (r := carry (carry (sum W + (65535 - s0)))) in *. clearbody r. clear E. destruct I; subst init; lia.
Qed.
Lemma land_flags : Z.land 7 143 = 7 /\ Z.land 9 143 = 9.
Proof. split; reflexivity. Qed.
Lemma dec_built : forall c lv src W s0 f, word_ok src -> Forall word_ok W -> word_ok s0 -> lv = match c with IL2 => L2 | _ => L1 end ->
  rdict c (carry (carry (sum W + compl s0))) = Some f ->
  rmsg_dec c ((flags_of lv :: word_bytes src ++ [0]) ++ flat_map word_bytes W ++ word_bytes s0) =
    match f with F3 => Ok (Ph3 src W) | F4 l => let* x := segs_dec (S (length W)) l W in Ok (Ph4 l src x) end.
Proof.
  intros c lv src W s0 f Hs F H0 Lv R. unfold rmsg_dec. rewrite from_app_exact by reflexivity.
  destruct (last_word W s0 H0 (flat_map word_bytes W ++ word_bytes s0)) as (E1 & E2 & E3 & E4); auto.
  { rewrite flat_words_app. cbn [flat_map]. rewrite app_nil_r. reflexivity. }
  rewrite E3, E4. cbn [orb]. unfold residue. rewrite E1, E2, R.
  assert (HD : hdr_dec c ((flags_of lv :: word_bytes src ++ [0]) ++ flat_map word_bytes W ++ word_bytes s0) = Ok src).
  { cbn [word_bytes app hdr_dec]. destruct (flat_map word_bytes W ++ [s0 mod 256; s0 / 256]) as [|x y] eqn:EE.
    - apply (f_equal (@length Z)) in EE. rewrite app_length in EE. cbn [length] in EE. lia.
    - rewrite <- Lv. replace (Z.land (flags_of lv) 143 =? flags_of lv) with true by (destruct lv; reflexivity).
      unfold word_ok in Hs. f_equal. lia. }
  rewrite HD. cbn [bind]. destruct f; [reflexivity|].
  replace (length (words_dec (flat_map word_bytes W ++ word_bytes s0))) with (S (length W)); [reflexivity|].
  replace (flat_map word_bytes W ++ word_bytes s0) with (flat_map word_bytes (W ++ [s0])) by (rewrite flat_words_app; cbn [flat_map]; rewrite app_nil_r; reflexivity).
  rewrite words_dec_enc by (apply Forall_app; auto). rewrite app_length. cbn [length]. lia.
Qed.
Definition payload_words (l : list seg) : Z := fold_right (fun s n => 2 + zlen (snd s) + n) 0 l.
Lemma segs_words_len : forall l, zlen (segs_words l) = payload_words l.
Proof.
  induction l as [|s l IH]; [reflexivity|]. cbn [segs_words flat_map payload_words fold_right]. rewrite zlen_app.
  change (flat_map seg_words l) with (segs_words l). rewrite IH. unfold seg_words. rewrite !zlen_cons. fold (payload_words l). lia.
Qed.
(** A Phase IV routing message is decoded to what was encoded, as the same
    format, by every packet class that can meet it. *)
Theorem routing_msg_round_trip : forall lv src segs, word_ok src -> Forall (seg_ok lv) segs -> payload_words segs < 65535 ->
  exists b, ph4_enc lv src segs = Ok b /\ bytes_ok b /\ zlen b = 6 + 2 * payload_words segs /\
    forall c, accepts c (F4 lv) = true -> rmsg_dec c b = Ok (Ph4 lv src segs).
Proof.
  intros lv src segs Hs F L. pose proof (segs_words_ok lv segs F) as W. rewrite <- segs_words_len in *.
  destruct (residue_ok (segs_words segs) _ 1 W ltac:(lia) ltac:(auto) eq_refl) as (C & R).
  eexists. split.
  { unfold ph4_enc. rewrite (segs_enc_ok lv segs F). cbn [bind]. rewrite words_dec_enc by auto. rewrite (to2 _ C). cbn [bind].
    unfold hdr_enc. rewrite (to2 _ Hs). cbn [bind]. reflexivity. }
  split; [|split].
  - apply Forall_app. split.
    + unfold word_ok in Hs. constructor; [destruct lv; cbn; unfold byte_ok; lia|]. unfold word_bytes. repeat constructor; lia.
    + apply Forall_app. split; [apply word_bytes_ok; auto|]. unfold word_ok in C. unfold word_bytes. repeat constructor; lia.
  - rewrite !zlen_app, word_bytes_len. rewrite zlen_cons. change (zlen (word_bytes src ++ [0])) with 3. unfold word_bytes. rewrite !zlen_cons, zlen_nil. lia.
  - intros c A. rewrite (dec_built c lv src (segs_words segs) _ (F4 lv)); auto.
    + rewrite (segs_dec_ok lv segs F) by lia. reflexivity.
    + destruct c, lv; auto; discriminate A.
    + rewrite R. destruct c, lv; try discriminate A; reflexivity.
Qed.
Print Assumptions routing_msg_round_trip.
Theorem routing_msg3_round_trip : forall src ents, word_ok src -> Forall word_ok ents -> zlen ents < 65535 ->
  exists b, ph3_enc src ents = Ok b /\ bytes_ok b /\ zlen b = 6 + 2 * zlen ents /\
    forall c, accepts c F3 = true -> rmsg_dec c b = Ok (Ph3 src ents).
Proof.
  intros src ents Hs W L.
  destruct (residue_ok ents _ 0 W L ltac:(auto) eq_refl) as (C & R). rewrite Z.add_0_r in *.
  eexists. split.
  { unfold ph3_enc. rewrite (words_enc_ok _ W). cbn [bind]. rewrite (to2 _ C). cbn [bind].
    unfold hdr_enc. rewrite (to2 _ Hs). cbn [bind]. reflexivity. }
  split; [|split].
  - apply Forall_app. split.
    + unfold word_ok in Hs. constructor; [cbn; unfold byte_ok; lia|]. unfold word_bytes. repeat constructor; lia.
    + apply Forall_app. split; [apply word_bytes_ok; auto|]. unfold word_ok in C. unfold word_bytes. repeat constructor; lia.
  - rewrite !zlen_app, word_bytes_len. rewrite zlen_cons. change (zlen (word_bytes src ++ [0])) with 3. unfold word_bytes. rewrite !zlen_cons, zlen_nil. lia.
  - intros c A. rewrite (dec_built c L1 src ents _ F3); auto.
    + destruct c; auto; discriminate A.
    + rewrite R. destruct c; try discriminate A; reflexivity.
Qed.
Print Assumptions routing_msg3_round_trip.

(** *** Detection *)
(** The checksum test of a received message passes in format [f]. *)
Definition passes (c : idxcls) (b : list Z) (f : fmt) : Prop := rdict c (residue (words_dec (from 4 b))) = Some f.
Lemma not_passing : forall c b, (forall f, ~ passes c b f) -> rmsg_dec c b = Err EDecode.
Proof.
  intros c b H. unfold rmsg_dec. destruct ((zlen (from 4 b) =? 0) || Z.odd (zlen (from 4 b))); auto.
  unfold passes in H. destruct (rdict c (residue (words_dec (from 4 b)))) as [f|]; [exfalso; apply (H f); auto|auto].
Qed.
(** The message with one payload word replaced. *)
Definition one_word (b b' : list Z) (w w' : Z) : Prop :=
  exists h p q, zlen h = 4 /\ Z.even (zlen p) = true /\ word_ok w /\ word_ok w' /\
    b = h ++ p ++ word_bytes w ++ q /\ b' = h ++ p ++ word_bytes w' ++ q /\ bytes_ok b /\ Z.even (zlen b) = true /\ zlen b < 131000.
Lemma words_dec_app : forall a b, bytes_ok a -> Z.odd (zlen a) = false -> words_dec (a ++ b) = words_dec a ++ words_dec b.
Proof.
  assert (G : forall n a b, (length a <= n)%nat -> Z.odd (zlen a) = false -> words_dec (a ++ b) = words_dec a ++ words_dec b).
  { induction n as [|n IH]; intros a b L O.
    - destruct a; [reflexivity|cbn [length] in L; lia].
    - destruct a as [|x [|y a]]; [reflexivity|discriminate O|]. rewrite !zlen_cons in O.
      replace (1 + (1 + zlen a)) with (zlen a + 2 * 1) in O by lia. rewrite Z.odd_add_mul_2 in O.
      cbn [app words_dec length] in *. rewrite IH; auto. lia. }
  intros a b _. apply (G (length a)). lia.
Qed.
Lemma residue_sum : forall a, Forall word_ok a -> a <> [] -> zlen a < 65535 ->
  exists k, sum (removelast a) + (65535 - last a 0) = residue a + 65535 * k /\ 0 <= residue a < 65536.
Proof.
  intros a F N L. destruct (exists_last N) as (W & c & ->). rewrite removelast_last, last_app1.
  apply Forall_app in F. destruct F as (F & C). inversion_clear C as [|? ? C0 C1].
  unfold residue. rewrite removelast_last, last_app1, compl_eq by auto. pose proof (sum_range W F). unfold word_ok in C0.
  rewrite zlen_app in L. change (zlen [c]) with 1 in L.
  destruct (carries (sum W + (65535 - c))) as (k & K & B & _); [lia|]. eauto.
Qed.
Lemma one_word_residue : forall b b' w w', one_word b b' w w' ->
  exists k, (residue (words_dec (from 4 b')) - residue (words_dec (from 4 b)) = w' - w + 65535 * k \/
             residue (words_dec (from 4 b')) - residue (words_dec (from 4 b)) = w - w' + 65535 * k) /\
    0 <= residue (words_dec (from 4 b')) < 65536 /\ 0 <= residue (words_dec (from 4 b)) < 65536.
Proof.
  intros b b' w w' (h & p & q & Hh & Ep & Hw & Hw' & -> & -> & B & Ev & Len).
  rewrite !from_app_exact by auto. apply Forall_app in B. destruct B as (Bh & B). apply Forall_app in B. destruct B as (Bp & B).
  apply Forall_app in B. destruct B as (_ & Bq).
  assert (Oq : Z.odd (zlen q) = false).
  { rewrite !zlen_app, Hh in Ev. change (zlen (word_bytes w)) with 2 in Ev. rewrite <- Z.negb_even. apply negb_false_iff.
    rewrite !Z.even_add in Ev. rewrite Ep in Ev. cbn [Z.even Bool.eqb] in Ev. destruct (Z.even (zlen q)); auto. }
  assert (Op : Z.odd (zlen p) = false) by (rewrite <- Z.negb_even, Ep; reflexivity).
  destruct (words_of_bytes p Bp Op) as (Wp & _). destruct (words_of_bytes q Bq Oq) as (Wq & Eq).
  assert (D : forall v, word_ok v -> words_dec (p ++ word_bytes v ++ q) = words_dec p ++ v :: words_dec q).
  { intros v V. rewrite words_dec_app by auto. f_equal. unfold word_bytes. cbn [app words_dec]. unfold word_ok in V. f_equal. lia. }
  rewrite !D by auto.
  assert (Lp : zlen (words_dec p ++ w :: words_dec q) < 65535).
  { destruct (words_of_bytes p Bp Op) as (_ & Epb). pose proof (word_bytes_len (words_dec p)) as X. rewrite Epb in X.
    pose proof (word_bytes_len (words_dec q)) as Y. rewrite Eq in Y. rewrite !zlen_app, Hh in Len. change (zlen (word_bytes w)) with 2 in Len.
    rewrite zlen_app, zlen_cons. lia. }
  set (P := words_dec p) in *. set (Q := words_dec q) in *.
  assert (N : forall v, P ++ v :: Q <> []) by (intros v E; destruct P; discriminate E).
  assert (Lp' : zlen (P ++ w' :: Q) < 65535) by (rewrite zlen_app, zlen_cons in *; lia).
  destruct (residue_sum (P ++ w :: Q)) as (k1 & K1 & R1); auto; [apply Forall_app; split; auto|].
  destruct (residue_sum (P ++ w' :: Q)) as (k2 & K2 & R2); auto; [apply Forall_app; split; auto|].
  destruct Q as [|x Q'] eqn:EQ.
  - rewrite removelast_last, last_app1 in K1, K2. exists (k1 - k2). split; [right; lia|auto].
  - destruct (exists_last (l := x :: Q')) as (Q0 & c & EQ0); [discriminate|].
    assert (A : forall v, P ++ v :: x :: Q' = (P ++ v :: Q0) ++ [c]) by (intros; rewrite EQ0, <- app_assoc; reflexivity).
    rewrite !A in *. rewrite removelast_last, last_app1, sum_app in K1, K2.
    cbn [sum fold_right] in K1, K2. exists (k1 - k2). split; [left; lia|auto].
Qed.
(** A packet class for one format detects every replacement of a payload word,
    the checksum included, other than the exchange of 0x0000 and 0xffff. *)
Theorem routing_checksum_detects : forall c b b' w w' f, c <> IP34 -> passes c b f -> one_word b b' w w' -> w <> w' ->
  ~ (w = 0 /\ w' = 65535) -> ~ (w = 65535 /\ w' = 0) -> rmsg_dec c b' = Err EDecode.
Proof.
  intros c b b' w w' f C P O N X Y. apply not_passing. intros f' P'. unfold passes in *.
  destruct (one_word_residue b b' w w' O) as (k & K & R' & R). destruct O as (_ & _ & _ & _ & _ & Hw & Hw' & _). unfold word_ok in *.
  unfold rdict in P, P'.
  assert (Eq : residue (words_dec (from 4 b')) = residue (words_dec (from 4 b))).
  { destruct c; [|contradiction C; reflexivity| |].
    all: destruct (Z.eqb_spec (residue (words_dec (from 4 b))) 65534); destruct (Z.eqb_spec (residue (words_dec (from 4 b'))) 65534); try lia; try discriminate P; try discriminate P'.
    all: destruct (Z.eqb_spec (residue (words_dec (from 4 b))) 65535); destruct (Z.eqb_spec (residue (words_dec (from 4 b'))) 65535); try lia; try discriminate P; try discriminate P'. }
  lia.
Qed.
Print Assumptions routing_checksum_detects.
(** The class used on point to point circuits takes either format, told apart
    by the residue only: there a replacement is detected except when the word
    changes by one, modulo 65535, and then the message changes format. *)
Theorem routing_checksum_detects_ptp : forall b b' w w' f f', passes IP34 b f -> one_word b b' w w' -> w <> w' ->
  ~ (w = 0 /\ w' = 65535) -> ~ (w = 65535 /\ w' = 0) -> passes IP34 b' f' ->
  f' <> f /\ ((w' - w - 1) mod 65535 = 0 \/ (w' - w + 1) mod 65535 = 0).
Proof.
  intros b b' w w' f f' P O N X Y P'. unfold passes in *.
  destruct (one_word_residue b b' w w' O) as (k & K & R' & R). destruct O as (_ & _ & _ & _ & _ & Hw & Hw' & _). unfold word_ok in *.
  unfold rdict in P, P'.
  destruct (Z.eqb_spec (residue (words_dec (from 4 b))) 65534); destruct (Z.eqb_spec (residue (words_dec (from 4 b'))) 65534);
    [exfalso; lia| | |];
    destruct (Z.eqb_spec (residue (words_dec (from 4 b))) 65535); destruct (Z.eqb_spec (residue (words_dec (from 4 b'))) 65535);
    try discriminate P; try discriminate P'; try (exfalso; lia); injection P as <-; injection P' as <-; (split; [discriminate|]); lia.
Qed.
Print Assumptions routing_checksum_detects_ptp.
(** So on a point to point circuit a one bit error in a Phase IV level 1 routing
    message can turn it into an accepted Phase III message: here bit 0 of the
    first entry. *)
Theorem routing_checksum_refuted : exists b b', ph4_enc L1 1029 [(1, [1028; 5])] = Ok b /\ b' = [7; 5; 4; 0; 2; 0; 1; 0; 5; 4; 5; 0; 13; 4] /\
  one_word b b' 1028 1029 /\ rmsg_dec IP34 b = Ok (Ph4 L1 1029 [(1, [1028; 5])]) /\
  rmsg_dec IP34 b' = Ok (Ph3 1029 [2; 1; 1029; 5]).
Proof.
  eexists _, _. split; [vm_compute; reflexivity|]. split; [reflexivity|]. split; [|split; vm_compute; reflexivity].
  exists [7; 5; 4; 0], [2; 0; 1; 0], [5; 0; 13; 4]. repeat split; try reflexivity; try (unfold word_ok; lia); try (vm_compute; congruence).
  repeat constructor; unfold byte_ok; lia.
Qed.
(** The header is not covered by the checksum. *)
Theorem routing_checksum_header_refuted :
  rmsg_dec IL1 [7; 5; 4; 0; 1; 0; 1; 0; 4; 4; 7; 4] = Ok (Ph4 L1 1029 [(1, [1028])]) /\
  rmsg_dec IL1 [7; 6; 4; 0; 1; 0; 1; 0; 4; 4; 7; 4] = Ok (Ph4 L1 1030 [(1, [1028])]).
Proof. split; vm_compute; reflexivity. Qed.
(** A message with a correct checksum whose last segment is a single word makes
    decode raise IndexError, which nothing catches. *)
Theorem routing_msg_crash_refuted : rmsg_dec IP34 [7; 5; 4; 0; 1; 0; 2; 0] = Err EIndex.
Proof. vm_compute; reflexivity. Qed.
(** A segment that announces more entries than follow is accepted. *)
Theorem routing_msg_truncated_refuted : rmsg_dec IL1 [7; 5; 4; 0; 9; 0; 1; 0; 4; 4; 15; 4] = Ok (Ph4 L1 1029 [(1, [1028])]).
Proof. vm_compute; reflexivity. Qed.

(** *** C23: the update process *)
From Coq Require Import Sorted.
(** The destinations and entries listed in a packet. *)
Fixpoint seg_items (i : Z) (es : list Z) : list (Z * Z) := match es with [] => [] | e :: t => (i, e) :: seg_items (i + 1) t end.
Definition items (p : list seg) : list (Z * Z) := flat_map (fun s => seg_items (fst s) (snd s)) p.
Definition listed (pkts : list (list seg)) : list (Z * Z) := flat_map items pkts.
Definition size (p : list seg) : Z := 6 + 2 * payload_words p.

Lemma seg_items_snoc : forall es i e, seg_items i (es ++ [e]) = seg_items i es ++ [(i + zlen es, e)].
Proof.
  induction es as [|x es IH]; intros i e; cbn [app seg_items]; [rewrite zlen_nil, Z.add_0_r; reflexivity|].
  rewrite IH, zlen_cons. f_equal. f_equal. f_equal. f_equal. lia.
Qed.
Lemma items_app : forall a b, items (a ++ b) = items a ++ items b.
Proof. intros. unfold items. apply flat_map_app. Qed.
Lemma listed_app : forall a b, listed (a ++ b) = listed a ++ listed b.
Proof. intros. unfold listed. apply flat_map_app. Qed.
Lemma items1 : forall st es, items [(st, es)] = seg_items st es.
Proof. intros. unfold items. cbn [flat_map fst snd]. apply app_nil_r. Qed.
Lemma listed1 : forall p, listed [p] = items p.
Proof. intros. unfold listed. cbn [flat_map]. apply app_nil_r. Qed.
Lemma payload_app : forall a b, payload_words (a ++ b) = payload_words a + payload_words b.
Proof. unfold payload_words. induction a as [|s a IH]; intros; cbn [app fold_right]; [lia|]. rewrite IH. lia. Qed.
Lemma payload1 : forall st es, payload_words [(st, es)] = 2 + zlen es.
Proof. intros. unfold payload_words. cbn [fold_right snd]. lia. Qed.
Lemma flag_clear : forall l n j, 0 <= j -> flag (clear n l) j = if j =? Z.of_nat n then false else flag l j.
Proof.
  unfold flag. intros l n j Hj. remember (Z.to_nat j) as k. replace (j =? Z.of_nat n) with (Nat.eqb k n) by (destruct (Nat.eqb_spec k n); lia).
  clear j Hj Heqk. revert n k. induction l as [|b l IH]; intros n k; [destruct n, k; cbn; try reflexivity; destruct (Nat.eqb _ _); reflexivity|].
  destruct n, k; cbn [clear nth Nat.eqb]; auto.
Qed.
Lemma sorted_snoc : forall l x, StronglySorted Z.lt l -> Forall (fun y => y < x) l -> StronglySorted Z.lt (l ++ [x]).
Proof.
  induction l as [|a l IH]; intros x S F; cbn [app]; [repeat constructor|]. inversion_clear S. inversion_clear F. constructor; auto.
  apply Forall_app. split; auto.
Qed.
Lemma zrange_empty : forall a b, b <= a -> zrange a b = [].
Proof. intros. unfold zrange. replace (Z.to_nat (b - a)) with O by lia. reflexivity. Qed.
Lemma zrange_one : forall a, zrange a (a + 1) = [a].
Proof. intros. unfold zrange. replace (Z.to_nat (a + 1 - a)) with 1%nat by lia. cbn [seq map]. f_equal. lia. Qed.
Lemma zrange_cons : forall a b, a < b -> zrange a b = a :: zrange (a + 1) b.
Proof.
  intros a b H. unfold zrange. replace (Z.to_nat (b - a)) with (S (Z.to_nat (b - (a + 1)))) by lia. cbn [seq map]. f_equal; [lia|].
  rewrite <- seq_shift, map_map. apply map_ext. intros. lia.
Qed.

Section Build.
Variable lv : level.
Variables minhops mincost : list Z.
Variable blk : Z.
Variable srm : list bool.
Variable complete : bool.
Definition wanted (i : Z) : bool := complete || flag srm i.
Definition cur (i : Z) : Z := entry (at_ minhops i) (at_ mincost i).
Hypothesis Hblk : 16 <= blk.
Definition bound : Z := Z.max 12 (blk - 10).
(** Segments lie in [lowid, i). *)
Definition seg_in (i : Z) (s : seg) : Prop := lowid lv <= fst s /\ 1 <= zlen (snd s) /\ fst s + zlen (snd s) <= i /\
  exists sel, snd s = map cur sel.
Definition inv (i : Z) (b : bst) : Prop :=
  (forall j, i <= j -> flag (b_srm b) j = flag srm j) /\
  (forall j, lowid lv <= j < i -> flag (b_srm b) j = false \/ wanted j = false) /\
  (forall j, 0 <= j -> flag (b_srm b) j = true -> flag srm j = true) /\
  match b_p b with
  | None => b_seg b = SClass /\ b_ret b = [] /\ b_len b = 0 /\ forall j, lowid lv <= j < i -> wanted j = false
  | Some p => exists st es sel, b_seg b = SSeg (st, es) /\
      listed (b_ret b ++ [p ++ [(st, es)]]) = map (fun j => (j, cur j)) sel /\
      StronglySorted Z.lt sel /\ Forall (fun j => lowid lv <= j <= b_prev b) sel /\
      (forall j, lowid lv <= j < i -> wanted j = true -> In j sel) /\
      b_prev b < i /\ st + zlen es = b_prev b + 1 /\
      b_len b = size (p ++ [(st, es)]) /\ b_len b <= bound /\
      Forall (Forall (seg_in i)) (b_ret b ++ [p ++ [(st, es)]]) /\ Forall (fun q => size q <= bound) (b_ret b)
  end.
Lemma seg_in_more : forall i s, seg_in i s -> seg_in (i + 1) s.
Proof. intros i s (A & B & C & D). split; auto. split; auto. split; auto. lia. Qed.
Lemma step_ok : forall i b, lowid lv <= i -> inv i b ->
  exists b', build_step minhops mincost (blk - 16) complete b i = Ok b' /\ inv (i + 1) b'.
Proof.
  intros i b Hi (S1 & S2 & S3 & M). assert (L0 : 0 <= lowid lv) by (destruct lv; cbn; lia).
  unfold build_step. rewrite (S1 i) by lia. fold (wanted i). destruct (wanted i) eqn:W; cbn [negb].
  2: { exists b. split; [reflexivity|]. split; [intros; apply S1; lia|]. split.
    { intros j Hj. destruct (Z.eq_dec j i) as [->|]; [right; auto|apply S2; lia]. }
    split; [auto|]. destruct (b_p b) as [p|].
    - destruct M as (st & es & sel & E1 & E2 & E3 & E4 & E5 & E6 & E7 & E8 & E9 & E10 & E11). exists st, es, sel.
      split; auto. split; auto. split; auto. split; auto. split.
      { intros j Hj Wj. destruct (Z.eq_dec j i) as [->|]; [congruence|apply E5; auto; lia]. }
      split; [lia|]. split; auto. split; auto. split; auto. split; auto.
      eapply Forall_impl; [|exact E10]. intros q Q. eapply Forall_impl; [|exact Q]. intros s. apply seg_in_more.
    - destruct M as (M1 & M2 & M3 & M4). split; auto. split; auto. split; auto. intros j Hj.
      destruct (Z.eq_dec j i) as [->|]; [auto|apply M4; lia]. }
  (* the flags after clearing *)
  assert (SR : forall b', b_srm b' = clear (Z.to_nat i) (b_srm b) ->
    (forall j, i + 1 <= j -> flag (b_srm b') j = flag srm j) /\
    (forall j, lowid lv <= j < i + 1 -> flag (b_srm b') j = false \/ wanted j = false) /\
    (forall j, 0 <= j -> flag (b_srm b') j = true -> flag srm j = true)).
  { intros b' ->. split; [|split]; intros j Hj; rewrite flag_clear by lia; rewrite Z2Nat.id by lia; destruct (Z.eqb_spec j i); auto; try lia;
      first [apply S1; lia | apply S2; lia | discriminate]. }
  destruct (b_p b) as [p|] eqn:Ep.
  - destruct M as (st & es & sel & E1 & E2 & E3 & E4 & E5 & E6 & E7 & E8 & E9 & E10 & E11). rewrite E1.
    pose proof (zlen_nonneg _ es) as Les.
    assert (Fi : Forall (fun y => y < i) sel) by (eapply Forall_impl; [|exact E4]; intros; cbn in *; lia).
    destruct (Z.ltb_spec (blk - 16) (b_len b)) as [G|G].
    + (* finish this packet, start another *)
      cbn [close_seg bind]. eexists. split; [reflexivity|].
      split; [|split; [|split]]; try (match goal with |- context [b_srm ?B] => destruct (SR B eq_refl) as (A1 & A2 & A3) end; assumption).
      cbn [b_p b_seg b_ret b_prev b_len]. exists i, [cur i], (sel ++ [i]). split; [reflexivity|]. split.
      { rewrite listed_app, map_app. apply (f_equal2 (@app (Z * Z))); [exact E2|reflexivity]. }
      split; [apply sorted_snoc; auto|]. split.
      { apply Forall_app. split; [eapply Forall_impl; [|exact E4]; intros; cbn in *; lia|constructor; [lia|constructor]]. }
      split; [intros j Hj Wj; apply in_or_app; destruct (Z.eq_dec j i) as [->|]; [right; left; auto|left; apply E5; auto; lia]|].
      split; [lia|]. split; [rewrite zlen_cons, zlen_nil; lia|]. split; [reflexivity|]. split; [unfold bound; lia|]. split.
      * apply Forall_app. split; [eapply Forall_impl; [|exact E10]; intros q Q; eapply Forall_impl; [|exact Q]; intros s; apply seg_in_more|].
        constructor; [|constructor]. cbn [app]. constructor; [|constructor]. split; [auto|]. cbn [fst snd]. rewrite zlen_cons, zlen_nil.
        split; [lia|]. split; [lia|]. exists [i]. reflexivity.
      * apply Forall_app. split; auto. constructor; [|constructor]. rewrite E8 in E9. exact E9.
    + cbn [bind].
      assert (Old : Forall (Forall (seg_in (i + 1))) (b_ret b) /\ Forall (seg_in (i + 1)) (p ++ [(st, es)])).
      { apply Forall_app in E10. destruct E10 as (A & B). inversion_clear B as [|? ? B1 B2]. split.
        - eapply Forall_impl; [|exact A]; intros q Q; eapply Forall_impl; [|exact Q]; intros s; apply seg_in_more.
        - eapply Forall_impl; [|exact B1]; intros s; apply seg_in_more. }
      destruct Old as (Old1 & Old2).
      destruct (Z.ltb_spec 2 (i - b_prev b)) as [Gp|Gp]; cbn [bind].
      * (* new segment *)
        eexists. split; [reflexivity|].
        split; [|split; [|split]]; try (match goal with |- context [b_srm ?B] => destruct (SR B eq_refl) as (A1 & A2 & A3) end; assumption).
        cbn [b_p b_seg b_ret b_prev b_len]. exists i, [cur i], (sel ++ [i]). split; [reflexivity|]. split.
        { rewrite listed_app, listed1, items_app, map_app. cbn [app]. rewrite <- E2, listed_app, listed1, items1, <- app_assoc. reflexivity. }
        split; [apply sorted_snoc; auto|]. split.
        { apply Forall_app. split; [eapply Forall_impl; [|exact E4]; intros; cbn in *; lia|constructor; [lia|constructor]]. }
        split; [intros j Hj Wj; apply in_or_app; destruct (Z.eq_dec j i) as [->|]; [right; left; auto|left; apply E5; auto; lia]|].
        split; [lia|]. split; [rewrite zlen_cons, zlen_nil; lia|].
        assert (Sz : b_len b + 4 + 2 = size ((p ++ [(st, es)]) ++ [(i, [cur i])])).
        { rewrite E8. unfold size. rewrite !payload_app, !payload1, zlen_cons, zlen_nil. lia. }
        split; [exact Sz|]. split; [unfold bound in *; lia|]. split.
        -- apply Forall_app. split; auto. constructor; [|constructor]. apply Forall_app. split; auto. constructor; [|constructor].
           split; [auto|]. cbn [fst snd]. rewrite zlen_cons, zlen_nil. split; [lia|]. split; [lia|]. exists [i]. reflexivity.
        -- auto.
      * (* the same segment, with the entries skipped *)
        assert (J : exists js, zrange (b_prev b + 1) i = js /\ ((js = [] /\ i = b_prev b + 1) \/ (js = [i - 1] /\ i = b_prev b + 2))).
        { eexists. split; [reflexivity|]. assert (i = b_prev b + 1 \/ i = b_prev b + 2) as [E|E] by lia.
          - left. split; [apply zrange_empty; lia|auto].
          - right. split; [|auto]. replace i with (b_prev b + 1 + 1) by lia. rewrite zrange_one. f_equal. lia. }
        destruct J as (js & -> & J). eexists. split; [reflexivity|].
        split; [|split; [|split]]; try (match goal with |- context [b_srm ?B] => destruct (SR B eq_refl) as (A1 & A2 & A3) end; assumption).
        cbn [b_p b_seg b_ret b_prev b_len]. apply Forall_app in Old2. destruct Old2 as (Op & Os). inversion_clear Os as [|? ? O1 _].
        destruct O1 as (O1 & O2 & O3 & (sl & O4)). cbn [fst snd] in O1, O2, O3, O4.
        exists st, ((es ++ map cur js) ++ [cur i]), (sel ++ js ++ [i]). split; [reflexivity|].
        assert (Ls : zlen (map cur js) = zlen js) by (unfold zlen; rewrite map_length; reflexivity).
        assert (Lj : zlen js = i - b_prev b - 1) by (destruct J as [(-> & ->)|(-> & ->)]; rewrite ?zlen_cons, ?zlen_nil; lia).
        split.
        { rewrite listed_app, listed1, items_app, items1, seg_items_snoc. rewrite !map_app, <- E2, listed_app, listed1, items_app, items1.
          rewrite zlen_app, Ls. destruct J as [(-> & J)|(-> & J)]; cbn [map app].
          - rewrite app_nil_r, zlen_nil. rewrite <- !app_assoc. do 4 f_equal. cbn [app]. f_equal. f_equal. lia.
          - rewrite seg_items_snoc, zlen_cons, zlen_nil. rewrite <- !app_assoc. do 3 f_equal. cbn [app]. f_equal; [f_equal; lia|]. f_equal. f_equal. lia. }
        split.
        { destruct J as [(-> & J)|(-> & J)]; cbn [app]; [apply sorted_snoc; auto|].
          change [i - 1; i] with ([i - 1] ++ [i]). rewrite app_assoc. apply sorted_snoc.
          - apply sorted_snoc; auto. eapply Forall_impl; [|exact E4]. intros; cbn in *; lia.
          - apply Forall_app. split; auto. constructor; [lia|constructor]. }
        split.
        { apply Forall_app. split; [eapply Forall_impl; [|exact E4]; intros; cbn in *; lia|]. apply Forall_app. split; [|constructor; [lia|constructor]].
          destruct J as [(-> & J)|(-> & J)]; constructor; [lia|constructor]. }
        split; [intros j Hj Wj; rewrite !in_app_iff; destruct (Z.eq_dec j i) as [->|]; [right; right; left; auto|left; apply E5; auto; lia]|].
        split; [lia|]. split; [rewrite !zlen_app, Ls, zlen_cons, zlen_nil; lia|].
        assert (Sz : b_len b + 2 * zlen js + 2 = size (p ++ [(st, (es ++ map cur js) ++ [cur i])])).
        { rewrite E8. unfold size. rewrite !payload_app, !payload1, !zlen_app, Ls, zlen_cons, zlen_nil. lia. }
        split; [exact Sz|]. split; [unfold bound in *; lia|]. split.
        -- apply Forall_app. split; auto. constructor; [|constructor]. apply Forall_app. split; auto. constructor; [|constructor].
           split; [auto|]. cbn [fst snd]. rewrite !zlen_app, Ls, zlen_cons, zlen_nil. split; [lia|]. split; [lia|].
           exists (sl ++ js ++ [i]). rewrite O4, !map_app, <- app_assoc. reflexivity.
        -- auto.
  - (* the first packet *)
    destruct M as (M1 & M2 & M3 & M4). rewrite M1, M2, M3. destruct (Z.ltb_spec (blk - 16) 0); [lia|]. cbn [bind].
    eexists. split; [reflexivity|].
    split; [|split; [|split]]; try (match goal with |- context [b_srm ?B] => destruct (SR B eq_refl) as (A1 & A2 & A3) end; assumption).
    cbn [b_p b_seg b_ret b_prev b_len]. exists i, [cur i], [i]. split; [reflexivity|]. split; [reflexivity|].
    split; [repeat constructor|]. split; [constructor; [lia|constructor]|].
    split; [intros j Hj Wj; destruct (Z.eq_dec j i) as [->|]; [left; auto|rewrite M4 in Wj by lia; discriminate]|].
    split; [lia|]. split; [rewrite zlen_cons, zlen_nil; lia|]. split; [reflexivity|]. split; [unfold bound; lia|]. split; [|constructor].
    constructor; [|constructor]. cbn [app]. constructor; [|constructor]. split; [auto|]. cbn [fst snd]. rewrite zlen_cons, zlen_nil.
    split; [lia|]. split; [lia|]. exists [i]. reflexivity.
Qed.
Lemma loop_ok : forall n i b, lowid lv <= i -> inv i b -> i <= n ->
  exists b', build_loop minhops mincost (blk - 16) complete b (zrange i n) = Ok b' /\ inv n b'.
Proof.
  intros n i b. remember (Z.to_nat (n - i)) as k. revert i b Heqk. induction k as [|k IH]; intros i b Hk Hl I Le.
  - assert (i = n) by lia. subst i. rewrite zrange_empty by lia. exists b. auto.
  - rewrite zrange_cons by lia. cbn [build_loop]. destruct (step_ok i b Hl I) as (b1 & -> & I1). cbn [bind]. apply IH; auto; lia.
Qed.
End Build.
(** The messages built list, in increasing order and each once, every wanted
    destination and possibly others, all with their current entries; they fit
    the block size; the flags sent are cleared and no others set. *)
Theorem updates_built : forall lv blk minhops mincost srm complete, 16 <= blk -> lowest lv <= zlen minhops ->
  (exists i, lowest lv <= i < zlen minhops /\ (complete || flag srm i) = true) ->
  exists pkts srm', build4 lv blk minhops mincost srm complete = Ok (pkts, srm') /\
    (exists sel, listed pkts = map (fun i => (i, entry (at_ minhops i) (at_ mincost i))) sel /\ StronglySorted Z.lt sel /\
       (forall i, In i sel -> lowest lv <= i < zlen minhops) /\
       forall i, lowest lv <= i < zlen minhops -> (complete || flag srm i) = true -> In i sel) /\
    Forall (fun p => size p <= Z.max 12 (blk - 10)) pkts /\
    Forall (Forall (fun s => lowest lv <= fst s /\ 1 <= zlen (snd s) /\ fst s + zlen (snd s) <= zlen minhops /\
        exists l, snd s = map (fun i => entry (at_ minhops i) (at_ mincost i)) l)) pkts /\
    (forall i, lowest lv <= i < zlen minhops -> flag srm' i = false) /\
    (forall i, 0 <= i -> flag srm' i = true -> flag srm i = true).
Proof.
  intros lv blk minhops mincost srm complete Hb Hn (i0 & Hi0 & W0). unfold build4. change lowest with lowid in *.
  set (b0 := {| b_p := None; b_seg := SClass; b_ret := []; b_prev := -999; b_len := 0; b_srm := srm |}).
  destruct (loop_ok lv minhops mincost blk srm complete Hb (zlen minhops) (lowid lv) b0) as (b & E & I); auto; [lia| |].
  { split; [auto|]. split; [intros; lia|]. split; [auto|]. cbn. repeat split; auto. intros; lia. }
  rewrite E. cbn [bind]. destruct I as (S1 & S2 & S3 & M). destruct (b_p b) as [p|].
  - destruct M as (st & es & sel & E1 & E2 & E3 & E4 & E5 & E6 & E7 & E8 & E9 & E10 & E11). rewrite E1. cbn [close_seg bind].
    exists (b_ret b ++ [p ++ [(st, es)]]), (b_srm b).
    split; [destruct p; reflexivity|]. rewrite E8 in E9. split.
    + exists sel. split; [exact E2|]. split; auto. split; [|exact E5]. intros i Hi. rewrite Forall_forall in E4. apply E4 in Hi. lia.
    + split; [apply Forall_app; split; [exact E11|]; constructor; [exact E9|constructor]|]. split; [exact E10|]. split; [|auto].
      intros i Hi. destruct (S2 i Hi) as [F|F]; auto. destruct (flag (b_srm b) i) eqn:Fi; auto. apply S3 in Fi; [|destruct lv; cbn in Hi; lia].
      unfold wanted in F. rewrite Fi, orb_true_r in F. discriminate.
  - exfalso. destruct M as (_ & _ & _ & M). specialize (M i0 Hi0). unfold wanted in M. congruence.
Qed.
Print Assumptions updates_built.
(** Every message built can be encoded, fits the block size and is decoded to
    the same segments. *)
Theorem updates_decode : forall lv blk minhops mincost srm complete pkts srm' src,
  16 <= blk <= 65535 -> lowest lv <= zlen minhops <= limit lv -> word_ok src ->
  Forall (fun h => 0 <= h <= 31) minhops -> Forall (fun c => 0 <= c <= 1023) mincost ->
  (exists i, lowest lv <= i < zlen minhops /\ (complete || flag srm i) = true) ->
  build4 lv blk minhops mincost srm complete = Ok (pkts, srm') ->
  Forall (fun p => exists b, ph4_enc lv src p = Ok b /\ zlen b <= Z.max 12 (blk - 10) /\
    forall c, accepts c (F4 lv) = true -> rmsg_dec c b = Ok (Ph4 lv src p)) pkts.
Proof.
  intros lv blk minhops mincost srm complete pkts srm' src Hb Hn Hs Hh Hc N B.
  assert (EW : forall i, word_ok (entry (at_ minhops i) (at_ mincost i))).
  { intros i. unfold entry, at_. rewrite Z.shiftl_mul_pow2 by lia. change (2 ^ 10) with 1024.
    assert (A : forall (l : list Z) M k, 0 <= M -> Forall (fun h => 0 <= h <= M) l -> 0 <= nth k l 0 <= M).
    { intros l M k HM F. destruct (nth_in_or_default k l 0) as [X|X]; [rewrite Forall_forall in F; apply F; auto|rewrite X; lia]. }
    pose proof (A minhops 31 (Z.to_nat i) ltac:(lia) Hh). pose proof (A mincost 1023 (Z.to_nat i) ltac:(lia) Hc). unfold word_ok. lia. }
  destruct (updates_built lv blk minhops mincost srm complete) as (pk & sr & B' & _ & F1 & F2 & _); auto; try lia.
  rewrite B in B'. injection B' as <- <-. apply Forall_forall. intros p Hp. rewrite Forall_forall in F1, F2. specialize (F1 p Hp). specialize (F2 p Hp).
  assert (OK : Forall (seg_ok lv) p).
  { eapply Forall_impl; [|exact F2]. intros (st, es) (A1 & A2 & A3 & (l & A4)). unfold seg_ok. cbn [fst snd] in *. split; auto. split; auto. split; [lia|].
    rewrite A4. apply Forall_forall. intros x Hx. apply in_map_iff in Hx. destruct Hx as (k & <- & _). apply EW. }
  unfold size in F1. destruct (routing_msg_round_trip lv src p Hs OK ltac:(lia)) as (b & E1 & E2 & E3 & E4). exists b. rewrite E3. auto.
Qed.
Print Assumptions updates_decode.
(** What the receiver of the messages learns: for each listed destination the
    hops and cost of the sender, one hop and the cost of the circuit more. *)
Lemma entry_split : forall h c k, 0 <= h <= 31 -> 0 <= c <= 1023 -> entry_of k (entry h c) = (h + 1, c + k).
Proof.
  intros h c k H C. unfold entry_of, entry. rewrite Z.shiftl_mul_pow2, Z.shiftr_div_pow2 by lia. change 1023 with (Z.ones 10). rewrite Z.land_ones by lia. change (2 ^ 10) with 1024.
  f_equal; lia.
Qed.
Lemma seg_entries_items : forall cost es i, seg_entries cost i es = map (fun x => (fst x, entry_of cost (snd x))) (seg_items i es).
Proof. induction es as [|e es IH]; intros i; [reflexivity|]. cbn [seg_entries seg_items map fst snd]. rewrite IH. reflexivity. Qed.
Theorem updates_learned : forall lv blk minhops mincost srm complete cost pkts srm' src,
  16 <= blk -> lowest lv <= zlen minhops ->
  Forall (fun h => 0 <= h <= 31) minhops -> Forall (fun c => 0 <= c <= 1023) mincost ->
  (exists i, lowest lv <= i < zlen minhops /\ (complete || flag srm i) = true) ->
  build4 lv blk minhops mincost srm complete = Ok (pkts, srm') ->
  exists sel, flat_map (fun p => entries cost (Ph4 lv src p)) pkts = map (fun i => (i, (at_ minhops i + 1, at_ mincost i + cost))) sel /\
    StronglySorted Z.lt sel /\ (forall i, In i sel -> lowest lv <= i < zlen minhops) /\
    forall i, lowest lv <= i < zlen minhops -> (complete || flag srm i) = true -> In i sel.
Proof.
  intros lv blk minhops mincost srm complete cost pkts srm' src Hb Hn Hh Hc N B.
  destruct (updates_built lv blk minhops mincost srm complete Hb Hn N) as (pk & sr & B' & (sel & S1 & S2 & S3 & S4) & _). rewrite B in B'. injection B' as <- <-.
  exists sel. split; [|auto].
  assert (A : forall (l : list Z) M k, 0 <= M -> Forall (fun h => 0 <= h <= M) l -> 0 <= nth k l 0 <= M).
  { intros l M k HM F. destruct (nth_in_or_default k l 0) as [X|X]; [rewrite Forall_forall in F; apply F; auto|rewrite X; lia]. }
  assert (E : flat_map (fun p => entries cost (Ph4 lv src p)) pkts = map (fun x => (fst x, entry_of cost (snd x))) (listed pkts)).
  { clear. induction pkts as [|p ps IH]; [reflexivity|]. unfold listed in *. cbn [flat_map]. rewrite map_app, <- IH. f_equal. clear. cbn [entries]. unfold items. induction p as [|s p IH]; [reflexivity|].
    cbn [flat_map]. rewrite map_app, <- IH, seg_entries_items. reflexivity. }
  rewrite E, S1, map_map. apply map_ext. intros i. cbn [fst snd]. f_equal. apply entry_split; unfold at_; apply A; auto; lia.
Qed.
Print Assumptions updates_learned.
(** A message is encoded only if all that goes into it fits its field. *)
Theorem routing_msg_enc_range : forall lv src segs b, ph4_enc lv src segs = Ok b ->
  word_ok src /\ Forall (fun s => word_ok (fst s) /\ word_ok (zlen (snd s)) /\ Forall word_ok (snd s)) segs.
Proof.
  intros lv src segs b H. unfold ph4_enc in H. destruct (segs_enc segs) as [x|] eqn:E; cbn [bind] in H; [|discriminate].
  destruct (to_bytes 2 (carry _)) as [y|]; cbn [bind] in H; [|discriminate]. destruct (hdr_enc lv src) as [h|] eqn:HE; cbn [bind] in H; [|discriminate].
  assert (W : forall v z, to_bytes 2 v = Ok z -> word_ok v) by (intros v z Z0; apply to_bytes_inv in Z0; unfold word_ok; change (256 ^ Z.of_nat 2) with 65536 in *; lia).
  split; [unfold hdr_enc in HE; destruct (to_bytes 2 src) eqn:T; [eapply W; exact T|discriminate HE]|]. clear H HE. revert x E. induction segs as [|s l IH]; intros x E; [constructor|]. cbn [segs_enc] in E.
  destruct (seg_enc s) as [u|] eqn:U; cbn [bind] in E; [|discriminate]. destruct (segs_enc l) as [v|]; cbn [bind] in E; [|discriminate]. constructor; [|eapply IH; reflexivity].
  unfold seg_enc in U. destruct (to_bytes 2 (zlen (snd s))) eqn:T1; cbn [bind] in U; [|discriminate]. destruct (to_bytes 2 (fst s)) eqn:T2; cbn [bind] in U; [|discriminate]. unfold words_enc in U.
  destruct (forallb _ (snd s)) eqn:F; [|discriminate]. split; [eapply W; exact T2|]. split; [eapply W; exact T1|]. rewrite forallb_forall in F. apply Forall_forall. intros w Hw. apply F in Hw. unfold word_ok. lia.
Qed.
Print Assumptions routing_msg_enc_range.
(** The Phase III form lists every destination from 1 on. *)
Theorem updates_built3 : forall minhops mincost i, 1 <= i < zlen minhops ->
  zlen (build3 minhops mincost) = zlen minhops - 1 /\
  nth_error (build3 minhops mincost) (Z.to_nat (i - 1)) = Some (entry (at_ minhops i) (at_ mincost i)).
Proof.
  intros minhops mincost i Hi. unfold build3, zrange. split.
  - unfold zlen in *. rewrite !map_length, seq_length. lia.
  - rewrite nth_error_map. rewrite nth_error_map.
    assert (E : nth_error (seq 0 (Z.to_nat (zlen minhops - 1))) (Z.to_nat (i - 1)) = Some (Z.to_nat (i - 1))).
    { rewrite (nth_error_nth' _ O) by (rewrite seq_length; lia). rewrite seq_nth by lia. reflexivity. }
    rewrite E. cbn [option_map]. do 2 f_equal; f_equal; lia.
Qed.
Print Assumptions updates_built3.
(** With no flag set there is nothing to send and the code fails: p is None. *)
Theorem updates_none_refuted : build4 L1 576 [0; 31; 31] [0; 1023; 1023] [false; false; false] false = Err EAttr.
Proof. reflexivity. Qed.
(** Flags 1, 3 and 7 of ten: one segment 1..3 (2 is filled in), one at 7;
    with a block of 30 octets four messages are needed for ten entries. *)
Example updates_example :
  let h := [0; 1; 2; 3; 4; 5; 6; 7; 8; 9] in
  build4 L1 576 h h [false; true; false; true; false; false; false; true; false; false] false =
    Ok ([[(1, [1025; 2050; 3075]); (7, [7175])]], repeat false 10) /\
  build4 L1 30 h h (repeat true 10) true =
    Ok ([[(0, [0; 1025; 2050])]; [(3, [3075; 4100; 5125])]; [(6, [6150; 7175; 8200])]; [(9, [9225])]], repeat false 10).
Proof. split; reflexivity. Qed.
