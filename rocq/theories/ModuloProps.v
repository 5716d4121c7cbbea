(** Properties C01 and C02: sequence number arithmetic and ordering.
    The specification uses "unwrapped" integers: a sequence number [x] stands
    for any integer congruent to it modulo [m]. *)
From Verif Require Import Base ModuloModel.

(** Specification, independent of the model. *)
Definition in_range (m x : Z) : Prop := 0 <= x < m.
(** [y] is reached from [x] by [d] increments. *)
Definition reaches (m x d y : Z) : Prop := exists k, x + d = y + k * m.

Lemma mod_new_ok : forall m v, mod_new m v = Ok v <-> in_range m v.
Proof.
  intros. unfold mod_new, in_range.
  destruct (Z.leb_spec 0 v), (Z.ltb_spec v m); cbn; split; intro HH;
    try discriminate; auto; lia.
Qed.

Lemma mod_new_mod : forall m v, 0 < m -> mod_new m (v mod m) = Ok (v mod m).
Proof. intros. apply mod_new_ok. unfold in_range. apply Z.mod_pos_bound. lia. Qed.

(** C01: the constructor accepts exactly the residues. *)
Theorem mod_new_exact : forall m v,
  (in_range m v -> mod_new m v = Ok v) /\
  (~ in_range m v -> mod_new m v = Err EOverflow).
Proof.
  intros. unfold mod_new, in_range. split; intro H;
  destruct (Z.leb_spec 0 v), (Z.ltb_spec v m); cbn; auto; lia.
Qed.
Print Assumptions mod_new_exact.
Example mod_new_exact_ex : in_range 4096 4095 /\ ~ in_range 4096 4096.
Proof. unfold in_range. lia. Qed.

(** C01: addition and subtraction never fail, stay in range and move by the
    stated number of increments. *)
Theorem mod_add_spec : forall m x i, 0 < m ->
  exists y, mod_add m x i = Ok y /\ in_range m y /\ reaches m x i y.
Proof.
  intros m x i Hm. exists ((x + i) mod m). unfold mod_add.
  rewrite mod_new_mod by lia. split; [reflexivity|]. split.
  - unfold in_range. apply Z.mod_pos_bound. lia.
  - exists ((x + i) / m). rewrite (Z.div_mod (x + i) m) at 1 by lia. lia.
Qed.
Print Assumptions mod_add_spec.

Theorem mod_sub_spec : forall m x i, 0 < m ->
  exists y, mod_sub m x i = Ok y /\ in_range m y /\ reaches m y i x.
Proof.
  intros m x i Hm. exists ((x - i) mod m). unfold mod_sub.
  rewrite mod_new_mod by lia. split; [reflexivity|]. split.
  - unfold in_range. apply Z.mod_pos_bound. lia.
  - exists (- ((x - i) / m)).
    pose proof (Z.div_mod (x - i) m ltac:(lia)). lia.
Qed.
Print Assumptions mod_sub_spec.

(** C01: the result is the only in-range value that many increments away, so
    addition and subtraction are inverse. *)
Theorem reaches_unique : forall m x d y y', 0 < m ->
  in_range m y -> in_range m y' -> reaches m x d y -> reaches m x d y' -> y = y'.
Proof.
  unfold in_range, reaches. intros m x d y y' Hm Hy Hy' [k Hk] [k' Hk'].
  assert (y - y' = (k' - k) * m) by lia.
  assert (k' - k = 0 \/ k' - k <= -1 \/ 1 <= k' - k) as [?|[?|?]] by lia; nia.
Qed.
Print Assumptions reaches_unique.

Theorem mod_add_sub_inverse : forall m x i, 0 < m -> in_range m x ->
  (let* y := mod_add m x i in mod_sub m y i) = Ok x /\
  (let* y := mod_sub m x i in mod_add m y i) = Ok x.
Proof.
  intros m x i Hm Hx. unfold mod_add, mod_sub, in_range in *.
  rewrite !mod_new_mod by lia. cbn [bind]. rewrite !mod_new_mod by lia.
  split; f_equal.
  - rewrite Zminus_mod_idemp_l. replace (x + i - i) with x by lia.
    apply Z.mod_small. lia.
  - rewrite Zplus_mod_idemp_l. replace (x - i + i) with x by lia.
    apply Z.mod_small. lia.
Qed.
Print Assumptions mod_add_sub_inverse.

Example mod_add_ex : mod_add 256 250 10 = Ok 4 /\ mod_sub 4096 3 7 = Ok 4092.
Proof. split; reflexivity. Qed.

(** C01: difference of two sequence numbers (x - y as the code computes it with
    two Mod operands) is the number of increments from y to x, modulo m; there
    is exactly one signed representative d with -m/2 < d <= m/2. *)
Theorem mod_signed_distance : forall m x y, 0 < m -> in_range m x -> in_range m y ->
  exists d, reaches m x d y /\ - m < 2 * d <= m /\
  (forall d', reaches m x d' y -> - m < 2 * d' <= m -> d' = d) /\
  mod_sub m y x = Ok (if d <? 0 then d + m else d).
Proof.
  unfold in_range, reaches. intros m x y Hm Hx Hy.
  assert (Hu : forall d d', - m < 2 * d <= m -> - m < 2 * d' <= m ->
     (exists k, x + d = y + k * m) -> (exists k, x + d' = y + k * m) -> d' = d).
  { intros d d' H1 H2 [k Hk] [k' Hk'].
    assert (d' - d = (k' - k) * m) by lia.
    assert (k' - k = 0 \/ k' - k <= -1 \/ 1 <= k' - k) as [?|[?|?]] by lia; nia. }
  assert (E : forall d, 0 <= d < m -> (exists k, y - x = d + k * m) ->
              mod_sub m y x = Ok d).
  { intros d Hd [k Hk]. unfold mod_sub. rewrite mod_new_mod by lia. f_equal.
    rewrite Hk. rewrite Z_mod_plus_full. apply Z.mod_small. lia. }
  destruct (Z_le_gt_dec (2 * (y - x)) m) as [A|A];
  [destruct (Z_lt_le_dec (- m) (2 * (y - x))) as [B|B]|].
  - exists (y - x). split; [exists 0; lia|]. split; [lia|]. split.
    + intros d' H1 H2. apply Hu; auto; try lia. exists 0; lia.
    + destruct (Z.ltb_spec (y - x) 0); apply E; try lia;
        [exists (-1)|exists 0]; lia.
  - exists (y - x + m). split; [exists 1; lia|]. split; [lia|]. split.
    + intros d' H1 H2. apply Hu; auto; try lia. exists 1; lia.
    + destruct (Z.ltb_spec (y - x + m) 0); apply E; try lia.
      exists (-1). lia.
  - exists (y - x - m). split; [exists (-1); lia|]. split; [lia|]. split.
    + intros d' H1 H2. apply Hu; auto; try lia. exists (-1); lia.
    + destruct (Z.ltb_spec (y - x - m) 0); apply E; try lia.
      exists 0. lia.
Qed.
Print Assumptions mod_signed_distance.
Example mod_signed_distance_ex :
  in_range 256 250 /\ in_range 256 4 /\ mod_sub 256 4 250 = Ok 10.
Proof. unfold in_range. repeat split; try lia; reflexivity. Qed.

(** *** C02: ordering *)

(** The RFC 1982 order: [y] is ahead of [x] by fewer than half the number
    space. *)
Definition ahead (m x y : Z) : Prop := exists d, 0 < d /\ 2 * d < m /\ reaches m x d y.
Definition opposite (m x y : Z) : Prop := exists d, 2 * d = m /\ reaches m x d y.

Lemma maxdelta_spec : forall m d, 2 <= m -> (d <= maxdelta m <-> 2 * d < m).
Proof. intros. unfold maxdelta. destruct (Z.eqb_spec (m mod 2) 0); lia. Qed.

Lemma is_undef_spec : forall m d, 2 <= m -> (is_undef m d = true <-> 2 * d = m).
Proof.
  intros. unfold is_undef, undef. destruct (Z.eqb_spec (m mod 2) 0).
  - rewrite Z.eqb_eq. lia.
  - split; [discriminate|lia].
Qed.

Lemma delta_reaches : forall m x y d, 0 < m -> 0 <= d < m ->
  (reaches m x d y <-> (y - x) mod m = d).
Proof.
  intros m x y d Hm Hd. unfold reaches. split.
  - intros [k Hk]. replace (y - x) with (d + (-k) * m) by lia.
    rewrite Z_mod_plus_full. apply Z.mod_small. lia.
  - intros <-. exists (- ((y - x) / m)).
    pose proof (Z.div_mod (y - x) m ltac:(lia)). lia.
Qed.

Lemma ahead_delta : forall m x y, 2 <= m ->
  (ahead m x y <-> 0 < (y - x) mod m /\ 2 * ((y - x) mod m) < m).
Proof.
  intros m x y Hm. unfold ahead. split.
  - intros (d & H1 & H2 & H3). apply delta_reaches in H3; lia.
  - intros [H1 H2]. exists ((y - x) mod m). repeat split; auto.
    apply delta_reaches; try lia; auto. 
Qed.

Lemma opposite_delta : forall m x y, 2 <= m ->
  (opposite m x y <-> 2 * ((y - x) mod m) = m).
Proof.
  intros m x y Hm. unfold opposite. split.
  - intros (d & H1 & H3). apply delta_reaches in H3; lia.
  - intros H1. exists ((y - x) mod m). split; auto.
    apply delta_reaches; try lia; auto. 
Qed.

Lemma neg_delta : forall m x y, 0 < m -> (y - x) mod m <> 0 ->
  (x - y) mod m = m - (y - x) mod m.
Proof.
  intros. replace (x - y) with (- (y - x)) by lia.
  apply Z_mod_nz_opp_full. auto.
Qed.

Lemma zero_delta : forall m x y, 0 < m -> in_range m x -> in_range m y ->
  ((y - x) mod m = 0 <-> x = y).
Proof.
  intros m x y Hm Hx Hy. split.
  - intro H. unfold in_range in *.
    destruct (Z_le_gt_dec 0 (y - x)).
    + rewrite Z.mod_small in H by lia. lia.
    + assert ((y - x) mod m = y - x + m).
      { replace (y - x) with (y - x + m + (-1) * m) by lia.
        rewrite Z_mod_plus_full. rewrite Z.mod_small; lia. }
      lia.
  - intros ->. rewrite Z.sub_diag. apply Z.mod_0_l. lia.
Qed.

(** [<] is exactly "ahead"; it raises TypeError exactly for opposite values. *)
Theorem mod_lt_spec : forall m x y, 2 <= m ->
  (opposite m x y -> mod_lt m x y = Err EType) /\
  (~ opposite m x y -> exists b, mod_lt m x y = Ok b /\ (b = true <-> ahead m x y)).
Proof.
  intros m x y Hm. rewrite opposite_delta by auto.
  setoid_rewrite ahead_delta; auto. unfold mod_lt.
  pose proof (is_undef_spec m ((y - x) mod m) Hm) as U.
  pose proof (maxdelta_spec m ((y - x) mod m) Hm) as Dl.
  destruct (is_undef m ((y - x) mod m)); split; intro H.
  - reflexivity.
  - destruct H. apply U. reflexivity.
  - apply U in H. discriminate.
  - eexists. split; [reflexivity|].
    rewrite andb_true_iff, Z.ltb_lt, Z.leb_le. rewrite Dl. reflexivity.
Qed.
Print Assumptions mod_lt_spec.

(** The other comparisons are the ones determined by [<] and equality. *)
Theorem mod_gt_spec : forall m x y, 2 <= m ->
  (opposite m y x -> mod_gt m x y = Err EType) /\
  (~ opposite m y x -> exists b, mod_gt m x y = Ok b /\ (b = true <-> ahead m y x)).
Proof. intros. exact (mod_lt_spec m y x H). Qed.
Print Assumptions mod_gt_spec.

Theorem mod_le_spec : forall m x y, 2 <= m -> in_range m x -> in_range m y ->
  mod_le m x y = (let* b := mod_lt m x y in Ok (b || (x =? y))) /\
  mod_ge m x y = (let* b := mod_gt m x y in Ok (b || (x =? y))).
Proof.
  intros m x y Hm Hx Hy.
  assert (G : forall x y, in_range m x -> in_range m y ->
     mod_le m x y = (let* b := mod_lt m x y in Ok (b || (x =? y)))).
  { clear x y Hx Hy. intros x y Hx Hy. unfold mod_le, mod_lt.
    destruct (is_undef m ((y - x) mod m)); cbn [bind]; auto. f_equal.
    pose proof (zero_delta m x y ltac:(lia) Hx Hy) as Z0.
    pose proof (maxdelta_spec m ((y - x) mod m) Hm) as Dl.
    pose proof (Z.mod_pos_bound (y - x) m ltac:(lia)).
    destruct (Z.leb_spec ((y - x) mod m) (maxdelta m)),
      (Z.ltb_spec 0 ((y - x) mod m)), (Z.eqb_spec x y); cbn; auto; lia. }
  split; [apply G; auto|].
  change (mod_ge m x y) with (mod_le m y x).
  change (mod_gt m x y) with (mod_lt m y x).
  rewrite Z.eqb_sym. apply G; auto.
Qed.
Print Assumptions mod_le_spec.

(** Trichotomy away from the opposite point. *)
Theorem mod_trichotomy : forall m x y, 2 <= m -> in_range m x -> in_range m y ->
  ~ opposite m x y ->
  (mod_lt m x y = Ok true /\ mod_gt m x y = Ok false /\ x <> y) \/
  (mod_lt m x y = Ok false /\ mod_gt m x y = Ok false /\ x = y) \/
  (mod_lt m x y = Ok false /\ mod_gt m x y = Ok true /\ x <> y).
Proof.
  intros m x y Hm Hx Hy Ho.
  pose proof (zero_delta m x y ltac:(lia) Hx Hy) as Z0.
  pose proof (Z.mod_pos_bound (y - x) m ltac:(lia)) as Hb.
  rewrite opposite_delta in Ho by auto.
  unfold mod_lt, mod_gt.
  destruct (Z.eq_dec ((y - x) mod m) 0) as [E|E].
  - assert (x = y) by (apply Z0; auto). subst y. right; left.
    rewrite Z.sub_diag, Z.mod_0_l by lia.
    destruct (is_undef m 0) eqn:U.
    + apply is_undef_spec in U; lia.
    + auto.
  - pose proof (neg_delta m x y ltac:(lia) E) as N. rewrite N.
    set (d := (y - x) mod m) in *.
    destruct (is_undef m d) eqn:U; [apply is_undef_spec in U; lia|].
    destruct (is_undef m (m - d)) eqn:U'; [apply is_undef_spec in U'; lia|].
    pose proof (maxdelta_spec m d Hm).
    pose proof (maxdelta_spec m (m - d) Hm).
    assert (x <> y) by (intro; apply E; apply Z0; auto).
    destruct (Z.ltb_spec 0 d); try lia.
    destruct (Z.ltb_spec 0 (m - d)); try lia. cbn [andb].
    destruct (Z.leb_spec d (maxdelta m)), (Z.leb_spec (m - d) (maxdelta m));
      try lia; auto.
Qed.
Print Assumptions mod_trichotomy.
Example mod_trichotomy_ex :
  in_range 4096 4000 /\ in_range 4096 5 /\ mod_lt 4096 4000 5 = Ok true /\
  mod_lt 256 0 128 = Err EType /\ mod_lt 7 0 3 = Ok true /\ mod_lt 7 0 4 = Ok false.
Proof. unfold in_range. repeat split; try lia; reflexivity. Qed.

(** Adding the same increment to both sides changes no comparison. *)
Theorem mod_lt_shift : forall m x y i x' y', 2 <= m ->
  mod_add m x i = Ok x' -> mod_add m y i = Ok y' ->
  mod_lt m x' y' = mod_lt m x y /\ mod_le m x' y' = mod_le m x y.
Proof.
  intros m x y i x' y' Hm Hx Hy. unfold mod_add in *.
  rewrite mod_new_mod in Hx, Hy by lia. injection Hx as <-. injection Hy as <-.
  unfold mod_lt, mod_le.
  rewrite <- Zminus_mod. replace (y + i - (x + i)) with (y - x) by lia. auto.
Qed.
Print Assumptions mod_lt_shift.

(** Agreement with the true order: two unwrapped positions at most maxdelta
    apart compare as integers do. *)
Theorem mod_lt_unwrapped : forall m u v, 2 <= m -> 2 * Z.abs (v - u) < m ->
  mod_lt m (u mod m) (v mod m) = Ok (u <? v) /\
  mod_le m (u mod m) (v mod m) = Ok (u <=? v) /\
  mod_gt m (u mod m) (v mod m) = Ok (v <? u).
Proof.
  intros m u v Hm Hd.
  assert (G : forall u v, 2 * Z.abs (v - u) < m ->
    is_undef m ((v - u) mod m) = false /\
    ((0 <? (v - u) mod m) && ((v - u) mod m <=? maxdelta m)) = (u <? v) /\
    ((v - u) mod m <=? maxdelta m) = (u <=? v)).
  { clear u v Hd. intros u v Hd.
    pose proof (maxdelta_spec m ((v - u) mod m) Hm) as Dl.
    pose proof (is_undef_spec m ((v - u) mod m) Hm) as U.
    destruct (Z_le_gt_dec u v).
    - rewrite (Z.mod_small (v - u)) in * by lia.
      destruct (is_undef m (v - u)); [lia|]. repeat split;
      destruct (Z.leb_spec (v - u) (maxdelta m)), (Z.ltb_spec 0 (v - u)),
        (Z.ltb_spec u v), (Z.leb_spec u v); cbn; auto; lia.
    - assert (E : (v - u) mod m = v - u + m).
      { replace (v - u) with (v - u + m + (-1) * m) at 1 by lia.
        rewrite Z_mod_plus_full. apply Z.mod_small. lia. }
      rewrite E in *. destruct (is_undef m (v - u + m)); [lia|].
      repeat split;
      destruct (Z.leb_spec (v - u + m) (maxdelta m)), (Z.ltb_spec 0 (v - u + m)),
        (Z.ltb_spec u v), (Z.leb_spec u v); cbn; auto; lia. }
  unfold mod_lt, mod_le, mod_gt. rewrite <- !Zminus_mod.
  destruct (G u v Hd) as (A & B & C). destruct (G v u ltac:(lia)) as (A' & B' & _).
  rewrite A, B, C, A', B'. auto.
Qed.
Print Assumptions mod_lt_unwrapped.
Example mod_lt_unwrapped_ex : 2 * Z.abs (5000 - 4090) < 4096.
Proof. lia. Qed.

(** The other operations.  Multiplication is repeated addition, a shift is
    repeated doubling and a power is repeated multiplication, all on the wrapped
    values; quotient and remainder are those of the division of integers. *)
Fixpoint times (m x : Z) (n : nat) : res Z :=
  match n with O => mod_new m 0 | S k => let* y := times m x k in mod_add m y x end.
Fixpoint doubled (m x : Z) (n : nat) : res Z :=
  match n with O => mod_new m x | S k => let* y := doubled m x k in mod_add m y y end.
Fixpoint powered (m x : Z) (n : nat) : res Z :=
  match n with O => mod_new m (1 mod m) | S k => let* y := powered m x k in mod_mul m y x end.
Theorem mod_mul_spec : forall m x n, 0 < m -> mod_mul m x (Z.of_nat n) = times m x n.
Proof.
  intros m x n Hm. unfold mod_mul. rewrite mod_new_mod by lia. induction n as [|n IH].
  - cbn [times]. rewrite Z.mul_0_r, Z.mod_0_l by lia. symmetry. apply mod_new_ok. unfold in_range. lia.
  - cbn [times]. rewrite <- IH. cbn [bind]. unfold mod_add. rewrite mod_new_mod by lia.
    rewrite Zplus_mod_idemp_l. do 2 f_equal. lia.
Qed.
Print Assumptions mod_mul_spec.
Theorem mod_lshift_spec : forall m x n, 0 < m -> in_range m x -> mod_lshift m x n = doubled m x n.
Proof.
  intros m x n Hm Hx. unfold mod_lshift. rewrite mod_new_mod by lia. induction n as [|n IH].
  - cbn [doubled]. change (2 ^ Z.of_nat 0) with 1. rewrite Z.mul_1_r, Z.mod_small by exact Hx. symmetry. now apply mod_new_ok.
  - cbn [doubled]. rewrite <- IH. cbn [bind]. unfold mod_add. rewrite mod_new_mod by lia. rewrite <- Zplus_mod.
    do 2 f_equal. rewrite Nat2Z.inj_succ, Z.pow_succ_r by lia. lia.
Qed.
Print Assumptions mod_lshift_spec.
Theorem mod_pow_spec : forall m x n, 0 < m -> mod_pow m x n = powered m x n.
Proof.
  intros m x n Hm. unfold mod_pow. rewrite mod_new_mod by lia. induction n as [|n IH].
  - cbn [powered]. change (x ^ Z.of_nat 0) with 1. now rewrite mod_new_mod by lia.
  - cbn [powered]. rewrite <- IH. cbn [bind]. unfold mod_mul. rewrite mod_new_mod by lia. rewrite Zmult_mod_idemp_l.
    do 2 f_equal. rewrite Nat2Z.inj_succ, Z.pow_succ_r by lia. lia.
Qed.
Print Assumptions mod_pow_spec.
Theorem mod_divide_spec : forall m x i, in_range m x -> 0 < i ->
  exists q r, mod_floordiv m x i = Ok q /\ mod_mod m x i = Ok r /\ x = i * q + r /\ 0 <= r < i.
Proof.
  intros m x i [H1 H2] Hi. exists (x / i), (x mod i). unfold mod_floordiv, mod_mod. rewrite (proj2 (Z.eqb_neq i 0)) by lia.
  pose proof (Z.div_pos x i H1 Hi). pose proof (Z.div_le_upper_bound x i x Hi ltac:(nia)). pose proof (Z.mod_pos_bound x i Hi). pose proof (Z.mod_le x i H1 Hi).
  rewrite !(Z.mod_small _ m) by lia. split; [apply mod_new_ok; unfold in_range; lia|]. split; [apply mod_new_ok; unfold in_range; lia|].
  split; [apply Z.div_mod; lia|assumption].
Qed.
Print Assumptions mod_divide_spec.
Example mod_ops_ex : mod_mul 4096 1000 9 = Ok 808 /\ mod_lshift 256 200 1 = Ok 144 /\ mod_pow 16 3 4 = Ok 1 /\ mod_floordiv 16 13 4 = Ok 3 /\ mod_mod 16 13 4 = Ok 1.
Proof. repeat split; reflexivity. Qed.
