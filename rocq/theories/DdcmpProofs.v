(** Invariants of the DDCMP state machine: the state in terms of unbounded
    counts, and the effect of each function on them. *)
From Verif Require Import Base DdcmpModel.

(** The messages sent and the data delivered, from a list of outputs. *)
Fixpoint txs (o : list out) : list msg :=
  match o with [] => [] | Tx m :: o => m :: txs o | _ :: o => txs o end.
Fixpoint delivers (o : list out) : list (list Z) :=
  match o with [] => [] | Deliver d :: o => d :: delivers o | _ :: o => delivers o end.
Lemma txs_app : forall a b, txs (a ++ b) = txs a ++ txs b.
Proof. induction a; intros; simpl; auto. destruct a; simpl; rewrite ?IHa; auto. Qed.
Lemma delivers_app : forall a b, delivers (a ++ b) = delivers a ++ delivers b.
Proof. induction a; intros; simpl; auto. destruct a; simpl; rewrite ?IHa; auto. Qed.

(** Entry number [i], counting from 1. *)
Definition nth1 {A} (S : list A) (i : Z) : option A := nth_error S (Z.to_nat (i - 1)).
Lemma nth1_app : forall A (S T : list A) i x, nth1 S i = Some x -> nth1 (S ++ T) i = Some x.
Proof.
  unfold nth1. intros. rewrite nth_error_app1; auto.
  apply nth_error_Some. congruence.
Qed.
Lemma nth1_last : forall A (S : list A) d, nth1 (S ++ [d]) (zlen S + 1) = Some d.
Proof.
  intros. unfold nth1, zlen. replace (Z.to_nat (Z.of_nat (length S) + 1 - 1)) with (length S) by lia.
  rewrite nth_error_app2, Nat.sub_diag by lia. reflexivity.
Qed.

(** [h] and [p] go with a message: the number of data messages its sender had
    numbered, and received, when sending it. *)
Definition item_ok (q : Z) (S : list (list Z)) (m : msg) (h p : Z) : Prop :=
  match m with
  | DataM resp num d => resp = p mod 256 /\ exists i, h - q < i <= h /\ num = i mod 256 /\ nth1 S i = Some d
  | AckM resp | NakM _ resp => resp = p mod 256
  | MaintM _ => False
  | _ => True
  end.
(** Messages in flight, oldest first: those counts do not decrease, and lie
    between the receiver's [lh], [lp] and the sender's [hh], [hp]. *)
Fixpoint chan (q : Z) (S : list (list Z)) (c : list msg) (lh lp hh hp : Z) : Prop :=
  match c with
  | [] => lh <= hh /\ lp <= hp
  | m :: c => exists h p, lh <= h /\ lp <= p /\ item_ok q S m h p /\ chan q S c h p hh hp
  end.
Lemma chan_le : forall q S c lh lp hh hp, chan q S c lh lp hh hp -> lh <= hh /\ lp <= hp.
Proof.
  induction c; simpl; intros; auto.
  destruct H as (h & p & ? & ? & _ & H). apply IHc in H. lia.
Qed.
Lemma chan_low : forall q S c lh lp lh' lp' hh hp,
  chan q S c lh lp hh hp -> lh' <= lh -> lp' <= lp -> chan q S c lh' lp' hh hp.
Proof.
  destruct c; simpl; intros; [lia|].
  destruct H as (h & p & ? & ? & ? & ?). exists h, p. repeat split; auto; lia.
Qed.
Lemma chan_high : forall q S c lh lp hh hp hh' hp',
  chan q S c lh lp hh hp -> hh <= hh' -> hp <= hp' -> chan q S c lh lp hh' hp'.
Proof.
  induction c; simpl; intros; [lia|].
  destruct H as (h & p & ? & ? & ? & ?). exists h, p. repeat split; auto. eapply IHc; eauto.
Qed.
Lemma item_more : forall q S T m h p, item_ok q S m h p -> item_ok q (S ++ T) m h p.
Proof.
  destruct m; simpl; auto. intros h p (? & i & ? & ? & ?). split; auto.
  exists i. repeat split; auto; try lia. apply nth1_app; auto.
Qed.
Lemma chan_more : forall q S T c lh lp hh hp, chan q S c lh lp hh hp -> chan q (S ++ T) c lh lp hh hp.
Proof.
  induction c; simpl; intros; auto.
  destruct H as (h & p & ? & ? & ? & ?). exists h, p. repeat split; auto. apply item_more; auto.
Qed.
Lemma chan_snoc : forall q S m h p hh' hp' c lh lp hh hp,
  chan q S c lh lp hh hp -> item_ok q S m h p -> hh <= h -> hp <= p -> h <= hh' -> p <= hp' ->
  chan q S (c ++ [m]) lh lp hh' hp'.
Proof.
  induction c; simpl; intros.
  - exists h, p. repeat split; auto; lia.
  - destruct H as (h1 & p1 & ? & ? & ? & ?). exists h1, p1. repeat split; auto. eapply IHc; eauto.
Qed.
Lemma chan_drop : forall q S m c2 c1 lh lp hh hp,
  chan q S (c1 ++ m :: c2) lh lp hh hp -> chan q S (c1 ++ c2) lh lp hh hp.
Proof.
  induction c1; simpl; intros.
  - destruct H as (h & p & ? & ? & _ & H). eapply chan_low; eauto.
  - destruct H as (h & p & ? & ? & ? & ?). exists h, p. auto.
Qed.

(** The outputs keep a channel in order. *)
Definition pushes (q : Z) (S : list (list Z)) (N R N' R' : Z) (o : list out) : Prop :=
  N <= N' /\ R <= R' /\
  (forall c lh lp, chan q S c lh lp N R -> chan q S (c ++ txs o) lh lp N' R') /\
  Forall (fun m => m <> StartM) (txs o).
Lemma pushes_nil : forall q S N R N' R', N <= N' -> R <= R' -> pushes q S N R N' R' [].
Proof.
  intros. split; [auto|split; [auto|split]]; simpl; auto.
  intros. rewrite app_nil_r. eapply chan_high; eauto.
Qed.
Lemma pushes_app : forall q S N R N1 R1 N2 R2 o1 o2,
  pushes q S N R N1 R1 o1 -> pushes q S N1 R1 N2 R2 o2 -> pushes q S N R N2 R2 (o1 ++ o2).
Proof.
  intros * (A & B & C & D) (E & F & G & H). split; [lia|split; [lia|split]].
  - intros. rewrite txs_app, app_assoc. auto.
  - rewrite txs_app. apply Forall_app; auto.
Qed.
Lemma pushes_one : forall q S N R N' R' m,
  N <= N' -> R <= R' -> item_ok q S m N' R -> m <> StartM -> pushes q S N R N' R' [Tx m].
Proof.
  intros. split; [auto|split; [auto|split]]; simpl; auto.
  intros. eapply chan_snoc; eauto; try lia.
Qed.
Lemma pushes_skip : forall q S N R x, (forall m, x <> Tx m) -> pushes q S N R N R [x].
Proof.
  intros. destruct x; try (apply pushes_nil; lia). exfalso. eapply H; eauto.
  all: split; [lia|split; [lia|split]]; simpl; auto; intros; rewrite app_nil_r; auto.
Qed.

(** The state, in terms of the data accepted so far (S), the number of these
    numbered (N) and acknowledged (K), and the number received (R). *)
Record core (q : Z) (s : stn) (N K R : Z) (S : list (list Z)) : Prop := {
  rl_r0 : 0 <= R; rl_k0 : 0 <= K; rl_kn : K <= N; rl_win : N <= K + q;
  rl_n : n s = N mod 256; rl_a : a s = K mod 256; rl_r : r s = R mod 256;
  rl_q : forall i, K < i <= N -> exists d, nth1 S i = Some d /\ unack s (i mod 256) = Some d;
  rl_e : forall j, 0 <= j < 256 -> (forall i, K < i <= N -> i mod 256 <> j) -> unack s j = None }.
(** The rest of S is waiting. *)
Definition waiting (s : stn) (N : Z) (S : list (list Z)) : Prop :=
  notsent s = skipn (Z.to_nat N) S /\ N <= zlen S.
Definition rel (q : Z) (s : stn) (N K R : Z) (S : list (list Z)) : Prop :=
  core q s N K R S /\ waiting s N S /\ (notsent s <> [] -> N = K + q).

Section Q.
Variable q : Z.
Hypothesis Hq : 1 <= q <= 255.

Lemma pend_eq : forall s N K R S, core q s N K R S -> ssub (n s) (a s) = N - K.
Proof.
  intros * H. destruct H. unfold ssub. rewrite rl_n0, rl_a0.
  rewrite Zminus_mod_idemp_l, Zminus_mod_idemp_r. apply Z.mod_small. lia.
Qed.
Lemma core_eq : forall s s' N K R S,
  r s' = r s -> a s' = a s -> n s' = n s -> unack s' = unack s ->
  core q s N K R S -> core q s' N K R S.
Proof.
  intros * Er Ea En Eu H. destruct H.
  constructor; rewrite ?Er, ?Ea, ?En, ?Eu; auto.
Qed.
Lemma core_more : forall s N K R S T, core q s N K R S -> core q s N K R (S ++ T).
Proof.
  intros * H. destruct H. constructor; auto.
  intros i Hi. destruct (rl_q0 i Hi) as (x & ? & ?). exists x. split; auto. apply nth1_app; auto.
Qed.
Lemma rel_eq : forall s s' N K R S,
  r s' = r s -> a s' = a s -> n s' = n s -> unack s' = unack s -> notsent s' = notsent s ->
  rel q s N K R S -> rel q s' N K R S.
Proof.
  intros * Er Ea En Eu Eq (H & W & F). unfold rel, waiting. rewrite Eq.
  split; [eapply core_eq; [..|exact H]; auto|]. auto.
Qed.
Lemma rel_init : forall s, rel q (init_state s) 0 0 0 [].
Proof.
  intros. split; [|split].
  - constructor; simpl; try lia; auto.
  - split; [reflexivity|]. unfold zlen. simpl. lia.
  - intros H. elim H. reflexivity.
Qed.

(** The same fields apart from those of the transmit side. *)
Definition frame (s s' : stn) : Prop :=
  st s' = st s /\ r s' = r s /\ is_up s' = is_up s /\ (ackflag s = false -> ackflag s' = false).
Lemma frame_refl : forall s, frame s s. Proof. repeat split; auto. Qed.
Lemma frame_trans : forall x y z, frame x y -> frame y z -> frame x z.
Proof. unfold frame. intuition congruence. Qed.

Lemma mod_ne : forall x y, x <> y -> -256 < x - y < 256 -> x mod 256 <> y mod 256.
Proof. intros. intro E. lia. Qed.

(** Numbering a message. *)
Lemma send_room : forall s N K R S d queue,
  core q s N K R S -> is_running s = true -> nth1 S (N + 1) = Some d -> N < K + q ->
  exists s' o, send q s d queue = Ok (s', o) /\ core q s' (N + 1) K R S /\
    notsent s' = notsent s /\ frame s s' /\
    pushes q S N R (N + 1) R o /\ delivers o = [] /\ (queue = true -> o = []).
Proof.
  intros * H Hr Hn Hlt. unfold send. rewrite Hr.
  assert (Hc : cansend q s = true). { unfold cansend. rewrite (pend_eq _ _ _ _ _ H). lia. }
  rewrite Hc. cbn [negb].
  assert (EN : sadd (n s) 1 = (N + 1) mod 256).
  { unfold sadd. rewrite (rl_n _ _ _ _ _ _ H), Zplus_mod_idemp_l. reflexivity. }
  assert (Hu : unack s (sadd (n s) 1) = None).
  { rewrite EN. apply (rl_e _ _ _ _ _ _ H). lia. intros i Hi.
    apply mod_ne; destruct H; lia. }
  cbv zeta. rewrite Hu.
  set (s1 := set_tx s (a s) (sadd (n s) 1) (upd (unack s) (sadd (n s) 1) (Some d)) (notsent s)).
  assert (R1 : core q s1 (N + 1) K R S).
  { destruct H. constructor; unfold s1; cbn [set_tx r a n unack notsent]; auto; try lia.
    - intros i Hi. destruct (Z.eq_dec i (N + 1)) as [->|Hne].
      + exists d. split; [exact Hn|].
        unfold upd. rewrite EN, Z.eqb_refl. reflexivity.
      + destruct (rl_q0 i) as (x & ? & ?); [lia|]. exists x. split; auto.
        unfold upd. rewrite EN. destruct (i mod 256 =? (N + 1) mod 256) eqn:E; auto.
        exfalso. apply Z.eqb_eq in E. revert E. apply mod_ne; lia.
    - intros j Hj HA. unfold upd. destruct (j =? sadd (n s) 1) eqn:E.
      + exfalso. apply (HA (N + 1)). lia. apply Z.eqb_eq in E. congruence.
      + apply rl_e0; auto. intros. apply HA. lia. }
  destruct queue.
  - exists s1, []. split; [reflexivity|]. split; [exact R1|]. split; [reflexivity|].
    split; [repeat split; auto|]. split; [apply pushes_nil; lia|]. auto.
  - exists (set_ack s1 false), [Tx (DataM (r s) (sadd (n s) 1) d)].
    split; [reflexivity|]. split; [eapply core_eq; [..|exact R1]; reflexivity|].
    split; [reflexivity|]. split; [repeat split|].
    split.
    { apply pushes_one; try lia; [|discriminate].
      simpl. split. rewrite (rl_r _ _ _ _ _ _ H); auto.
      exists (N + 1). split. lia. split. exact EN. exact Hn. }
    split; [reflexivity|]. discriminate.
Qed.

Lemma ack_loop_ok : forall c s N K R S,
  core q s N K R S -> Z.of_nat c <= N - K ->
  exists s', ack_loop c s = Ok s' /\ core q s' N (K + Z.of_nat c) R S /\
    notsent s' = notsent s /\ frame s s' /\ ackflag s' = ackflag s.
Proof.
  induction c; intros * H Hc; simpl.
  - exists s. rewrite Z.add_0_r. split; [reflexivity|]. split; [exact H|]. repeat split; auto.
  - assert (EA : sadd (a s) 1 = (K + 1) mod 256).
    { unfold sadd. rewrite (rl_a _ _ _ _ _ _ H), Zplus_mod_idemp_l. reflexivity. }
    destruct (rl_q _ _ _ _ _ _ H (K + 1)) as (d & Hd & Hu); [lia|].
    rewrite EA, Hu.
    set (s1 := set_tx s ((K + 1) mod 256) (n s) (upd (unack s) ((K + 1) mod 256) None) (notsent s)).
    assert (R1 : core q s1 N (K + 1) R S).
    { destruct H. constructor; unfold s1; cbn [set_tx r a n unack notsent]; auto; try lia.
      - intros i Hi. destruct (rl_q0 i) as (x & ? & ?); [lia|]. exists x. split; auto.
        unfold upd. destruct (i mod 256 =? (K + 1) mod 256) eqn:E; auto.
        exfalso. apply Z.eqb_eq in E. revert E. apply mod_ne; lia.
      - intros j Hj HA. unfold upd. destruct (j =? (K + 1) mod 256) eqn:E; auto.
        apply rl_e0; auto. intros i Hi. destruct (Z.eq_dec i (K + 1)) as [->|].
        lia. apply HA. lia. }
    destruct (IHc s1 N (K + 1) R S R1) as (s2 & E2 & R2 & N2 & F2 & A2); [lia|].
    exists s2. split; [exact E2|].
    replace (K + Z.pos (Pos.of_succ_nat c)) with (K + 1 + Z.of_nat c) by lia.
    split; [exact R2|]. split; [exact N2|]. split; [|exact A2].
    eapply frame_trans; [|exact F2]. repeat split; auto.
Qed.

Lemma skipn_nth1 : forall A (S : list A) N d l, 0 <= N -> skipn (Z.to_nat N) S = d :: l ->
  nth1 S (N + 1) = Some d /\ l = skipn (Z.to_nat (N + 1)) S /\ N + 1 <= zlen S.
Proof.
  intros A S N d l HN E. unfold nth1, zlen.
  replace (Z.to_nat (N + 1 - 1)) with (Z.to_nat N) by lia.
  replace (Z.to_nat (N + 1)) with (1 + Z.to_nat N)%nat by lia.
  assert (L : (Z.to_nat N < length S)%nat).
  { assert (length (skipn (Z.to_nat N) S) = length (d :: l)) by (rewrite E; auto).
    rewrite skipn_length in H. simpl in H. lia. }
  split.
  - rewrite <- (firstn_skipn (Z.to_nat N) S), E at 1.
    rewrite nth_error_app2; rewrite firstn_length_le by lia; [|lia].
    rewrite Nat.sub_diag. reflexivity.
  - split; [|lia].
    rewrite <- (firstn_skipn (Z.to_nat N) S), E at 1.
    rewrite skipn_app. rewrite firstn_length_le by lia.
    rewrite (skipn_all2 (firstn _ _)) by (rewrite firstn_length_le; lia).
    replace (1 + Z.to_nat N - Z.to_nat N)%nat with 1%nat by lia. reflexivity.
Qed.

Lemma drain_ok : forall nak fuel s N K R S,
  core q s N K R S -> waiting s N S -> is_running s = true -> (length (notsent s) <= fuel)%nat ->
  exists s' o N', drain fuel q s nak = Ok (s', o) /\ rel q s' N' K R S /\ frame s s' /\
    pushes q S N R N' R o /\ delivers o = [] /\ (nak = true -> o = []).
Proof.
  induction fuel; intros s N K R S H W Hr Hf.
  - destruct (notsent s) eqn:EQ; [|simpl in Hf; lia].
    exists s, [], N. split; [reflexivity|]. split.
    { split; [exact H|]. split; [exact W|]. rewrite EQ. intros X; elim X; reflexivity. }
    split; [apply frame_refl|]. split; [apply pushes_nil; lia|]. auto.
  - simpl. unfold cansend. rewrite (pend_eq _ _ _ _ _ H).
    destruct (N - K <? q) eqn:EC.
    2:{ exists s, [], N. split; [reflexivity|]. split.
        { split; [exact H|]. split; [exact W|]. intros _. destruct H; lia. }
        split; [apply frame_refl|]. split; [apply pushes_nil; lia|]. auto. }
    destruct (notsent s) as [|d l] eqn:EQ.
    { exists s, [], N. split; [reflexivity|]. split.
      { split; [exact H|]. split; [exact W|]. rewrite EQ. intros X; elim X; reflexivity. }
      split; [apply frame_refl|]. split; [apply pushes_nil; lia|]. auto. }
    destruct W as (W1 & W2). rewrite EQ in W1. symmetry in W1.
    destruct (skipn_nth1 _ S N d l) as (D1 & D2 & D3); [destruct H; lia|exact W1|].
    set (s1 := set_tx s (a s) (n s) (unack s) l).
    destruct (send_room s1 N K R S d nak) as (s2 & o1 & E2 & C2 & N2 & F2 & P2 & V2 & Z2).
    { eapply core_eq; [..|exact H]; reflexivity. }
    { exact Hr. } { exact D1. } { lia. }
    rewrite E2. cbn [bind].
    destruct (IHfuel s2 (N + 1) K R S C2) as (s3 & o2 & N3 & E3 & R3 & F3 & P3 & V3 & Z3).
    { split; [rewrite N2; exact D2|exact D3]. }
    { unfold is_running. destruct F2 as (-> & _). exact Hr. }
    { rewrite N2. simpl. simpl in Hf. lia. }
    rewrite E3. cbn [bind].
    exists s3, (o1 ++ o2), N3. split; [reflexivity|]. split; [exact R3|].
    split. { eapply frame_trans; [|exact F3]. eapply frame_trans; [|exact F2]. repeat split; auto. }
    split; [eapply pushes_app; eauto|].
    split; [rewrite delivers_app, V2, V3; reflexivity|].
    intros X. rewrite Z2, Z3 by exact X. reflexivity.
Qed.

(** The count acknowledged after a message with the given resp. *)
Definition ackto (K N resp : Z) : Z :=
  if N - K <? (resp - K) mod 256 then K else K + (resp - K) mod 256.
Lemma ackto_exact : forall K N p, K <= p <= N -> N - K <= 255 -> ackto K N (p mod 256) = p.
Proof.
  intros. unfold ackto. rewrite Zminus_mod_idemp_l. rewrite Z.mod_small by lia.
  destruct (N - K <? p - K) eqn:E; lia.
Qed.
Lemma ackto_range : forall K N resp, K <= N -> K <= ackto K N resp <= N.
Proof. intros. unfold ackto. destruct (N - K <? (resp - K) mod 256) eqn:E; lia. Qed.

Lemma process_ack_ok : forall s N K R S resp nak,
  rel q s N K R S -> is_running s = true ->
  exists s' o N' good, process_ack q s resp nak = Ok (s', o, good) /\
    rel q s' N' (ackto K N resp) R S /\ frame s s' /\ pushes q S N R N' R o /\ delivers o = [] /\
    (good = false -> s' = s /\ o = []) /\ good = negb (N - K <? (resp - K) mod 256) /\
    (nak = true -> o = []).
Proof.
  intros * (H & W & F) Hr. unfold process_ack, ackto.
  rewrite (pend_eq _ _ _ _ _ H).
  assert (EC : ssub resp (a s) = (resp - K) mod 256).
  { unfold ssub. rewrite (rl_a _ _ _ _ _ _ H), Zminus_mod_idemp_r. reflexivity. }
  rewrite EC. set (c := (resp - K) mod 256) in *.
  destruct (N - K <? c) eqn:E.
  - exists s, [], N, false. split; [reflexivity|]. split; [split; auto|].
    split; [apply frame_refl|]. split; [apply pushes_nil; lia|]. auto.
  - assert (HC : 0 <= c < 256) by (apply Z.mod_pos_bound; lia).
    destruct (ack_loop_ok (Z.to_nat c) s N K R S H) as (s1 & E1 & C1 & N1 & F1 & A1); [lia|].
    rewrite E1. cbn [bind].
    replace (K + Z.of_nat (Z.to_nat c)) with (K + c) in C1 by lia.
    destruct (drain_ok nak (length (notsent s1)) s1 N (K + c) R S C1) as (s2 & o & N2 & E2 & R2 & F2 & P2 & V2 & Z2).
    { unfold waiting. rewrite N1. exact W. }
    { unfold is_running. destruct F1 as (-> & _). exact Hr. }
    { lia. }
    rewrite E2. cbn [bind].
    exists s2, o, N2, true. split; [reflexivity|]. split; [exact R2|].
    split; [eapply frame_trans; eauto|]. split; [exact P2|]. split; [exact V2|].
    split; [discriminate|]. split; [reflexivity|exact Z2].
Qed.

Lemma retransmit_ok : forall c s N K R S t,
  rel q s N K R S -> K <= t -> t + Z.of_nat c <= N ->
  exists s' o, retransmit_loop c (t mod 256) s = Ok (s', o) /\ rel q s' N K R S /\ frame s s' /\
    pushes q S N R N R o /\ delivers o = [] /\
    Forall2 (fun x i => exists d, x = Tx (DataM (r s) (i mod 256) d) /\ nth1 S i = Some d)
            o (map (fun k => t + 1 + Z.of_nat k) (seq 0 c)).
Proof.
  induction c; intros * H Ht Hc; simpl.
  - exists s, []. split; [reflexivity|]. split; [exact H|]. split; [apply frame_refl|].
    split; [apply pushes_nil; lia|]. split; constructor.
  - assert (E1 : sadd (t mod 256) 1 = (t + 1) mod 256).
    { unfold sadd. rewrite Zplus_mod_idemp_l. reflexivity. }
    rewrite E1. pose proof H as (C & _).
    destruct (rl_q _ _ _ _ _ _ C (t + 1)) as (d & Hd & Hu); [lia|]. rewrite Hu.
    unfold tx_data.
    destruct (IHc (set_ack s false) N K R S (t + 1)) as (s2 & o2 & E2 & R2 & F2 & P2 & V2 & L2).
    { eapply rel_eq; [..|exact H]; reflexivity. } { lia. } { lia. }
    rewrite E2. cbn [bind].
    exists s2, ([Tx (DataM (r s) ((t + 1) mod 256) d)] ++ o2). split; [reflexivity|].
    split; [exact R2|]. split. { eapply frame_trans; [|exact F2]. repeat split; auto. }
    split.
    { eapply pushes_app; [|exact P2]. apply pushes_one; try lia; [|discriminate].
      simpl. split. apply (rl_r _ _ _ _ _ _ C).
      exists (t + 1). destruct C. repeat split; auto; lia. }
    split; [simpl; exact V2|].
    simpl. constructor. exists d. rewrite Z.add_0_r. auto.
    rewrite <- seq_shift, map_map.
    erewrite map_ext; [exact L2|]. intros k. cbv beta. lia.
Qed.

(** Ending an event in state running. *)
Lemma rel_set_ack : forall s N K R S b, rel q s N K R S -> rel q (set_ack s b) N K R S.
Proof. intros. eapply rel_eq; [..|exact H]; reflexivity. Qed.
Lemma finish_ok : forall s o N K R S N0 R0,
  rel q s N K R S -> pushes q S N0 R0 N R o ->
  exists s' o', then_finish s o = (s', o ++ o') /\ rel q s' N K R S /\ st s' = st s /\ is_up s' = is_up s /\
    ackflag s' = false /\ pushes q S N0 R0 N R (o ++ o') /\ delivers o' = [] /\
    o' = (if ackflag s then [Tx (AckM (r s))] else []) /\ r s' = r s.
Proof.
  intros * H P. unfold then_finish, finish. destruct (ackflag s) eqn:E.
  - exists (set_ack s false), [Tx (AckM (r s))]. unfold send_ack.
    split; [reflexivity|]. split; [apply rel_set_ack; auto|].
    split; [reflexivity|]. split; [reflexivity|]. split; [reflexivity|].
    split; [|auto]. eapply pushes_app; [exact P|]. apply pushes_one; try lia; [|discriminate].
    simpl. destruct H as (C & _). apply (rl_r _ _ _ _ _ _ C).
  - exists s, []. split; [reflexivity|]. split; [exact H|]. split; [auto|]. split; [auto|].
    split; [auto|]. split; [|auto]. rewrite app_nil_r. exact P.
Qed.
Lemma rel_recv : forall s N K R S b, rel q s N K R S ->
  rel q (set_ack (set_r s (sadd (r s) 1)) b) N K (R + 1) S.
Proof.
  intros * (C & W & F). split; [|split; auto].
  pose proof (rl_r _ _ _ _ _ _ C) as ER.
  destruct C. constructor; cbn [set_ack set_r r a n unack]; auto; try lia.
  unfold sadd. rewrite ER, Zplus_mod_idemp_l. reflexivity.
Qed.

(** What running does to the counts. *)
Record good_step (s : stn) (N K R : Z) (S : list (list Z)) (K' R' : Z) (D : list (list Z))
                 (res0 : res (stn * list out)) : Prop := {
  gs : exists s' o N', res0 = Ok (s', o) /\ rel q s' N' K' R' S /\ pushes q S N R N' R' o /\
       delivers o = D /\ st s' = st s /\ is_up s' = is_up s /\ ackflag s' = false }.

Lemma running_data : forall s N K R S resp num d,
  rel q s N K R S -> st s = Running -> ackflag s = false ->
  good_step s N K R S (ackto K N resp) (if num =? (R + 1) mod 256 then R + 1 else R)
    (if num =? (R + 1) mod 256 then [d] else []) (running_recv q s (DataM resp num d)).
Proof.
  intros * H Hs Ha. constructor. cbn [running_recv].
  assert (Hr : is_running s = true) by (unfold is_running; rewrite Hs; auto).
  destruct (process_ack_ok s N K R S resp false H Hr) as (s1 & o1 & N1 & g & E1 & R1 & F1 & P1 & V1 & _).
  rewrite E1. cbn [bind]. cbv beta iota.
  assert (E2 : sadd (r s1) 1 = (R + 1) mod 256).
  { unfold sadd. destruct R1 as (C & _). rewrite (rl_r _ _ _ _ _ _ C), Zplus_mod_idemp_l. reflexivity. }
  rewrite E2. destruct (num =? (R + 1) mod 256) eqn:E3; cbn [negb].
  - assert (P2 : pushes q S N R N1 (R + 1) (o1 ++ [Deliver d])).
    { eapply pushes_app; [exact P1|].
      eapply (pushes_app _ _ _ _ N1 R _ _ [Deliver d] []).
      apply pushes_skip. discriminate. apply pushes_nil; lia. }
    pose proof (rel_recv _ _ _ _ _ true R1) as R2. rewrite E2 in R2.
    destruct (finish_ok _ _ _ _ _ _ _ _ R2 P2) as (s2 & o2 & E4 & R4 & S4 & U4 & A4 & P4 & V4 & _).
    exists s2, ((o1 ++ [Deliver d]) ++ o2), N1. rewrite E4. split; [reflexivity|].
    split; [exact R4|]. split; [exact P4|].
    split. { rewrite !delivers_app, V1, V4. reflexivity. }
    destruct F1 as (F1 & _ & F2 & _). split; [rewrite S4; exact F1|]. split; [rewrite U4; exact F2|exact A4].
  - exists s1, o1, N1. destruct F1 as (F1 & _ & F2 & F3).
    split; [reflexivity|]. split; [exact R1|]. split; [exact P1|]. auto.
Qed.
Lemma running_ack : forall s N K R S resp,
  rel q s N K R S -> st s = Running -> ackflag s = false ->
  good_step s N K R S (ackto K N resp) R [] (running_recv q s (AckM resp)).
Proof.
  intros * H Hs Ha. constructor. cbn [running_recv].
  assert (Hr : is_running s = true) by (unfold is_running; rewrite Hs; auto).
  destruct (process_ack_ok s N K R S resp false H Hr) as (s1 & o1 & N1 & g & E1 & R1 & F1 & P1 & V1 & _).
  rewrite E1. cbn [bind]. cbv beta iota.
  destruct (finish_ok _ _ _ _ _ _ _ _ R1 P1) as (s2 & o2 & E4 & R4 & S4 & U4 & A4 & P4 & V4 & _).
  exists s2, (o1 ++ o2), N1. rewrite E4. split; [reflexivity|].
  split; [exact R4|]. split; [exact P4|]. split; [rewrite delivers_app, V1, V4; reflexivity|].
  destruct F1 as (F1 & _ & F2 & _). split; [rewrite S4; exact F1|]. split; [rewrite U4; exact F2|exact A4].
Qed.
Lemma running_nak : forall s N K R S code resp,
  rel q s N K R S -> st s = Running -> ackflag s = false ->
  good_step s N K R S (ackto K N resp) R [] (running_recv q s (NakM code resp)).
Proof.
  intros * H Hs Ha. constructor. cbn [running_recv].
  assert (Hr : is_running s = true) by (unfold is_running; rewrite Hs; auto).
  destruct (process_ack_ok s N K R S resp true H Hr) as (s1 & o1 & N1 & g & E1 & R1 & F1 & P1 & V1 & _).
  rewrite E1. cbn [bind]. cbv beta iota.
  destruct g.
  - unfold retransmit. pose proof R1 as (C1 & _). rewrite (pend_eq _ _ _ _ _ C1), (rl_a _ _ _ _ _ _ C1).
    pose proof (rl_kn _ _ _ _ _ _ C1).
    destruct (retransmit_ok (Z.to_nat (N1 - ackto K N resp)) s1 N1 (ackto K N resp) R S (ackto K N resp) R1)
      as (s2 & o2 & E2 & R2 & F2 & P2 & V2 & _); try lia.
    rewrite E2. cbn [bind]. cbv beta iota.
    pose proof (pushes_app _ _ _ _ _ _ _ _ _ _ P1 P2) as P3.
    destruct (finish_ok _ _ _ _ _ _ _ _ R2 P3) as (s3 & o3 & E4 & R4 & S4 & U4 & A4 & P4 & V4 & _).
    exists s3, ((o1 ++ o2) ++ o3), N1. rewrite E4. split; [reflexivity|].
    split; [exact R4|]. split; [exact P4|]. split; [rewrite !delivers_app, V1, V2, V4; reflexivity|].
    pose proof (frame_trans _ _ _ F1 F2) as (G1 & _ & G2 & _).
    split; [rewrite S4; exact G1|]. split; [rewrite U4; exact G2|exact A4].
  - destruct (finish_ok _ _ _ _ _ _ _ _ R1 P1) as (s2 & o2 & E4 & R4 & S4 & U4 & A4 & P4 & V4 & _).
    exists s2, (o1 ++ o2), N1. rewrite E4. split; [reflexivity|].
    split; [exact R4|]. split; [exact P4|]. split; [rewrite delivers_app, V1, V4; reflexivity|].
    destruct F1 as (F1 & _ & F2 & _). split; [rewrite S4; exact F1|]. split; [rewrite U4; exact F2|exact A4].
Qed.
Lemma good_finish : forall s s1 o N K R S,
  rel q s1 N K R S -> st s1 = st s -> is_up s1 = is_up s -> pushes q S N R N R o -> delivers o = [] ->
  good_step s N K R S K R [] (Ok (then_finish s1 o)).
Proof.
  intros * H Hs Hu P V. constructor.
  destruct (finish_ok _ _ _ _ _ _ _ _ H P) as (s2 & o2 & E4 & R4 & S4 & U4 & A4 & P4 & V4 & _).
  exists s2, (o ++ o2), N. rewrite E4. split; [reflexivity|]. split; [exact R4|]. split; [exact P4|].
  split; [rewrite delivers_app, V, V4; reflexivity|]. split; [congruence|]. split; [congruence|exact A4].
Qed.
Lemma nak_item : forall s N K R S code, rel q s N K R S -> pushes q S N R N R [Tx (NakM code (r s))].
Proof.
  intros * (C & _). apply pushes_one; try lia; [|discriminate]. simpl. apply (rl_r _ _ _ _ _ _ C).
Qed.
Lemma running_rep : forall s N K R S num,
  rel q s N K R S -> good_step s N K R S K R [] (running_recv q s (RepM num)).
Proof.
  intros * H. cbn [running_recv]. destruct (num =? r s).
  - apply good_finish; auto. apply rel_set_ack; auto. apply pushes_nil; lia.
  - unfold send_nak. apply good_finish; auto. apply rel_set_ack; auto. eapply nak_item; eauto.
Qed.
Lemma running_stack : forall s N K R S,
  rel q s N K R S -> good_step s N K R S K R [] (running_recv q s StackM).
Proof.
  intros * H. cbn [running_recv].
  apply good_finish; auto. apply rel_set_ack; auto. apply pushes_nil; lia.
Qed.
Lemma running_timeout : forall s N K R S, st s = Running ->
  rel q s N K R S -> good_step s N K R S K R [] (step q s Timeout).
Proof.
  intros * Hs H. cbn [step]. rewrite Hs. unfold send_rep.
  apply good_finish; auto. apply pushes_one; try lia; [exact I|discriminate].
Qed.
Lemma running_err : forall s N K R S code resp, st s = Running -> ackflag s = false ->
  rel q s N K R S ->
  good_step s N K R S (match resp with Some x => ackto K N x | None => K end) R []
    (step q s (RErr code resp)).
Proof.
  intros * Hs Ha H. cbn [step]. rewrite Hs.
  assert (Hr : is_running s = true) by (unfold is_running; rewrite Hs; auto).
  constructor. destruct resp as [x|].
  - destruct (process_ack_ok s N K R S x false H Hr) as (s1 & o1 & N1 & g & E1 & R1 & F1 & P1 & V1 & _).
    rewrite E1. cbn [bind]. cbv beta iota. unfold send_nak.
    pose proof (pushes_app _ _ _ _ _ _ _ _ _ _ P1 (nak_item _ _ _ _ _ code R1)) as P3.
    destruct (finish_ok _ _ _ _ _ _ _ _ (rel_set_ack _ _ _ _ _ false R1) P3)
      as (s3 & o3 & E4 & R4 & S4 & U4 & A4 & P4 & V4 & _).
    exists s3, ((o1 ++ [Tx (NakM code (r s1))]) ++ o3), N1. rewrite E4. split; [reflexivity|].
    split; [exact R4|]. split; [exact P4|]. split; [rewrite !delivers_app, V1, V4; reflexivity|].
    destruct F1 as (G1 & _ & G2 & _).
    split; [rewrite S4; exact G1|]. split; [rewrite U4; exact G2|exact A4].
  - cbn [bind]. cbv beta iota. unfold send_nak. rewrite app_nil_l.
    destruct (finish_ok _ _ _ _ _ _ _ _ (rel_set_ack _ _ _ _ _ false H) (nak_item _ _ _ _ _ code H))
      as (s3 & o3 & E4 & R4 & S4 & U4 & A4 & P4 & V4 & _).
    exists s3, ([Tx (NakM code (r s))] ++ o3), N. rewrite E4. split; [reflexivity|].
    split; [exact R4|]. split; [exact P4|]. split; [rewrite !delivers_app, V4; reflexivity|].
    split; [rewrite S4; reflexivity|]. split; [rewrite U4; reflexivity|exact A4].
Qed.

(** A call of send while running. *)
Lemma send_ok : forall s N K R S d,
  rel q s N K R S -> st s = Running -> ackflag s = false ->
  exists s' o N', send q s d false = Ok (s', o) /\ rel q s' N' K R (S ++ [d]) /\
    pushes q (S ++ [d]) N R N' R o /\ delivers o = [] /\ st s' = st s /\ is_up s' = is_up s /\
    ackflag s' = false.
Proof.
  intros * (C & (W1 & W2) & F) Hs Ha.
  assert (Hr : is_running s = true) by (unfold is_running; rewrite Hs; auto).
  pose proof (rl_win _ _ _ _ _ _ C). pose proof (rl_kn _ _ _ _ _ _ C). pose proof (rl_k0 _ _ _ _ _ _ C).
  destruct (Z.eq_dec N (K + q)) as [E|E].
  - unfold send. rewrite Hr. unfold cansend. rewrite (pend_eq _ _ _ _ _ C).
    replace (N - K <? q) with false by lia. cbn [negb].
    eexists _, _, N. split; [reflexivity|]. split.
    { split; [eapply core_eq; [..|apply core_more; exact C]; reflexivity|].
      split; [|intros; exact E]. split; cbn [set_tx notsent].
      - rewrite W1, skipn_app.
        replace (Z.to_nat N - length S)%nat with O by (unfold zlen in *; lia). reflexivity.
      - rewrite zlen_app. pose proof (zlen_nonneg _ [d]). lia. }
    split; [apply pushes_nil; lia|]. auto.
  - assert (EQ : notsent s = []).
    { destruct (notsent s); auto. elim E. apply F. discriminate. }
    assert (Hz : zlen S = N).
    { rewrite EQ in W1. assert (L : length (skipn (Z.to_nat N) S) = O) by (rewrite <- W1; reflexivity).
      rewrite skipn_length in L. unfold zlen in *. lia. }
    destruct (send_room s N K R (S ++ [d]) d false) as (s' & o & E1 & C1 & N1 & F1 & P1 & V1 & _).
    { apply core_more; exact C. } { exact Hr. } { rewrite <- Hz. apply nth1_last. } { lia. }
    exists s', o, (N + 1). split; [exact E1|]. split.
    { split; [exact C1|]. rewrite N1, EQ. split; [|intros X; elim X; reflexivity].
      split.
      - rewrite N1, EQ. symmetry. apply skipn_all2. rewrite app_length. simpl. unfold zlen in *. lia.
      - rewrite zlen_app. unfold zlen at 2. simpl. lia. }
    destruct F1 as (G1 & _ & G2 & G3). auto 6.
Qed.

(** Entering state running. *)
Lemma running_state_ok : forall s ack N K R S, rel q s N K R S ->
  exists s' o, running_state s ack = (s', o) /\ rel q s' N K R S /\ pushes q S N R N R o /\
    delivers o = [] /\ st s' = Running /\ (ackflag s = false -> ackflag s' = false) /\ is_up s' = true /\
    (ack = true -> ackflag s' = false) /\ txs o = if ack then [AckM (r s)] else [].
Proof.
  intros * H. unfold running_state, report_up.
  destruct (is_up s) eqn:U; cbn [negb]; cbv beta iota.
  - destruct ack; [unfold send_ack; cbv beta iota|].
    + eexists _, _. split; [reflexivity|]. split; [eapply rel_eq; [..|exact H]; reflexivity|].
      split. { apply pushes_one; try lia; [|discriminate]. simpl. destruct H as (C & _). apply (rl_r _ _ _ _ _ _ C). }
      cbn [set_ack set_st is_up st ackflag]. auto 8.
    + eexists _, _. split; [reflexivity|]. split; [eapply rel_eq; [..|exact H]; reflexivity|].
      split; [apply pushes_nil; lia|]. cbn [set_ack set_st is_up st ackflag]. repeat split; auto; discriminate.
  - assert (PU : pushes q S N R N R [Up]) by (apply pushes_skip; discriminate).
    destruct ack; [unfold send_ack; cbv beta iota|].
    + eexists _, _. split; [reflexivity|]. split; [eapply rel_eq; [..|exact H]; reflexivity|].
      split. { eapply pushes_app; [exact PU|]. apply pushes_one; try lia; [|discriminate]. simpl.
               destruct H as (C & _). apply (rl_r _ _ _ _ _ _ C). }
      cbn [set_ack set_st set_up is_up st ackflag]. auto 8.
    + eexists _, _. split; [reflexivity|]. split; [eapply rel_eq; [..|exact H]; reflexivity|].
      split; [exact PU|]. cbn [set_ack set_st set_up is_up st ackflag]. repeat split; auto; discriminate.
Qed.
End Q.
