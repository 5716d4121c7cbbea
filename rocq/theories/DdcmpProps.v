(** C17 (window and acknowledgements of one DDCMP station) and C16 (in-order
    exactly-once delivery between two stations). *)
From Verif Require Import Base DdcmpModel DdcmpProofs.

(** ** One station, any input at all *)
Definition inv (q : Z) (s : stn) : Prop := (exists N K R S, rel q s N K R S) /\ ackflag s = false.

Lemma inv_init : forall q s x, 1 <= q <= 255 -> inv q (set_st (init_state s) x).
Proof.
  intros. split; [|reflexivity]. exists 0, 0, 0, []. eapply rel_eq; [..|apply (rel_init q H s)]; reflexivity.
Qed.
Lemma inv_frame : forall q s s', r s' = r s -> a s' = a s -> n s' = n s -> unack s' = unack s ->
  notsent s' = notsent s -> ackflag s' = ackflag s -> inv q s -> inv q s'.
Proof.
  intros * A B C D E F ((N & K & R & S & H) & HA). split; [|congruence].
  exists N, K, R, S. eapply rel_eq; [..|exact H]; auto.
Qed.
Lemma inv_good : forall q s N K R S K' R' D x,
  good_step q s N K R S K' R' D x -> exists s' o, x = Ok (s', o) /\ inv q s'.
Proof.
  intros * [(s' & o & N' & E & H & _ & _ & _ & _ & HA)]. exists s', o. split; [exact E|].
  split; [|exact HA]. eauto.
Qed.
Lemma inv_restart : forall q s, 1 <= q <= 255 -> inv q s -> exists s' o, do_restart s = (s', o) /\ inv q s'.
Proof.
  intros * Hq H. unfold do_restart, report_down.
  destruct (is_running s), (is_up s); cbv beta iota; cbn [set_up st];
    destruct (st s) eqn:E; cbv beta iota; unfold connected; cbv beta iota;
    eexists _, _; (split; [reflexivity|]); try (apply inv_init; exact Hq); try exact H;
    (eapply inv_frame; [..|exact H]; reflexivity).
Qed.
Lemma inv_running : forall q s m, 1 <= q <= 255 -> inv q s -> st s = Running ->
  exists s' o, running_recv q s m = Ok (s', o) /\ inv q s'.
Proof.
  intros q s m Hq ((N & K & R & S & H) & HA) Hs. destruct m.
  - eapply inv_good. eapply running_data; eauto.
  - eapply inv_good. eapply running_ack; eauto.
  - eapply inv_good. eapply running_nak; eauto.
  - eapply inv_good. eapply running_rep; eauto.
  - destruct (inv_restart q s Hq) as (s' & o & E & I). split; eauto.
    exists s', o. cbn [running_recv]. rewrite E. auto.
  - eapply inv_good. eapply running_stack; eauto.
  - cbn [running_recv]. unfold report_down. cbn [init_state is_up].
    destruct (is_up s); cbv beta iota; eexists _, _; (split; [reflexivity|]);
      (eapply inv_frame; [..|apply (inv_init q s Maint Hq)]; reflexivity).
Qed.
Lemma inv_enter : forall q s ack, inv q s ->
  exists s' o, running_state s ack = (s', o) /\ inv q s' /\ st s' = Running.
Proof.
  intros q s ack ((N & K & R & S & H) & HA).
  destruct (running_state_ok q s ack N K R S H) as (s' & o & E & H' & _ & _ & Hs & HA' & _).
  exists s', o. split; [exact E|]. split; [split; eauto|exact Hs].
Qed.
Lemma inv_step : forall q s e, 1 <= q <= 255 -> inv q s ->
  exists s' o, step q s e = Ok (s', o) /\ inv q s'.
Proof.
  intros q s e Hq H.
  assert (RES : exists s' o, Ok (do_restart s) = Ok (s', o) /\ inv q s').
  { destruct (inv_restart q s Hq H) as (s' & o & -> & I). eauto. }
  assert (SAME : forall o : list out, exists s' o', Ok (s, o) = Ok (s', o') /\ inv q s') by (intros; eauto).
  assert (SET : forall x (o : list out), exists s' o', Ok (set_st s x, o) = Ok (s', o') /\ inv q s').
  { intros. eexists _, _. split; [reflexivity|]. eapply inv_frame; [..|exact H]; reflexivity. }
  assert (INI : forall x (o : list out), exists s' o', Ok (set_st (init_state s) x, o) = Ok (s', o') /\ inv q s').
  { intros. eexists _, _. split; [reflexivity|]. apply inv_init; exact Hq. }
  assert (ENT : exists s' o, Ok (running_state s true) = Ok (s', o) /\ inv q s').
  { destruct (inv_enter q s true H) as (s' & o & -> & I & _). eauto. }
  assert (EN2 : forall m, exists s' o, (let (s0, o1) := running_state s false in
       let* (s1, o2) := running_recv q s0 m in Ok (s1, o1 ++ o2)) = Ok (s', o) /\ inv q s').
  { intros. destruct (inv_enter q s false H) as (s1 & o1 & -> & I & Hs).
    destruct (inv_running q s1 m Hq I Hs) as (s2 & o2 & -> & I2). cbn [bind]. eauto. }
  destruct e; cbn [step].
  - destruct (st s) eqn:E; auto; unfold connected; auto.
    destruct H as ((N & K & R & S & H) & HA). eapply inv_good, good_finish; eauto. apply pushes_nil; lia.
  - unfold report_down. destruct (is_up s); cbv beta iota; auto.
    eexists _, _. split; [reflexivity|]. eapply inv_frame; [..|exact H]; reflexivity.
  - destruct (st s) eqn:E; auto.
  - destruct (st s) eqn:E; auto.
    destruct H as ((N & K & R & S & H) & HA).
    pose proof (running_timeout q s N K R S E H) as G. cbn [step] in G. rewrite E in G.
    eapply inv_good; exact G.
  - destruct (st s) eqn:E; auto.
    + destruct m; auto.
    + destruct m; auto; (destruct (resp =? 0); [apply EN2|auto]).
    + apply inv_running; auto.
    + destruct m; auto.
  - destruct (st s) eqn:E; auto.
    destruct H as ((N & K & R & S & H) & HA).
    pose proof (running_err q Hq s N K R S code resp E HA H) as G. cbn [step] in G. rewrite E in G.
    eapply inv_good; exact G.
  - destruct (is_running s) eqn:E.
    + destruct H as ((N & K & R & S & H) & HA).
      assert (Hs : st s = Running) by (unfold is_running in E; destruct (st s); auto; discriminate).
      destruct (send_ok q Hq s N K R S data H Hs HA) as (s' & o & N' & E' & H' & _ & _ & _ & _ & HA').
      exists s', o. split; [exact E'|]. split; eauto.
    + unfold send. rewrite E. auto.
Qed.
Lemma inv_run : forall q l s, 1 <= q <= 255 -> inv q s ->
  exists s' o, run q s l = Ok (s', o) /\ inv q s'.
Proof.
  induction l; intros s Hq H; simpl.
  - eauto.
  - destruct (inv_step q s a Hq H) as (s1 & o1 & -> & H1). cbn [bind]. cbv beta iota.
    destruct (IHl s1 Hq H1) as (s2 & o2 & -> & H2). cbn [bind]. eauto.
Qed.
Lemma inv_station : forall q, 1 <= q <= 255 -> inv q station.
Proof. intros. exact (inv_init q station Off H). Qed.

(** The specification: the distance modulo 256 from the last acknowledged
    number to the last one sent is at most the queue limit, and the messages
    held for retransmission are exactly those in between. *)
Definition window_ok (q : Z) (s : stn) : Prop :=
  0 <= a s < 256 /\ 0 <= n s < 256 /\ (n s - a s) mod 256 <= q /\
  (forall j, 0 <= j < 256 -> (unack s j <> None <-> 1 <= (j - a s) mod 256 <= (n s - a s) mod 256)).

Lemma inv_window : forall q s, 1 <= q <= 255 -> inv q s -> window_ok q s.
Proof.
  intros q s Hq ((N & K & R & S & H) & HA). pose proof H as (C & _).
  pose proof (pend_eq q Hq _ _ _ _ _ C) as P. unfold ssub in P.
  unfold window_ok. rewrite P, (rl_a _ _ _ _ _ _ C), (rl_n _ _ _ _ _ _ C).
  split; [lia|]. split; [lia|]. split; [destruct C; lia|].
  intros j Hj. rewrite Zminus_mod_idemp_r.
  set (i := K + (j - K) mod 256).
  assert (Ei : i mod 256 = j) by (unfold i; lia).
  split.
  - intros NE. destruct (Z_le_gt_dec ((j - K) mod 256) (N - K)) as [L|L].
    + destruct (Z.eq_dec ((j - K) mod 256) 0) as [E0|E0]; [|lia].
      elim NE. apply (rl_e _ _ _ _ _ _ C). exact Hj. intros x Hx E.
      pose proof (rl_win _ _ _ _ _ _ C). lia.
    + elim NE. apply (rl_e _ _ _ _ _ _ C). exact Hj. intros x Hx E.
      pose proof (rl_win _ _ _ _ _ _ C). lia.
  - intros L. destruct (rl_q _ _ _ _ _ _ C i) as (d & _ & U); [unfold i; lia|].
    rewrite Ei in U. congruence.
Qed.

(** For every sequence of inputs, including forged and stale messages, the
    station never fails an assertion and the window invariant holds. *)
Theorem ddcmp_window : forall q l, 1 <= q <= 255 ->
  exists s o, run q station l = Ok (s, o) /\ window_ok q s.
Proof.
  intros. destruct (inv_run q l station H (inv_station q H)) as (s & o & E & I).
  exists s, o. split; [exact E|]. apply inv_window; auto.
Qed.
Print Assumptions ddcmp_window.

Definition reachable (q : Z) (s : stn) : Prop := exists l o, run q station l = Ok (s, o).
Lemma reachable_inv : forall q s, 1 <= q <= 255 -> reachable q s -> inv q s.
Proof.
  intros q s Hq (l & o & E). destruct (inv_run q l station Hq (inv_station q Hq)) as (s' & o' & E' & I).
  congruence.
Qed.

(** An acknowledgement outside the window changes nothing (and sends nothing),
    in Ack and Nak messages; in a data message and in an error report it leaves
    the transmit side as it was. *)
Theorem ddcmp_bad_ack : forall q s resp code num d,
  1 <= q <= 255 -> reachable q s -> st s = Running ->
  (n s - a s) mod 256 < (resp - a s) mod 256 ->
  step q s (Recv (AckM resp)) = Ok (s, []) /\
  step q s (Recv (NakM code resp)) = Ok (s, []) /\
  (exists s' o, step q s (Recv (DataM resp num d)) = Ok (s', o) /\
     a s' = a s /\ n s' = n s /\ unack s' = unack s /\ notsent s' = notsent s) /\
  (exists s' o, step q s (RErr code (Some resp)) = Ok (s', o) /\
     r s' = r s /\ a s' = a s /\ n s' = n s /\ unack s' = unack s /\ notsent s' = notsent s).
Proof.
  intros q s resp code num d Hq HR Hs HB.
  destruct (reachable_inv q s Hq HR) as (_ & HA).
  assert (P : forall k, process_ack q s resp k = Ok (s, [], false)).
  { intros. unfold process_ack, ssub. replace (_ <? _) with true by lia. reflexivity. }
  cbn [step]. rewrite Hs. cbn [running_recv]. rewrite !P. cbn [bind]. cbv beta iota.
  unfold then_finish, finish. rewrite HA.
  split; [reflexivity|]. split; [reflexivity|]. split.
  - destruct (negb (num =? sadd (r s) 1)); [eexists _, _; split; [reflexivity|auto]|].
    cbn [set_ack ackflag]. unfold send_ack. eexists _, _. split; [reflexivity|]. repeat split.
  - unfold send_nak. cbn [set_ack ackflag]. eexists _, _. split; [reflexivity|]. repeat split.
Qed.
Print Assumptions ddcmp_bad_ack.

(** One inside the window acknowledges exactly the messages up to it. *)
Theorem ddcmp_good_ack : forall q s resp,
  1 <= q <= 255 -> reachable q s -> st s = Running -> 0 <= resp < 256 ->
  (resp - a s) mod 256 <= (n s - a s) mod 256 ->
  exists s' o, step q s (Recv (AckM resp)) = Ok (s', o) /\ a s' = resp /\
    (forall j, 0 <= j < 256 -> 1 <= (j - resp) mod 256 <= (n s - resp) mod 256 -> unack s' j = unack s j).
Proof.
  intros q s resp Hq HR Hs Hr HB.
  destruct (reachable_inv q s Hq HR) as ((N & K & R & S & H) & HA).
  destruct (running_ack q Hq s N K R S resp H Hs HA) as [(s' & o & N' & E & H' & P & _)].
  exists s', o. cbn [step]. rewrite Hs. split; [exact E|].
  destruct H as (C & _), H' as (C' & _).
  pose proof (pend_eq q Hq _ _ _ _ _ C) as PE. unfold ssub in PE. rewrite PE in HB.
  rewrite (rl_a _ _ _ _ _ _ C) in HB. rewrite Zminus_mod_idemp_r in HB.
  assert (EA : ackto K N resp = K + (resp - K) mod 256).
  { unfold ackto. replace (_ <? _) with false by lia. reflexivity. }
  rewrite EA in C'. set (K' := K + (resp - K) mod 256) in *.
  assert (EK : resp = K' mod 256) by (unfold K'; lia).
  split. { rewrite (rl_a _ _ _ _ _ _ C'). auto. }
  intros j Hj HJ.
  assert (Hw : 0 <= N - K' <= 255).
  { pose proof (rl_win _ _ _ _ _ _ C). unfold K'. lia. }
  replace ((j - resp) mod 256) with ((j - K') mod 256) in HJ
    by (rewrite EK, Zminus_mod_idemp_r; reflexivity).
  replace ((n s - resp) mod 256) with (N - K') in HJ
    by (rewrite (rl_n _ _ _ _ _ _ C), EK, Zminus_mod_idemp_l, Zminus_mod_idemp_r; symmetry; apply Z.mod_small; lia).
  set (i := K' + (j - K') mod 256).
  assert (Ei : i mod 256 = j) by (unfold i; lia).
  destruct P as (PN & _).
  destruct (rl_q _ _ _ _ _ _ C i) as (x & X1 & X2); [unfold i, K' in *; lia|].
  destruct (rl_q _ _ _ _ _ _ C' i) as (y & Y1 & Y2); [unfold i in *; lia|].
  rewrite Ei in *. congruence.
Qed.
Print Assumptions ddcmp_good_ack.

(** A valid Nak makes the station send again all messages not acknowledged, in
    order, each with the current acknowledgement of the other direction. *)
Lemma Forall2_nth : forall A B (P : A -> B -> Prop) l l' k x,
  Forall2 P l l' -> nth_error l k = Some x -> exists y, nth_error l' k = Some y /\ P x y.
Proof.
  intros A B P l l' k x H. revert k. induction H; intros k E; destruct k; simpl in *; try discriminate.
  - inversion E; subst. eauto.
  - apply IHForall2. exact E.
Qed.
Lemma F2_length : forall A B (P : A -> B -> Prop) l l', Forall2 P l l' -> length l = length l'.
Proof. induction 1; simpl; auto. Qed.
Theorem ddcmp_nak_retransmits : forall q s code resp,
  1 <= q <= 255 -> reachable q s -> st s = Running -> 0 <= resp < 256 ->
  (resp - a s) mod 256 <= (n s - a s) mod 256 ->
  exists s' o, step q s (Recv (NakM code resp)) = Ok (s', o) /\ a s' = resp /\
    zlen o = (n s' - resp) mod 256 /\
    (forall k x, nth_error o k = Some x ->
       exists d, x = Tx (DataM (r s) ((resp + 1 + Z.of_nat k) mod 256) d) /\
                 unack s' ((resp + 1 + Z.of_nat k) mod 256) = Some d).
Proof.
  intros q s code resp Hq HR Hs Hr HB.
  destruct (reachable_inv q s Hq HR) as ((N & K & R & S & H) & HA).
  assert (Hrun : is_running s = true) by (unfold is_running; rewrite Hs; auto).
  pose proof H as (C & _).
  pose proof (pend_eq q Hq _ _ _ _ _ C) as PE. unfold ssub in PE. rewrite PE in HB.
  rewrite (rl_a _ _ _ _ _ _ C) in HB. rewrite Zminus_mod_idemp_r in HB.
  assert (EA : ackto K N resp = K + (resp - K) mod 256).
  { unfold ackto. replace (_ <? _) with false by lia. reflexivity. }
  cbn [step]. rewrite Hs. cbn [running_recv].
  destruct (process_ack_ok q Hq s N K R S resp true H Hrun)
    as (s1 & o1 & N1 & g & E1 & R1 & F1 & P1 & V1 & _ & G & Z1).
  rewrite E1. cbn [bind]. cbv beta iota.
  replace (negb (N - K <? (resp - K) mod 256)) with true in G by lia. subst g.
  rewrite (Z1 eq_refl) in *. clear Z1.
  rewrite EA in R1. set (K' := K + (resp - K) mod 256) in *.
  assert (EK : resp = K' mod 256) by (unfold K'; lia).
  unfold retransmit. pose proof R1 as (C1 & _). rewrite (pend_eq q Hq _ _ _ _ _ C1), (rl_a _ _ _ _ _ _ C1).
  pose proof (rl_kn _ _ _ _ _ _ C1). pose proof (rl_win _ _ _ _ _ _ C1).
  destruct (retransmit_ok q Hq (Z.to_nat (N1 - K')) s1 N1 K' R S K' R1)
    as (s2 & o2 & E2 & R2 & F2 & P2 & V2 & L2); try lia.
  rewrite E2. cbn [bind app]. cbv beta iota.
  assert (HA2 : ackflag s2 = false) by (apply F2, F1; exact HA).
  unfold then_finish, finish. rewrite HA2, app_nil_r.
  exists s2, o2. split; [reflexivity|].
  pose proof R2 as (C2 & _).
  split; [rewrite (rl_a _ _ _ _ _ _ C2); auto|].
  assert (EN : (n s2 - resp) mod 256 = N1 - K').
  { rewrite (rl_n _ _ _ _ _ _ C2), EK, Zminus_mod_idemp_l, Zminus_mod_idemp_r. apply Z.mod_small. lia. }
  rewrite EN. split.
  - apply F2_length in L2. rewrite map_length, seq_length in L2. unfold zlen. lia.
  - intros k x Ek. destruct (Forall2_nth _ _ _ _ _ _ _ L2 Ek) as (i & Ei & d & Ed & Sd).
    assert (Hk : (k < Z.to_nat (N1 - K'))%nat).
    { apply F2_length in L2. rewrite map_length, seq_length in L2. rewrite <- L2.
      apply nth_error_Some. congruence. }
    rewrite nth_error_map in Ei. rewrite (nth_error_nth' _ O) in Ei by (rewrite seq_length; exact Hk).
    rewrite seq_nth in Ei by exact Hk. simpl in Ei. inversion Ei; subst i. clear Ei.
    assert (EM : (resp + 1 + Z.of_nat k) mod 256 = (K' + 1 + Z.of_nat k) mod 256).
    { rewrite EK. lia. }
    rewrite EM. exists d. split.
    { rewrite Ed. destruct F1 as (_ & -> & _). reflexivity. }
    destruct (rl_q _ _ _ _ _ _ C2 (K' + 1 + Z.of_nat k)) as (d' & D1 & D2); [lia|]. congruence.
Qed.
Print Assumptions ddcmp_nak_retransmits.

(** ** Two stations *)
(** The link: messages in flight each way, oldest first.  [sent] collects the
    data given to send while running, [got] the data delivered. *)
Record side := { sta : stn; outq : list msg; sent : list (list Z); got : list (list Z) }.
Definition sys : Type := side * side.
Definition swap (x : sys) : sys := (snd x, fst x).
Definition accepted (s : stn) (e : event) : list (list Z) :=
  match e, st s with Send d, Running => [d] | _, _ => [] end.
(** Station [x] handles event [e] (with limit [q]); messages it sends go into
    its queue. *)
Definition act (q : Z) (x : side) (e : event) (x' : side) : Prop :=
  exists s' o, step q (sta x) e = Ok (s', o) /\
    x' = {| sta := s'; outq := outq x ++ txs o; sent := sent x ++ accepted (sta x) e; got := got x ++ delivers o |}.
Definition set_outq (x : side) (c : list msg) : side :=
  {| sta := sta x; outq := c; sent := sent x; got := got x |}.
(** What can happen at the first station: an event of its own (connection made,
    reply timeout, a call of send), a message lost on the way to it, the oldest
    message arriving, arriving with a bad header CRC (the message cannot be
    used), or, for a data message, with a bad data CRC. *)
Inductive astep (q : Z) : sys -> sys -> Prop :=
| do_own : forall x y e x', e = Connected \/ e = Timeout \/ (exists d, e = Send d) ->
    act q x e x' -> astep q (x, y) (x', y)
| do_lose : forall x y c1 m c2, outq y = c1 ++ m :: c2 -> astep q (x, y) (x, set_outq y (c1 ++ c2))
| do_recv : forall x y m c x', outq y = m :: c -> act q x (Recv m) x' -> astep q (x, y) (x', set_outq y c)
| do_hcrc : forall x y m c code x', outq y = m :: c -> act q x (RErr code None) x' -> astep q (x, y) (x', set_outq y c)
| do_dcrc : forall x y resp num d c code x', outq y = DataM resp num d :: c ->
    act q x (RErr code (Some resp)) x' -> astep q (x, y) (x', set_outq y c).
(** The limits may be different at the two ends. *)
Inductive steps (qa qb : Z) : sys -> sys -> Prop :=
| steps_nil : forall x, steps qa qb x x
| steps_a : forall x y z, steps qa qb x y -> astep qa y z -> steps qa qb x z
| steps_b : forall x y z, steps qa qb x y -> astep qb (swap y) (swap z) -> steps qa qb x z.
Definition side0 : side := {| sta := station; outq := []; sent := []; got := [] |}.
Definition sys0 : sys := (side0, side0).

(** The startup: in the messages from [x] to [y] no Start follows another
    message, and so on. *)
Definition handshake (x y : side) : Prop :=
  exists c1 c2, outq x = c1 ++ c2 /\ Forall (fun m => m = StartM) c1 /\ Forall (fun m => m <> StartM) c2 /\
    match st (sta x) with Off => c1 = [] /\ c2 = [] | Istart => c2 = [] | Maint => False | _ => True end /\
    (st (sta y) = Running -> c1 = [] /\ (st (sta x) = Astart \/ st (sta x) = Running)).
Definition fresh (x : side) (N K R : Z) : Prop :=
  st (sta x) <> Running -> N = 0 /\ K = 0 /\ R = 0 /\ sent x = [].
(** [x] (with limit [q]) as a sender to [y]: N, K of [x] and R of [y], and in
    the messages from [x] to [y]. *)
Definition good_side (q : Z) (x : side) (N K R : Z) : Prop :=
  rel q (sta x) N K R (sent x) /\ ackflag (sta x) = false /\ fresh x N K R.
Definition sysinv (qa qb : Z) (x : sys) : Prop :=
  let (A, B) := x in
  exists Na Ka Ra Nb Kb Rb,
    good_side qa A Na Ka Ra /\ good_side qb B Nb Kb Rb /\
    chan qa (sent A) (outq A) Rb Kb Na Ra /\ chan qb (sent B) (outq B) Ra Ka Nb Rb /\
    handshake A B /\ handshake B A /\
    got B = firstn (Z.to_nat Rb) (sent A) /\ got A = firstn (Z.to_nat Ra) (sent B).
Lemma sysinv_swap : forall qa qb x, sysinv qa qb x -> sysinv qb qa (swap x).
Proof.
  intros qa qb (A, B). simpl. intros (Na & Ka & Ra & Nb & Kb & Rb & H).
  exists Nb, Kb, Rb, Na, Ka, Ra. tauto.
Qed.
Lemma sysinv_0 : forall qa qb, 1 <= qa <= 255 -> 1 <= qb <= 255 -> sysinv qa qb sys0.
Proof.
  intros. simpl. exists 0, 0, 0, 0, 0, 0.
  assert (G : forall q, 1 <= q <= 255 -> good_side q side0 0 0 0).
  { intros. split; [|split; [reflexivity|intros _; auto]].
    eapply rel_eq; [..|apply (rel_init q H1 station)]; reflexivity. }
  assert (HS : handshake side0 side0).
  { exists [], []. simpl. repeat split; auto; discriminate. }
  split; [auto|]. split; [auto|]. simpl. repeat split; try lia; exact HS.
Qed.

Definition after (x : side) (e : event) (s' : stn) (o : list out) : side :=
  {| sta := s'; outq := outq x ++ txs o; sent := sent x ++ accepted (sta x) e; got := got x ++ delivers o |}.
Lemma close : forall qa qb A B c s' o e Na Ka Ra Nb Kb Rb Na' Ka' Ra',
  good_side qa A Na Ka Ra -> good_side qb B Nb Kb Rb ->
  chan qa (sent A) (outq A) Rb Kb Na Ra -> chan qb (sent B) c Ra' Ka' Nb Rb ->
  got B = firstn (Z.to_nat Rb) (sent A) -> got A ++ delivers o = firstn (Z.to_nat Ra') (sent B) ->
  handshake (after A e s' o) (set_outq B c) -> handshake (set_outq B c) (after A e s' o) ->
  rel qa s' Na' Ka' Ra' (sent A ++ accepted (sta A) e) -> ackflag s' = false ->
  (st s' <> Running -> Na' = 0 /\ Ka' = 0 /\ Ra' = 0 /\ sent A ++ accepted (sta A) e = []) ->
  (forall c lh lp, chan qa (sent A ++ accepted (sta A) e) c lh lp Na Ra ->
     chan qa (sent A ++ accepted (sta A) e) (c ++ txs o) lh lp Na' Ra') ->
  sysinv qa qb (after A e s' o, set_outq B c).
Proof.
  intros * GA GB CA CB GTB GTA H1 H2 HR HF HN HP. simpl.
  exists Na', Ka', Ra', Nb, Kb, Rb.
  split; [split; [exact HR|split; [exact HF|exact HN]]|].
  split; [exact GB|]. split. { apply HP. apply chan_more. exact CA. }
  split; [exact CB|]. split; [exact H1|]. split; [exact H2|]. split; [|exact GTA].
  rewrite GTB. apply chan_le in CA. destruct GA as ((_ & (_ & W) & _) & _).
  rewrite firstn_app. replace (Z.to_nat Rb - length (sent A))%nat with O by (unfold zlen in W; lia).
  rewrite firstn_O, app_nil_r. reflexivity.
Qed.

Lemma hs_push : forall A B B' e s' o, handshake A B -> st (sta A) <> Off -> st s' = Astart \/ st s' = Running ->
  Forall (fun m => m <> StartM) (txs o) -> st (sta B') = st (sta B) ->
  handshake (after A e s' o) B'.
Proof.
  intros * (c1 & c2 & E & F1 & F2 & HS & HR) HO HX HF HB. exists c1, (c2 ++ txs o).
  split; [simpl; rewrite E, app_assoc; reflexivity|]. split; [exact F1|].
  split; [apply Forall_app; auto|].
  split; [simpl; destruct HX as [-> | ->]; exact I|].
  rewrite HB. simpl. intros X. split; [apply HR; exact X|exact HX].
Qed.
(** Messages to a station: the oldest one is taken. *)
Lemma hs_take : forall A A' B c m, handshake B A -> outq B = m :: c ->
  (st (sta A') = Running -> st (sta A) = Running \/ m <> StartM) ->
  handshake (set_outq B c) A'.
Proof.
  intros * (c1 & c2 & E & F1 & F2 & HS & HR) EQ HM. rewrite EQ in E.
  destruct c1 as [|x c1]; simpl in E.
  - exists [], c. split; [reflexivity|]. split; [constructor|].
    split. { rewrite <- E in F2. inversion F2; auto. }
    simpl. destruct (st (sta B)); try (destruct HS as (_ & HS); rewrite HS in E; discriminate E);
      try (rewrite HS in E; discriminate E); try (elim HS; fail); repeat split; auto.
  - inversion E; subst. inversion F1; subst. exists c1, c2. split; [reflexivity|].
    split; [auto|]. split; [exact F2|]. split.
    { simpl. destruct (st (sta B)); auto. destruct HS; discriminate. }
    intros X. destruct (HM X) as [Y|Y]; [|congruence]. apply HR in Y. destruct Y; discriminate.
Qed.
Lemma hs_keep : forall A A' B, handshake B A -> (st (sta A') = Running -> st (sta A) = Running) ->
  handshake (set_outq B (outq B)) A'.
Proof.
  intros * (c1 & c2 & E & F1 & F2 & HS & HR) HX. exists c1, c2. simpl.
  split; [exact E|]. split; [exact F1|]. split; [exact F2|]. split; [exact HS|]. intros X. apply HR, HX, X.
Qed.
Lemma hs_drop_from : forall A B m c1 c2, handshake A B -> outq A = c1 ++ m :: c2 ->
  handshake (set_outq A (c1 ++ c2)) B.
Proof.
  intros A B m d1 d2 (c1 & c2 & E & F1 & F2 & HS & HR) EQ. rewrite EQ in E. clear EQ.
  assert (HX : exists e1 e2, d1 ++ d2 = e1 ++ e2 /\ Forall (fun m => m = StartM) e1 /\
      Forall (fun m => m <> StartM) e2 /\ (c1 = [] -> e1 = []) /\ (c2 = [] -> e2 = [])).
  { clear HS HR. revert d1 E. induction c1 as [|x c1 IH]; intros d1 E; simpl in E.
    - exists [], (d1 ++ d2). subst c2. apply Forall_app in F2. destruct F2 as (G1 & G2).
      inversion G2; subst. split; [reflexivity|]. split; [constructor|].
      split; [apply Forall_app; auto|]. split; [auto|]. intros X. destruct d1; discriminate.
    - inversion F1; subst. destruct d1 as [|y d1]; simpl in E; inversion E; subst.
      + exists c1, c2. split; [reflexivity|]. split; [auto|]. split; [auto|].
        split; [discriminate|auto].
      + destruct (IH H2 d1 H1) as (e1 & e2 & G1 & G2 & G3 & G4 & G5).
        exists (StartM :: e1), e2. simpl. rewrite G1. split; [reflexivity|].
        split; [constructor; auto|]. split; [auto|]. split; [discriminate|auto]. }
  destruct HX as (e1 & e2 & G1 & G2 & G3 & G4 & G5). exists e1, e2. simpl.
  split; [exact G1|]. split; [exact G2|]. split; [exact G3|].
  split; [|intros X; destruct (HR X); auto].
  destruct (st (sta A)); auto. destruct HS; auto.
Qed.
Lemma hs_drop_to : forall A B c, handshake A B -> handshake A (set_outq B c).
Proof. intros * (c1 & c2 & H). exists c1, c2. exact H. Qed.

(** A station outside state running that stays outside. *)
Lemma hs_same : forall A B B' e, handshake A B -> accepted (sta A) e = [] -> st (sta B') = st (sta B) ->
  handshake (after A e (sta A) []) B'.
Proof.
  intros * (c1 & c2 & E & F1 & F2 & HS & HR) _ HB. exists c1, c2. simpl.
  rewrite app_nil_r, HB. auto 8.
Qed.
Lemma not_maint : forall A B, handshake A B -> st (sta A) <> Maint.
Proof. intros * (c1 & c2 & _ & _ & _ & HS & _) E. rewrite E in HS. exact HS. Qed.
Lemma firstn_snoc1 : forall A (S : list A) R d, 0 <= R -> nth1 S (R + 1) = Some d ->
  firstn (Z.to_nat R) S ++ [d] = firstn (Z.to_nat (R + 1)) S.
Proof.
  intros A S R d HR E. unfold nth1 in E. replace (R + 1 - 1) with R in E by lia.
  replace (Z.to_nat (R + 1)) with (Datatypes.S (Z.to_nat R)) by lia.
  revert S E. induction (Z.to_nat R) as [|k IHk]; intros S E; destruct S; simpl in *; try discriminate.
  - inversion E; subst. reflexivity.
  - f_equal. apply IHk; auto.
Qed.
Lemma recv_run : forall qa qb s1 SA Na Ka Ra SB Nb Kb Rb m c h p G,
  1 <= qa <= 255 -> 1 <= qb <= 255 ->
  rel qa s1 Na Ka Ra SA -> st s1 = Running -> ackflag s1 = false ->
  Nb <= Kb + qb -> Kb <= Ra -> Rb <= Na ->
  Ra <= h -> Ka <= p -> item_ok qb SB m h p -> chan qb SB c h p Nb Rb -> m <> StartM ->
  G = firstn (Z.to_nat Ra) SB ->
  exists s' o Na' Ka' Ra', running_recv qa s1 m = Ok (s', o) /\ rel qa s' Na' Ka' Ra' SA /\
    pushes qa SA Na Ra Na' Ra' o /\ st s' = Running /\ ackflag s' = false /\
    chan qb SB c Ra' Ka' Nb Rb /\ G ++ delivers o = firstn (Z.to_nat Ra') SB.
Proof.
  intros qa qb s1 SA Na Ka Ra SB Nb Kb Rb m c h p G HQA HQB HR HS HA HW HKR HRN Hh Hp HI HC HM HG.
  pose proof (chan_le _ _ _ _ _ _ _ HC) as (L1 & L2).
  pose proof HR as (C & _). pose proof (rl_win _ _ _ _ _ _ C). pose proof (rl_kn _ _ _ _ _ _ C).
  assert (GEN : forall K' x, good_step qa s1 Na Ka Ra SA K' Ra [] x -> K' <= p ->
    exists s' o Na' Ka' Ra', x = Ok (s', o) /\ rel qa s' Na' Ka' Ra' SA /\
    pushes qa SA Na Ra Na' Ra' o /\ st s' = Running /\ ackflag s' = false /\
    chan qb SB c Ra' Ka' Nb Rb /\ G ++ delivers o = firstn (Z.to_nat Ra') SB).
  { intros K' x [(s' & o & N' & E & R' & P & D & S' & _ & A')] HK.
    exists s', o, N', K', Ra. split; [exact E|]. split; [exact R'|]. split; [exact P|].
    split; [congruence|]. split; [exact A'|]. split; [eapply chan_low; eauto|].
    rewrite D, app_nil_r. exact HG. }
  assert (EX : ackto Ka Na (p mod 256) = p) by (apply ackto_exact; lia).
  destruct m; cbn [item_ok] in HI.
  - destruct HI as (-> & i & Hi & -> & Hd).
    destruct (running_data qa HQA s1 Na Ka Ra SA (p mod 256) (i mod 256) payload HR HS HA)
      as [(s' & o & N' & E & R' & P & D & S' & U' & A')].
    rewrite EX in R'.
    destruct (i mod 256 =? (Ra + 1) mod 256) eqn:EI.
    + assert (i = Ra + 1) by lia. subst i.
      exists s', o, N', p, (Ra + 1). split; [exact E|]. split; [exact R'|]. split; [exact P|].
      split; [congruence|]. split; [exact A'|]. split; [eapply chan_low; eauto; lia|].
      rewrite D, HG. apply firstn_snoc1; auto. apply (rl_r0 _ _ _ _ _ _ C).
    + apply (GEN p); [|lia]. constructor. exists s', o, N'.
      split; [exact E|]. split; [exact R'|]. split; [exact P|]. split; [exact D|]. split; [exact S'|]. auto.
  - subst resp. apply (GEN (ackto Ka Na (p mod 256))); [|lia]. apply running_ack; auto.
  - subst resp. apply (GEN (ackto Ka Na (p mod 256))); [|lia]. apply running_nak; auto.
  - apply (GEN Ka); [|lia]. apply running_rep; auto.
  - elim HM; reflexivity.
  - apply (GEN Ka); [|lia]. apply running_stack; auto.
  - elim HI.
Qed.
Lemma set_outq_id : forall x, set_outq x (outq x) = x. Proof. destruct x; reflexivity. Qed.
(** The event of station A, when messages [c] remain in the queue to it. *)
Lemma idle : forall qa qb A B c e Na Ka Ra Nb Kb Rb,
  good_side qa A Na Ka Ra -> good_side qb B Nb Kb Rb ->
  chan qa (sent A) (outq A) Rb Kb Na Ra -> chan qb (sent B) c Ra Ka Nb Rb ->
  got B = firstn (Z.to_nat Rb) (sent A) -> got A = firstn (Z.to_nat Ra) (sent B) ->
  handshake A B -> handshake (set_outq B c) A -> accepted (sta A) e = [] ->
  sysinv qa qb (after A e (sta A) [], set_outq B c).
Proof.
  intros * GA GB CA CB GTB GTA H1 H2 HE.
  pose proof GA as (HR & HF & HN).
  apply (close qa qb A B c (sta A) [] e Na Ka Ra Nb Kb Rb Na Ka Ra); auto.
  - simpl. rewrite app_nil_r. exact GTA.
  - eapply hs_same; eauto.
  - rewrite HE, app_nil_r. exact HR.
  - rewrite HE, app_nil_r. exact HN.
  - intros. simpl. rewrite app_nil_r. auto.
Qed.
Lemma move : forall qa qb A B c e s' o Na Ka Ra Nb Kb Rb Na' Ka' Ra',
  good_side qa A Na Ka Ra -> good_side qb B Nb Kb Rb ->
  chan qa (sent A) (outq A) Rb Kb Na Ra -> chan qb (sent B) c Ra' Ka' Nb Rb ->
  got B = firstn (Z.to_nat Rb) (sent A) -> got A ++ delivers o = firstn (Z.to_nat Ra') (sent B) ->
  handshake A B -> handshake (set_outq B c) (after A e s' o) ->
  st (sta A) <> Off -> ackflag s' = false ->
  st s' = Running \/ (st s' = Astart /\ Na' = 0 /\ Ka' = 0 /\ Ra' = 0 /\ sent A ++ accepted (sta A) e = []) ->
  rel qa s' Na' Ka' Ra' (sent A ++ accepted (sta A) e) ->
  pushes qa (sent A ++ accepted (sta A) e) Na Ra Na' Ra' o ->
  sysinv qa qb (after A e s' o, set_outq B c).
Proof.
  intros * GA GB CA CB GTB GTA H1 H2 HO HF HX HR (_ & _ & P & PS).
  eapply close; eauto.
  - eapply hs_push; eauto. tauto. 
  - intros NE. destruct HX as [X|X]; [congruence|tauto].
Qed.


Lemma astep_inv : forall qa qb x y, 1 <= qa <= 255 -> 1 <= qb <= 255 ->
  sysinv qa qb x -> astep qa x y -> sysinv qa qb y.
Proof.
  intros qa qb x y HQA HQB HI HS. destruct HS as [A B e A' He Hact|A B c1 m c2 Hc|A B m c A' Hc Hact|A B m c code A' Hc Hact|A B resp num d c code A' Hc Hact];
  destruct HI as (Na & Ka & Ra & Nb & Kb & Rb & GA & GB & CA & CB & HA & HB & GTB & GTA);
  pose proof GA as (HR & HF & HN); pose proof (not_maint _ _ HA) as NM.
  - (* own events *)
    destruct Hact as (s' & o & E & ->). change (sysinv qa qb (after A e s' o, B)).
    rewrite <- (set_outq_id B).
    assert (IDLE : s' = sta A -> o = [] -> accepted (sta A) e = [] ->
              sysinv qa qb (after A e s' o, set_outq B (outq B))).
    { intros -> -> ?. eapply idle; eauto. }
    destruct He as [->|[->|(d & ->)]].
    + cbn [step] in E. destruct (st (sta A)) eqn:ES; try (inversion E; subst; apply IDLE; auto; fail).
      * inversion E; subst. clear IDLE.
        destruct (HN ltac:(rewrite ES; discriminate)) as (-> & -> & -> & SE).
        apply (close qa qb A B (outq B) _ _ _ 0 0 0 Nb Kb Rb 0 0 0); auto.
        -- simpl. rewrite app_nil_r. exact GTA.
        -- destruct HA as (c1 & c2 & EQ & F1 & F2 & X & Y). rewrite ES in X. destruct X as (-> & ->).
           exists [StartM], []. simpl. rewrite EQ. simpl. split; [reflexivity|].
           split; [constructor; auto|]. split; [constructor|]. split; [reflexivity|].
           intros YR. destruct (Y YR) as (_ & [Z|Z]); congruence.
        -- eapply hs_keep; eauto. simpl. discriminate.
        -- rewrite SE. simpl. eapply rel_eq; [..|apply (rel_init qa HQA (sta A))]; reflexivity.
        -- rewrite SE. auto.
        -- rewrite SE. simpl. intros. eapply (chan_snoc _ _ _ 0 0); eauto; simpl; auto; lia.
      * unfold then_finish, finish in E. rewrite HF in E. inversion E; subst. apply IDLE; auto.
    + cbn [step] in E. destruct (st (sta A)) eqn:ES; try (inversion E; subst; apply IDLE; auto; fail).
      * inversion E; subst. clear IDLE.
        destruct (HN ltac:(rewrite ES; discriminate)) as (-> & -> & -> & SE).
        apply (close qa qb A B (outq B) _ _ _ 0 0 0 Nb Kb Rb 0 0 0); auto.
        -- simpl. rewrite app_nil_r. exact GTA.
        -- destruct HA as (c1 & c2 & EQ & F1 & F2 & X & Y). rewrite ES in X. subst c2.
           exists (c1 ++ [StartM]), []. simpl. rewrite EQ, !app_nil_r. split; [reflexivity|].
           split; [apply Forall_app; auto|]. split; [constructor|]. rewrite ES. split; [reflexivity|].
           intros YR. destruct (Y YR) as (_ & [Z|Z]); congruence.
        -- rewrite SE. simpl. rewrite <- SE. exact HR.
        -- rewrite SE. auto.
        -- rewrite SE. simpl. intros. eapply (chan_snoc _ _ _ 0 0); eauto; simpl; auto; lia.
      * inversion E; subst. clear IDLE.
        destruct (HN ltac:(rewrite ES; discriminate)) as (-> & -> & -> & SE).
        apply (move qa qb A B (outq B) Timeout (sta A) [Tx StackM] 0 0 0 Nb Kb Rb 0 0 0); auto.
        -- simpl. rewrite app_nil_r. exact GTA.
        -- rewrite ES. discriminate.
        -- right. rewrite SE. auto.
        -- simpl. rewrite app_nil_r. exact HR.
        -- apply pushes_one; try lia; simpl; auto; discriminate.
      * pose proof (running_timeout qa (sta A) Na Ka Ra (sent A) ES HR) as [(s1 & o1 & N1 & E1 & R1 & P1 & D1 & S1 & _ & A1)].
        cbn [step] in E1. rewrite ES in E1. rewrite E1 in E. inversion E; subst. clear E E1.
        apply (move qa qb A B (outq B) Timeout s' o Na Ka Ra Nb Kb Rb N1 Ka Ra); auto.
        -- rewrite D1, app_nil_r. exact GTA.
        -- eapply hs_keep; eauto.
        -- rewrite ES. discriminate.
        -- left. congruence.
        -- simpl. rewrite app_nil_r. exact R1.
        -- simpl. rewrite app_nil_r. exact P1.
    + cbn [step] in E. destruct (is_running (sta A)) eqn:ER.
      * assert (ES : st (sta A) = Running) by (unfold is_running in ER; destruct (st (sta A)); auto; discriminate ER).
        destruct (send_ok qa HQA (sta A) Na Ka Ra (sent A) d HR ES HF) as (s1 & o1 & N1 & E1 & R1 & P1 & D1 & S1 & _ & A1).
        rewrite E1 in E. inversion E; subst. clear E E1.
        assert (EA : accepted (sta A) (Send d) = [d]) by (simpl; rewrite ES; reflexivity).
        apply (move qa qb A B (outq B) (Send d) s' o Na Ka Ra Nb Kb Rb N1 Ka Ra); auto; rewrite ?EA; auto.
        -- rewrite D1, app_nil_r. exact GTA.
        -- eapply hs_keep; eauto.
        -- rewrite ES. discriminate.
        -- left. congruence.
      * unfold send in E. rewrite ER in E. inversion E; subst. apply IDLE; auto.
        simpl. unfold is_running in ER. destruct (st (sta A)); auto; discriminate ER.
  - (* loss *)
    simpl. exists Na, Ka, Ra, Nb, Kb, Rb.
    split; [exact GA|]. split; [exact GB|]. split; [exact CA|].
    split. { eapply chan_drop. rewrite <- Hc. exact CB. }
    split; [apply hs_drop_to; exact HA|]. split; [eapply hs_drop_from; eauto|]. auto.
  - (* receipt *)
    destruct Hact as (s' & o & E & ->). change (sysinv qa qb (after A (Recv m) s' o, set_outq B c)).
    rewrite Hc in CB. simpl in CB. destruct CB as (h & p & Hh & Hp & HI & CB).
    assert (CL : chan qb (sent B) c Ra Ka Nb Rb) by (eapply chan_low; eauto).
    assert (IDLE : s' = sta A -> o = [] -> sysinv qa qb (after A (Recv m) s' o, set_outq B c)).
    { intros -> ->. eapply idle; eauto. eapply hs_take; eauto. }
    pose proof (chan_le _ _ _ _ _ _ _ CA) as (L1 & L2). pose proof (chan_le _ _ _ _ _ _ _ CB) as (L3 & L4).
    pose proof GB as ((GBC & _) & _). pose proof (rl_win _ _ _ _ _ _ GBC) as WB.
    assert (RUN : forall s1 o1, rel qa s1 Na Ka Ra (sent A) -> st s1 = Running -> ackflag s1 = false ->
       pushes qa (sent A) Na Ra Na Ra o1 -> delivers o1 = [] -> st (sta A) <> Off -> m <> StartM ->
       (let* (s2, o2) := running_recv qa s1 m in Ok (s2, o1 ++ o2)) = Ok (s', o) ->
       sysinv qa qb (after A (Recv m) s' o, set_outq B c)).
    { intros s1 o1 Q1 Q2 Q3 Q4 Q5 Q6 Q7 Q8.
      destruct (recv_run qa qb s1 (sent A) Na Ka Ra (sent B) Nb Kb Rb m c h p (got A))
        as (s2 & o2 & N2 & K2 & R2 & E2 & T2 & P2 & S2 & A2 & C2 & G2); auto; try lia.
      rewrite E2 in Q8. cbn [bind] in Q8. inversion Q8; subst. clear Q8.
      apply (move qa qb A B c (Recv m) s' (o1 ++ o2) Na Ka Ra Nb Kb Rb N2 K2 R2); auto.
      - rewrite delivers_app, Q5. exact G2.
      - eapply hs_take; eauto.
      - simpl. rewrite app_nil_r. exact T2.
      - simpl. rewrite app_nil_r. eapply pushes_app; eauto. }
    assert (ENTER : m <> StartM -> st (sta A) <> Off -> Ok (running_state (sta A) true) = Ok (s', o) ->
       sysinv qa qb (after A (Recv m) s' o, set_outq B c)).
    { intros Q1 Q2 Q3.
      destruct (running_state_ok qa (sta A) true Na Ka Ra (sent A) HR) as (s1 & o1 & E1 & R1 & P1 & D1 & S1 & _ & _ & A1 & _).
      rewrite E1 in Q3. inversion Q3; subst. clear Q3.
      apply (move qa qb A B c (Recv m) s' o Na Ka Ra Nb Kb Rb Na Ka Ra); auto.
      - rewrite D1, app_nil_r. exact GTA.
      - eapply hs_take; eauto.
      - simpl. rewrite app_nil_r. exact R1.
      - simpl. rewrite app_nil_r. exact P1. }
    assert (ENTER2 : m <> StartM -> st (sta A) <> Off ->
      (let (s0, o1) := running_state (sta A) false in
       let* (s1, o2) := running_recv qa s0 m in Ok (s1, o1 ++ o2)) = Ok (s', o) ->
       sysinv qa qb (after A (Recv m) s' o, set_outq B c)).
    { intros Q1 Q2 Q3.
      destruct (running_state_ok qa (sta A) false Na Ka Ra (sent A) HR) as (s1 & o1 & E1 & R1 & P1 & D1 & S1 & A1 & _).
      rewrite E1 in Q3. eapply RUN; [exact R1|exact S1|apply A1; exact HF|exact P1|exact D1|exact Q2|exact Q1|exact Q3]. }
    cbn [step] in E. destruct (st (sta A)) eqn:ES.
    + inversion E; subst. apply IDLE; auto.
    + destruct m; try (inversion E; subst; apply IDLE; auto; fail).
      * inversion E; subst. destruct (HN ltac:(rewrite ES; discriminate)) as (-> & -> & -> & SE).
        apply (move qa qb A B c (Recv StartM) _ [Tx StackM] 0 0 0 Nb Kb Rb 0 0 0); auto.
        -- simpl. rewrite app_nil_r. exact GTA.
        -- eapply hs_take; eauto. simpl. discriminate.
        -- rewrite ES. discriminate.
        -- right. rewrite SE. auto.
        -- simpl. rewrite app_nil_r. eapply rel_eq; [..|exact HR]; reflexivity.
        -- apply pushes_one; try lia; simpl; auto; discriminate.
      * apply ENTER; auto; discriminate.
      * elim HI.
    + destruct m; try (inversion E; subst; apply IDLE; auto; fail).
      * destruct (resp =? 0); [apply ENTER2; auto; discriminate|inversion E; subst; apply IDLE; auto].
      * destruct (resp =? 0); [apply ENTER2; auto; discriminate|inversion E; subst; apply IDLE; auto].
      * apply ENTER; auto; discriminate.
      * elim HI.
    + assert (HM : m <> StartM).
      { intros ->. destruct HB as (c1 & c2 & EQ & F1 & F2 & X & Y). destruct (Y ES) as (-> & _).
        rewrite Hc in EQ. simpl in EQ. rewrite <- EQ in F2. inversion F2. congruence. }
      apply (RUN (sta A) []); auto; [apply pushes_nil; lia|discriminate|rewrite E; reflexivity].
    + elim NM; reflexivity.
  - (* header error *)
    destruct Hact as (s' & o & E & ->). change (sysinv qa qb (after A (RErr code None) s' o, set_outq B c)).
    rewrite Hc in CB. simpl in CB. destruct CB as (h & p & Hh & Hp & HI & CB).
    assert (CL : chan qb (sent B) c Ra Ka Nb Rb) by (eapply chan_low; eauto).
    destruct (st (sta A)) eqn:ES;
      try (cbn [step] in E; rewrite ES in E; inversion E; subst; eapply idle; eauto; eapply hs_take; eauto; fail).
    + pose proof (running_err qa HQA (sta A) Na Ka Ra (sent A) code None ES HF HR) as [(s1 & o1 & N1 & E1 & R1 & P1 & D1 & S1 & _ & A1)].
      rewrite E1 in E. inversion E; subst. clear E E1.
      apply (move qa qb A B c (RErr code None) s' o Na Ka Ra Nb Kb Rb N1 Ka Ra); auto.
      * rewrite D1, app_nil_r. exact GTA.
      * eapply hs_take; eauto.
      * rewrite ES. discriminate.
      * left. congruence.
      * simpl. rewrite app_nil_r. exact R1.
      * simpl. rewrite app_nil_r. exact P1.
  - (* data error *)
    destruct Hact as (s' & o & E & ->). change (sysinv qa qb (after A (RErr code (Some resp)) s' o, set_outq B c)).
    rewrite Hc in CB. simpl in CB. destruct CB as (h & p & Hh & Hp & (-> & HI) & CB).
    assert (CL : chan qb (sent B) c Ra Ka Nb Rb) by (eapply chan_low; eauto).
    pose proof (chan_le _ _ _ _ _ _ _ CA) as (L1 & L2). pose proof (chan_le _ _ _ _ _ _ _ CB) as (L3 & L4).
    destruct (st (sta A)) eqn:ES;
      try (cbn [step] in E; rewrite ES in E; inversion E; subst; eapply idle; eauto; eapply hs_take; eauto; fail).
    + pose proof (running_err qa HQA (sta A) Na Ka Ra (sent A) code (Some (p mod 256)) ES HF HR) as [(s1 & o1 & N1 & E1 & R1 & P1 & D1 & S1 & _ & A1)].
      rewrite E1 in E. inversion E; subst. clear E E1.
      destruct HR as (C & _). pose proof (rl_win _ _ _ _ _ _ C).
      rewrite ackto_exact in R1 by lia.
      apply (move qa qb A B c (RErr code (Some (p mod 256))) s' o Na Ka Ra Nb Kb Rb N1 p Ra); auto.
      * eapply chan_low; [exact CB|lia|lia].
      * rewrite D1, app_nil_r. exact GTA.
      * eapply hs_take; eauto.
      * rewrite ES. discriminate.
      * left. congruence.
      * simpl. rewrite app_nil_r. exact R1.
      * simpl. rewrite app_nil_r. exact P1.
Qed.
Lemma steps_inv : forall qa qb x y, 1 <= qa <= 255 -> 1 <= qb <= 255 ->
  steps qa qb x y -> sysinv qa qb x -> sysinv qa qb y.
Proof.
  intros qa qb x y HQA HQB H. induction H; intros HI; auto.
  - eapply astep_inv; [exact HQA|exact HQB|apply IHsteps; assumption|eassumption].
  - assert (E : z = swap (swap z)) by (destruct z; reflexivity). rewrite E.
    apply sysinv_swap. eapply astep_inv; [exact HQB|exact HQA| |eassumption].
    apply sysinv_swap. apply IHsteps; assumption.
Qed.

(** C16.  Whatever happens, what each station has delivered is a prefix of what
    was given to the other one. *)
Definition prefix {A} (x y : list A) : Prop := exists z, y = x ++ z.
Theorem ddcmp_delivery : forall qa qb A B, 1 <= qa <= 255 -> 1 <= qb <= 255 ->
  steps qa qb sys0 (A, B) -> prefix (got B) (sent A) /\ prefix (got A) (sent B).
Proof.
  intros * HQA HQB H.
  destruct (steps_inv qa qb _ _ HQA HQB H (sysinv_0 qa qb HQA HQB))
    as (Na & Ka & Ra & Nb & Kb & Rb & _ & _ & _ & _ & _ & _ & -> & ->).
  split; eexists; symmetry; apply firstn_skipn.
Qed.
Print Assumptions ddcmp_delivery.
(** When nothing is waiting or unacknowledged at A, everything has been
    delivered. *)
Theorem ddcmp_acked : forall qa qb A B, 1 <= qa <= 255 -> 1 <= qb <= 255 ->
  steps qa qb sys0 (A, B) -> n (sta A) = a (sta A) -> notsent (sta A) = [] -> got B = sent A.
Proof.
  intros * HQA HQB H E1 E2.
  destruct (steps_inv qa qb _ _ HQA HQB H (sysinv_0 qa qb HQA HQB))
    as (Na & Ka & Ra & Nb & Kb & Rb & GA & _ & CA & CB & _ & _ & -> & _).
  apply chan_le in CA. apply chan_le in CB.
  destruct GA as ((C & (W1 & W2) & _) & _).
  pose proof (pend_eq qa HQA _ _ _ _ _ C) as P. unfold ssub in P. rewrite E1, Z.sub_diag in P.
  change (0 mod 256) with 0 in P.
  rewrite E2 in W1. assert (L : length (skipn (Z.to_nat Na) (sent A)) = O) by (rewrite <- W1; reflexivity).
  rewrite skipn_length in L. unfold zlen in W2.
  apply firstn_all2. lia.
Qed.
Print Assumptions ddcmp_acked.
(** The system does not stop on a failed assertion: every event can happen. *)
Theorem ddcmp_no_crash : forall qa qb A B e, 1 <= qa <= 255 -> 1 <= qb <= 255 ->
  steps qa qb sys0 (A, B) -> exists A', act qa A e A'.
Proof.
  intros * HQA HQB H.
  destruct (steps_inv qa qb _ _ HQA HQB H (sysinv_0 qa qb HQA HQB))
    as (Na & Ka & Ra & Nb & Kb & Rb & (HR & HF & _) & _).
  destruct (inv_step qa (sta A) e HQA) as (s' & o & E & _). { split; eauto. }
  eexists. exists s', o. split; [exact E|reflexivity].
Qed.
Print Assumptions ddcmp_no_crash.

(** ** Concrete runs *)
(** A schedule as a list: which station, and what happens at it. *)
Inductive cmd := Own (e : event) | Lose (k : nat) | Arrive | BadHdr (code : Z) | BadData (code : Z).
Definition do_act (q : Z) (x : side) (e : event) : option side :=
  match step q (sta x) e with Ok (s', o) => Some (after x e s' o) | Err _ => None end.
Definition exec1 (q : Z) (x : sys) (c : cmd) : option sys :=
  let (A, B) := x in
  match c, outq B with
  | Own e, _ => option_map (fun A' => (A', B)) (do_act q A e)
  | Lose k, l => Some (A, set_outq B (firstn k l ++ skipn (S k) l))
  | Arrive, m :: c => option_map (fun A' => (A', set_outq B c)) (do_act q A (Recv m))
  | BadHdr code, m :: c => option_map (fun A' => (A', set_outq B c)) (do_act q A (RErr code None))
  | BadData code, DataM resp _ _ :: c => option_map (fun A' => (A', set_outq B c)) (do_act q A (RErr code (Some resp)))
  | _, _ => None
  end.
Fixpoint exec (q : Z) (x : sys) (l : list (bool * cmd)) : option sys :=
  match l with
  | [] => Some x
  | (true, c) :: l => match exec1 q x c with Some y => exec q y l | None => None end
  | (false, c) :: l => match exec1 q (swap x) c with Some y => exec q (swap y) l | None => None end
  end.
Definition own_ok (c : cmd) : bool :=
  match c with Own Connected | Own Timeout | Own (Send _) => true | Own _ => false | _ => true end.
Lemma exec1_astep : forall q x c y, own_ok c = true -> exec1 q x c = Some y ->
  astep q x y \/ (exists k, c = Lose k /\ y = (fst x, snd x)).
Proof.
  intros q (A, B) c y HO E. cbn [exec1] in E.
  assert (ACT : forall e A', do_act q A e = Some A' -> act q A e A').
  { intros e A'. unfold do_act. destruct (step q (sta A) e) as [(s', o)|] eqn:ES; [|discriminate].
    intros X. inversion X; subst. exists s', o. auto. }
  destruct c.
  - left. destruct (do_act q A e) eqn:ED; [|discriminate E]. inversion E; subst.
    apply do_own with e; auto. destruct e; try discriminate HO; eauto.
  - destruct (Nat.lt_ge_cases k (length (outq B))) as [L|L].
    + left. destruct (nth_error (outq B) k) as [m|] eqn:EN.
      2:{ apply nth_error_None in EN. lia. }
      assert (EY : y = (A, set_outq B (firstn k (outq B) ++ skipn (S k) (outq B)))) by congruence.
      rewrite EY. apply do_lose with m.
      rewrite <- (firstn_skipn k (outq B)) at 1. f_equal.
      clear - EN. revert EN. generalize (outq B). induction k; intros l EN; destruct l; simpl in *; try discriminate EN.
      * congruence.
      * apply IHk. exact EN.
    + right. exists k. split; [reflexivity|].
      assert (EY : y = (A, set_outq B (firstn k (outq B) ++ skipn (S k) (outq B)))) by congruence.
      rewrite EY.
      rewrite firstn_all2 by lia. rewrite skipn_all2 by lia. rewrite app_nil_r, set_outq_id. reflexivity.
  - left. destruct (outq B) as [|m c] eqn:EO; [discriminate E|].
    destruct (do_act q A (Recv m)) eqn:ED; [|discriminate E]. inversion E; subst.
    eapply do_recv; eauto.
  - left. destruct (outq B) as [|m c] eqn:EO; [discriminate E|].
    destruct (do_act q A (RErr code None)) eqn:ED; [|discriminate E]. inversion E; subst.
    eapply do_hcrc; eauto.
  - left. destruct (outq B) as [|m c] eqn:EO; [discriminate E|].
    destruct m; try discriminate E.
    destruct (do_act q A (RErr code (Some resp))) eqn:ED; [|discriminate E]. inversion E; subst.
    eapply do_dcrc; eauto.
Qed.
Lemma exec_steps : forall q l x0 x y, forallb (fun bc => own_ok (snd bc)) l = true ->
  steps q q x0 x -> exec q x l = Some y -> steps q q x0 y.
Proof.
  induction l as [|(b, c) l IH]; intros x0 x y HO HS E; cbn [exec forallb snd] in *.
  - inversion E; subst. exact HS.
  - apply andb_prop in HO. destruct HO as (HO1 & HO2). destruct b.
    + destruct (exec1 q x c) as [z|] eqn:E1; [|discriminate E].
      eapply IH; [exact HO2| |exact E].
      destruct (exec1_astep q x c z HO1 E1) as [S1|(k & _ & ->)]; [|destruct x; exact HS].
      eapply steps_a; eauto.
    + destruct (exec1 q (swap x) c) as [z|] eqn:E1; [|discriminate E].
      eapply IH; [exact HO2| |exact E].
      destruct (exec1_astep q (swap x) c z HO1 E1) as [S1|(k & _ & ->)]; [|destruct x; exact HS].
      eapply steps_b; [exact HS|]. destruct z; exact S1.
Qed.
Definition a_ (c : cmd) : bool * cmd := (true, c).
Definition b_ (c : cmd) : bool * cmd := (false, c).
(** A window of 2: start up, three messages (the third has to wait), the first
    one lost, the second ignored, a timeout, the reply, and retransmission; the
    other way a message with a bad CRC. *)
Definition demo : list (bool * cmd) :=
  [ a_ (Own Connected); b_ (Own Connected); b_ Arrive; a_ (Lose 0); a_ Arrive; b_ Arrive;
    a_ (Own (Send [1])); a_ (Own (Send [2])); a_ (Own (Send [3]));
    b_ (Lose 0); b_ Arrive; a_ (Own Timeout); b_ Arrive;
    a_ Arrive; b_ Arrive; b_ Arrive; a_ Arrive; a_ Arrive; b_ Arrive;
    b_ (Own (Send [9])); a_ Arrive; a_ (BadData 2); b_ Arrive; a_ Arrive ].
Example ddcmp_demo : exists A B, steps 2 2 sys0 (A, B) /\
  sent A = [[1]; [2]; [3]] /\ got B = [[1]; [2]; [3]] /\ sent B = [[9]] /\ got A = [[9]].
Proof.
  assert (E : exists A B, exec 2 sys0 demo = Some (A, B) /\
    sent A = [[1]; [2]; [3]] /\ got B = [[1]; [2]; [3]] /\ sent B = [[9]] /\ got A = [[9]]).
  { vm_compute. eexists _, _. split; [reflexivity|]. repeat split. }
  destruct E as (A & B & E & H). exists A, B. split; [|exact H].
  eapply exec_steps; [|apply steps_nil|exact E]. reflexivity.
Qed.

(** C16 does not extend to histories with a restart (a Restart item from the
    routing layer) at one end: a duplicate Stack still in flight takes the
    restarted station back to running while its Start is lost, the other
    station goes on with the old sequence numbers, and what it delivers then has
    a gap, with the circuit staying up. *)
Definition restart_demo : list (bool * cmd) :=
  [ a_ (Own Connected); b_ (Own Connected); a_ Arrive; a_ (Own Timeout); b_ (Lose 0); b_ Arrive; a_ Arrive ] ++
  map (fun d => b_ (Own (Send [d]))) [1; 2; 3; 4; 5] ++ repeat (a_ Arrive) 5 ++
  [ b_ (Own Restart); a_ (Lose 0); b_ Arrive ] ++
  map (fun d => b_ (Own (Send [d]))) [11; 12; 13; 14; 15; 16] ++ repeat (a_ Arrive) 7.
Theorem ddcmp_restart_refuted : exists A B,
  exec 7 sys0 restart_demo = Some (A, B) /\ st (sta A) = Running /\ st (sta B) = Running /\
  sent B = map (fun d => [d]) [1; 2; 3; 4; 5; 11; 12; 13; 14; 15; 16] /\
  got A = map (fun d => [d]) [1; 2; 3; 4; 5; 16] /\ ~ prefix (got A) (sent B).
Proof.
  assert (E : exists A B, exec 7 sys0 restart_demo = Some (A, B) /\ st (sta A) = Running /\ st (sta B) = Running /\
    sent B = map (fun d => [d]) [1; 2; 3; 4; 5; 11; 12; 13; 14; 15; 16] /\
    got A = map (fun d => [d]) [1; 2; 3; 4; 5; 16]).
  { vm_compute. eexists _, _. split; [reflexivity|]. repeat split. }
  destruct E as (A & B & E1 & E2 & E3 & E4 & E5). exists A, B.
  split; [exact E1|]. split; [exact E2|]. split; [exact E3|]. split; [exact E4|]. split; [exact E5|].
  rewrite E4, E5. intros (z & Z). discriminate Z.
Qed.
Print Assumptions ddcmp_restart_refuted.

(** A window of 256 would break C17: a full window looks empty.  The
    configuration (config.py) allows at most 255. *)
Example ddcmp_window_256_refuted :
  let l := [Connected; Recv StackM] ++ map (fun d => Send [d]) (repeat 0 257) in
  run 256 station l = Err EAssert.
Proof. vm_compute. reflexivity. Qed.
Example ddcmp_window_demo : exists s o,
  run 7 station ([Connected; Recv StackM] ++ map (fun d => Send [d]) (repeat 0 9) ++
                 [Recv (AckM 200); Recv (NakM 3 2); Recv (DataM 3 1 [7])]) = Ok (s, o) /\
  st s = Running /\ a s = 3 /\ n s = 9 /\ r s = 1.
Proof. vm_compute. eexists _, _. split; [reflexivity|]. auto. Qed.

(** * What the port's user is told *)
(** Up and Down alternate, and data is delivered only between an Up and the
    next Down; the argument and result say whether the port is up. *)
Fixpoint told (up : bool) (o : list out) : option bool :=
  match o with
  | [] => Some up
  | Up :: t => if up then None else told true t
  | Down :: t => if up then told false t else None
  | Deliver _ :: t => if up then told true t else None
  | Tx _ :: t => told up t
  end.
Lemma told_app : forall x b y, told b (x ++ y) = match told b x with Some c => told c y | None => None end.
Proof. induction x as [|o x IH]; intros b y; [reflexivity|]. cbn [app told]. destruct o, b; auto. Qed.
Definition silent (o : list out) : Prop := forall b, told b o = Some b.
Definition kept (s : stn) (o : list out) (s' : stn) : Prop := silent o /\ st s' = st s /\ is_up s' = is_up s.
Lemma kept_refl : forall s s', st s' = st s -> is_up s' = is_up s -> kept s [] s'.
Proof. intros s s' A B. split; [intros b; reflexivity|auto]. Qed.
Lemma kept_app : forall s1 o1 s2 o2 s3, kept s1 o1 s2 -> kept s2 o2 s3 -> kept s1 (o1 ++ o2) s3.
Proof. intros s1 o1 s2 o2 s3 (A & B & D) (E & F & G). split; [intros b; rewrite told_app, A, E; auto|split; congruence]. Qed.
Lemma send_kept : forall q s d k s' o, send q s d k = Ok (s', o) -> kept s o s'.
Proof.
  intros q s d k s' o H. unfold send, tx_data in H. destruct (is_running s); [|inversion H; subst; apply kept_refl; auto].
  destruct (negb _); [inversion H; subst; apply kept_refl; auto|]. destruct (unack s _); [discriminate|]. destruct k; inversion H; subst.
  - apply kept_refl; auto.
  - split; [intros b; reflexivity|auto].
Qed.
Lemma drain_kept : forall f q s k s' o, drain f q s k = Ok (s', o) -> kept s o s'.
Proof.
  induction f as [|f IH]; intros q s k s' o H; cbn [drain] in H; [inversion H; subst; apply kept_refl; auto|].
  destruct (cansend q s); [|inversion H; subst; apply kept_refl; auto]. destruct (notsent s) as [|d t]; [inversion H; subst; apply kept_refl; auto|].
  apply bind_ok in H. destruct H as [(s1, o1) [E H]]. apply bind_ok in H. destruct H as [(s2, o2) [E2 H]]. inversion H; subst.
  apply (kept_app s o1 s1 o2 s'); [|eauto]. apply send_kept in E. destruct E as (A & B & D). split; auto.
Qed.
Lemma ack_loop_kept : forall c s s', ack_loop c s = Ok s' -> st s' = st s /\ is_up s' = is_up s.
Proof.
  induction c as [|c IH]; intros s s' H; cbn [ack_loop] in H; [inversion H; auto|]. destruct (unack s _); [|discriminate]. apply IH in H. exact H.
Qed.
Lemma process_kept : forall q s x k s' o g, process_ack q s x k = Ok (s', o, g) -> kept s o s'.
Proof.
  intros q s x k s' o g H. unfold process_ack in H. destruct (_ <? _); [inversion H; subst; apply kept_refl; auto|].
  apply bind_ok in H. destruct H as [s1 [E H]]. apply bind_ok in H. destruct H as [(s2, o2) [E2 H]]. inversion H; subst.
  apply ack_loop_kept in E. apply drain_kept in E2. destruct E, E2 as (A & B & D). split; [auto|split; congruence].
Qed.
Lemma retransmit_kept : forall c t s s' o, retransmit_loop c t s = Ok (s', o) -> kept s o s'.
Proof.
  induction c as [|c IH]; intros t s s' o H; cbn [retransmit_loop] in H; [inversion H; subst; apply kept_refl; auto|].
  destruct (unack s _) as [d|]; [|discriminate]. cbn [tx_data] in H. apply bind_ok in H. destruct H as [(s2, o2) [E2 H]]. inversion H; subst.
  apply (kept_app s [Tx (DataM (r s) (sadd t 1) d)] (set_ack s false) o2 s'); [split; [intros b; reflexivity|auto]|eauto].
Qed.
Lemma finish_kept : forall s, kept s (snd (finish s)) (fst (finish s)).
Proof. intros s. unfold finish. destruct (ackflag s); [split; [intros b; reflexivity|auto]|apply kept_refl; auto]. Qed.
Definition agrees (s : stn) : Prop := is_up s = is_running s.
Definition tells (s : stn) (o : list out) (s' : stn) : Prop := agrees s' /\ told (is_up s) o = Some (is_up s').
Lemma kept_tells : forall s o s', agrees s -> kept s o s' -> tells s o s'.
Proof. intros s o s' G (A & B & D). split; [unfold agrees, is_running in *; rewrite B, D; auto|]. rewrite A. congruence. Qed.
Lemma finish_tells : forall s0 s o s' o', tells s0 o s -> then_finish s o = (s', o') -> tells s0 o' s'.
Proof.
  intros s0 s o s' o' [G T] H. unfold then_finish in H. pose proof (finish_kept s) as K. destruct (finish s) as [s1 o1] eqn:E. cbn [fst snd] in K. inversion H; subst.
  destruct (kept_tells _ _ _ G K) as [G1 T1]. split; [auto|]. rewrite told_app, T. auto.
Qed.
Lemma restart_tells : forall s s' o, agrees s -> do_restart s = (s', o) -> tells s o s'.
Proof.
  intros s s' o G H. unfold agrees in G. unfold do_restart, report_down, connected in H. destruct (is_running s) eqn:R; rewrite ?G in H.
  - unfold is_running in R. destruct (st s) eqn:E; try discriminate. cbn [set_up st] in H. rewrite E in H. inversion H; subst. split; [reflexivity|]. rewrite G. reflexivity.
  - unfold is_running in R. destruct (st s) eqn:E; try discriminate; inversion H; subst; split; cbn; rewrite ?G; auto; unfold agrees, is_running; cbn; rewrite ?E; auto.
Qed.
Lemma recv_tells : forall q s m s' o, agrees s -> st s = Running -> running_recv q s m = Ok (s', o) -> tells s o s'.
Proof.
  intros q s m s' o G R H.
  assert (U : is_up s = true) by (unfold agrees, is_running in G; rewrite R in G; auto).
  destruct m as [resp num p|resp|code resp|num| | |p]; cbn [running_recv] in H.
  - apply bind_ok in H. destruct H as [((s1, o1), g) [E H]]. apply process_kept in E. destruct (kept_tells _ _ _ G E) as [G1 T1].
    destruct (negb _); [inversion H; subst; split; auto|]. assert (X : then_finish (set_ack (set_r s1 (sadd (r s1) 1)) true) (o1 ++ [Deliver p]) = (s', o)) by congruence.
    eapply finish_tells; [|exact X]. split; [exact G1|]. rewrite told_app, T1. destruct E as (_ & _ & D). cbn [told]. cbn [set_ack set_r is_up]. rewrite D, U. auto.
  - apply bind_ok in H. destruct H as [((s1, o1), g) [E H]]. apply process_kept in E. assert (X : then_finish s1 o1 = (s', o)) by congruence.
    eapply finish_tells; [|exact X]. apply kept_tells; auto.
  - apply bind_ok in H. destruct H as [((s1, o1), g) [E H]]. apply process_kept in E. destruct g.
    + apply bind_ok in H. destruct H as [(s2, o2) [E2 H]]. apply retransmit_kept in E2. assert (X : then_finish s2 (o1 ++ o2) = (s', o)) by congruence.
      eapply finish_tells; [|exact X]. apply kept_tells; [auto|]. eapply kept_app; eauto.
    + assert (X : then_finish s1 o1 = (s', o)) by congruence. eapply finish_tells; [|exact X]. apply kept_tells; auto.
  - destruct (num =? r s); cbn [send_nak] in H.
    + assert (X : then_finish (set_ack s true) [] = (s', o)) by congruence. eapply finish_tells; [|exact X]. split; [exact G|reflexivity].
    + assert (X : then_finish (set_ack s false) [Tx (NakM 3 (r s))] = (s', o)) by congruence. eapply finish_tells; [|exact X]. split; [exact G|reflexivity].
  - assert (X : do_restart s = (s', o)) by congruence. apply restart_tells; auto.
  - assert (X : then_finish (set_ack s true) [] = (s', o)) by congruence. eapply finish_tells; [|exact X]. split; [exact G|reflexivity].
  - unfold report_down in H. cbn [init_state is_up] in H. rewrite U in H. inversion H; subst. split; [reflexivity|]. rewrite U. reflexivity.
Qed.
Lemma step_tells : forall q s e s' o, agrees s -> step q s e = Ok (s', o) -> tells s o s'.
Proof.
  intros q s e s' o G H.
  assert (ID : forall s1, st s1 = st s -> is_up s1 = is_up s -> Ok (s1, []) = Ok (s', o) -> tells s o s') by (intros s1 A B X; inversion X; subst; apply kept_tells; auto; apply kept_refl; auto).
  assert (RS : Ok (do_restart s) = Ok (s', o) -> tells s o s') by (intros X; apply restart_tells; congruence).
  assert (LO : e = Lost -> tells s o s').
  { intros ->. cbn [step] in H. unfold report_down in H. destruct (is_up s) eqn:U; inversion H; subst; split; unfold agrees; cbn; rewrite ?U; auto. }
  assert (SE : forall d, e = Send d -> tells s o s') by (intros d ->; cbn [step] in H; apply kept_tells; [auto|eapply send_kept; eauto]).
  assert (UP : forall ack, is_running s = false -> running_state s ack = (s', o) -> tells s o s').
  { intros ack R X. unfold agrees in G. unfold running_state, report_up, send_ack in X. rewrite G, R in X. destruct ack; cbn in X; inversion X; subst; (split; [reflexivity|rewrite G, R; reflexivity]). }
  destruct (st s) eqn:E.
  - destruct e; eauto; cbn [step] in H; rewrite E in H; eauto.
    unfold connected in H. inversion H; subst. unfold agrees, is_running in G. rewrite E in G. split; [cbn; unfold agrees; cbn; auto|cbn; auto].
  - assert (R : is_running s = false) by (unfold is_running; rewrite E; auto).
    destruct e; eauto; cbn [step] in H; rewrite E in H; eauto.
    + inversion H; subst. split; [auto|reflexivity].
    + destruct m; eauto.
      * inversion H; subst. unfold agrees in G. split; [unfold agrees; cbn; congruence|]. reflexivity.
      * apply (UP true); congruence.
      * inversion H; subst. unfold agrees in G. split; [unfold agrees; cbn; congruence|]. reflexivity.
  - assert (R : is_running s = false) by (unfold is_running; rewrite E; auto).
    assert (UR : forall m, (let (s1, o1) := running_state s false in let* (s2, o2) := running_recv q s1 m in Ok (s2, o1 ++ o2)) = Ok (s', o) -> tells s o s').
    { intros m X. destruct (running_state s false) as [s1 o1] eqn:RS1. apply bind_ok in X. destruct X as [(s2, o2) [E2 X]]. inversion X; subst.
      assert (T : tells s o1 s1).
      { clear - G R RS1. unfold agrees in G. unfold running_state, report_up in RS1. rewrite G, R in RS1. inversion RS1; subst. split; [reflexivity|rewrite G, R; reflexivity]. }
      destruct T as [G1 T1]. apply recv_tells in E2; auto.
      - destruct E2 as [G2 T2]. split; [auto|]. rewrite told_app, T1. auto.
      - unfold running_state, report_up in RS1. destruct (negb (is_up s)); inversion RS1; subst; reflexivity. }
    destruct e; eauto; cbn [step] in H; rewrite E in H; eauto.
    + inversion H; subst. split; [auto|reflexivity].
    + destruct m; eauto.
      * destruct (resp =? 0); eauto.
      * destruct (resp =? 0); eauto.
      * apply (UP true); congruence.
      * inversion H; subst. unfold agrees in G. split; [unfold agrees; cbn; congruence|]. reflexivity.
  - assert (FI : forall s1 o1, kept s o1 s1 -> Ok (then_finish s1 o1) = Ok (s', o) -> tells s o s').
    { intros s1 o1 K X. eapply finish_tells; [apply kept_tells; eauto|congruence]. }
    destruct e; eauto; cbn [step] in H; rewrite E in H; eauto.
    + eapply FI; [|exact H]. apply kept_refl; auto.
    + unfold send_rep in H. eapply FI; [|exact H]. split; [intros b; reflexivity|auto].
    + eapply recv_tells; eauto.
    + apply bind_ok in H. destruct H as [(s1, o1) [E1 H]]. cbn [send_nak] in H. eapply FI; [|exact H].
      assert (K : kept s o1 s1).
      { destruct resp as [x|]; [|inversion E1; subst; apply kept_refl; auto]. apply bind_ok in E1. destruct E1 as [((s2, o2), g) [E2 E1]]. inversion E1; subst. eapply process_kept; eauto. }
      eapply kept_app; [exact K|]. split; [intros b; reflexivity|auto].
  - destruct e; eauto; cbn [step] in H; rewrite E in H; eauto. destruct m; eauto.
Qed.
Lemma run_tells : forall q l s s' o, agrees s -> run q s l = Ok (s', o) -> tells s o s'.
Proof.
  induction l as [|e l IH]; intros s s' o G H; cbn [run] in H.
  - inversion H; subst. split; auto.
  - apply bind_ok in H. destruct H as [(s1, o1) [E H]]. apply bind_ok in H. destruct H as [(s2, o2) [E2 H]]. inversion H; subst.
    destruct (step_tells _ _ _ _ _ G E) as [G1 T1]. destruct (IH _ _ _ G1 E2) as [G2 T2]. split; [auto|]. rewrite told_app, T1. auto.
Qed.
Theorem ddcmp_reports : forall q l s o, run q station l = Ok (s, o) ->
  exists up, told false o = Some up /\ (up = true <-> st s = Running).
Proof.
  intros q l s o H. destruct (run_tells q l station s o eq_refl H) as [G T]. exists (is_up s). split; [exact T|].
  rewrite G. unfold is_running. destruct (st s); split; congruence.
Qed.
Print Assumptions ddcmp_reports.
(** Once the connection is lost nothing is sent or delivered, whatever else
    happens, until a new connection is made. *)
Theorem ddcmp_lost_silent : forall q l l2 s o s2 o2 s3 o3, run q station l = Ok (s, o) -> step q s Lost = Ok (s2, o2) -> run q s2 l2 = Ok (s3, o3) -> ~ In Connected l2 ->
  o2 = (match st s with Running => [Down] | _ => [] end) /\ st s3 = Off /\ (forall x, In x o3 -> False).
Proof.
  intros q l l2 s o s2 o2 s3 o3 H L R N. destruct (run_tells q l station s o eq_refl H) as [G _]. cbn [step] in L. unfold report_down in L. rewrite G in L.
  assert (D : o2 = (match st s with Running => [Down] | _ => [] end) /\ st s2 = Off /\ is_up s2 = false).
  { unfold agrees in G. unfold is_running in *. destruct (st s); inversion L; subst; cbn [set_st set_up is_up st]; auto. }
  destruct D as [D1 [D2 D3]]. split; [auto|]. clear - D2 D3 R N. revert s2 D2 D3 s3 o3 R. induction l2 as [|e l IH]; intros s2 D U s3 o3 R; cbn [run] in R.
  - inversion R; subst. auto.
  - apply bind_ok in R. destruct R as [(s1, o1) [E R]]. apply bind_ok in R. destruct R as [(s4, o4) [E2 R]].
    assert (s4 = s3 /\ o3 = o1 ++ o4) as [-> ->] by (inversion R; auto).
    assert (K : st s1 = Off /\ is_up s1 = false /\ o1 = []).
    { destruct e; cbn [step] in E; rewrite ?D in E; try (inversion E; subst; auto; fail).
      - exfalso. apply N. left. auto.
      - unfold report_down in E. rewrite U in E. inversion E; subst. auto.
      - unfold send, is_running in E. rewrite D in E. inversion E; subst. auto. }
    destruct K as [K1 [K2 ->]]. apply (IH) with (s2 := s1); auto. intros X. apply N. right. auto.
Qed.
Print Assumptions ddcmp_lost_silent.
(** A station that comes up, delivers, loses its connection and comes up again. *)
Example ddcmp_reports_demo : exists s o,
  run 7 station [Connected; Recv StackM; Recv (DataM 0 1 [7]); Lost; Recv (DataM 0 2 [8]); Connected; Recv StackM] = Ok (s, o) /\
  o = [Tx StartM; Up; Tx (AckM 0); Deliver [7]; Tx (AckM 1); Down; Tx StartM; Up; Tx (AckM 0)] /\ told false o = Some true.
Proof. vm_compute. eexists _, _. split; [reflexivity|]. auto. Qed.
