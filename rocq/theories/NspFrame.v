(** What the transmitting functions of NspModel leave alone. *)
From Verif Require Import Base Dict ModuloModel NspPktModel NspModel.

Definition txonly (l : list out) : Prop := Forall (fun o => match o with OTx _ _ | ORaise _ => True | _ => False end) l.
Lemma txonly_app : forall a b, txonly a -> txonly b -> txonly (a ++ b).
Proof. intros a b A B. unfold txonly in *. apply Forall_app. auto. Qed.
Lemma txonly_nil : txonly [].
Proof. constructor. Qed.
Lemma txonly_one : forall p g, txonly [OTx p g].
Proof. intros. constructor; [exact I|constructor]. Qed.

Definition rx_same (s s' : sub) : Prop := acknum s' = acknum s /\ rcvd s' = rcvd s /\ ooo s' = ooo s.
Record frame (c c' : conn) : Prop := mk_frame {
  fr_st : cst c' = cst c; fr_src : csrc c' = csrc c; fr_dst : cdst c' = cdst c; fr_dest : cdest c' = cdest c;
  fr_shut : cshut c' = cshut c; fr_disc : cdisc c' = cdisc c; fr_asm : casm c' = casm c; fr_phase : cphase c' = cphase c;
  fr_seg : csegsize c' = csegsize c; fr_rsts : crsts c' = crsts c;
  fr_rx : forall ch, rx_same (getc c ch) (getc c' ch); fr_log : exists l, clog c' = clog c ++ l /\ txonly l }.
Lemma rx_same_refl : forall s, rx_same s s.
Proof. repeat split. Qed.
Lemma frame_refl : forall c, frame c c.
Proof. intros c. constructor; auto. - intros; apply rx_same_refl. - exists []. rewrite app_nil_r. split; [auto|constructor]. Qed.
Lemma frame_trans : forall a b c, frame a b -> frame b c -> frame a c.
Proof.
  intros a b c [A1 A2 A3 A4 A5 A6 A7 A8 A9 A10 AR [l [AL AT]]] [B1 B2 B3 B4 B5 B6 B7 B8 B9 B10 BR [m [BL BT]]].
  constructor; try congruence.
  - intros ch. destruct (AR ch) as (x & y & z), (BR ch) as (x' & y' & z'). repeat split; congruence.
  - exists (l ++ m). split; [rewrite BL, AL, app_assoc; auto|now apply txonly_app].
Qed.
Lemma getc_putc : forall c ch s, getc (putc c ch s) ch = s.
Proof. intros c [] s; reflexivity. Qed.
Lemma getc_putc_cross : forall c ch s, getc (putc c ch s) (cross ch) = getc c (cross ch).
Proof. intros c [] s; reflexivity. Qed.
Lemma getc_putc_other : forall c ch ch' s, ch <> ch' -> getc (putc c ch s) ch' = getc c ch'.
Proof. intros c [] [] s H; try reflexivity; congruence. Qed.
Lemma putc_same_frame : forall c ch s, rx_same (getc c ch) s -> frame c (putc c ch s).
Proof.
  intros c ch s R. destruct ch; constructor; try reflexivity;
    try (intros []; cbn [getc putc] in *; first [exact R|apply rx_same_refl]); exists []; rewrite app_nil_r; split; auto using txonly_nil.
Qed.
Lemma emit_frame : forall c p g, frame c (emit c (OTx p g)).
Proof. intros. constructor; try reflexivity. - intros []; apply rx_same_refl. - eexists. split; [reflexivity|apply txonly_one]. Qed.
Lemma raise_frame : forall c e, frame c (emit c (ORaise e)).
Proof. intros. constructor; try reflexivity. - intros []; apply rx_same_refl. - eexists. split; [reflexivity|]. constructor; [exact I|constructor]. Qed.
Lemma ctimer_frame : forall c b, frame c (set_ctimer c b).
Proof. intros. constructor; try reflexivity. - intros []; apply rx_same_refl. - exists []. rewrite app_nil_r. auto using txonly_nil. Qed.

Lemma sendmsg_frame : forall c p g c', sendmsg c p g = Ok c' -> frame c c'.
Proof. intros c p g c' H. unfold sendmsg in H. destruct (encode p); cbn [bind] in H; [|discriminate]. injection H as <-. apply emit_frame. Qed.

(** set_acks changes ackpending and hold only. *)
Lemma set_acks_frame : forall c ch x p g c' p' g', set_acks c ch x p g = (c', p', g') -> frame c c' /\ clog c' = clog c /\
  forall k, pending (getc c' k) = pending (getc c k) /\ nextseg (getc c' k) = nextseg (getc c k) /\ maxseqsent (getc c' k) = maxseqsent (getc c k)
    /\ maxackseg (getc c' k) = maxackseg (getc c k) /\ nextmsg (getc c' k) = nextmsg (getc c k) /\ maxseg (getc c' k) = maxseg (getc c k)
    /\ maxmsg (getc c' k) = maxmsg (getc c k) /\ xon (getc c' k) = xon (getc c k) /\ flow (getc c' k) = flow (getc c k) /\ seqnum (getc c' k) = seqnum (getc c k).
Proof.
  intros c ch x p g c' p' g' H. unfold set_acks in H.
  destruct ch; cbn [getc putc cross] in H; destruct (x || _); destruct (cphase c =? 4);
    repeat match type of H with context [if ?b then _ else _] => destruct b end; injection H as <- <- <-;
    (split; [|split; [reflexivity|intros k; destruct k; repeat split; reflexivity]]);
    (constructor; try reflexivity; [intros []; repeat split|exists []; rewrite app_nil_r; split; [reflexivity|constructor]]).
Qed.
Lemma send_ack_frame : forall c ch c', send_ack c ch = Ok c' -> frame c c'.
Proof.
  intros c ch c' H. unfold send_ack in H. destruct (set_acks _ ch true _ _) as [[c1 p1] g] eqn:E.
  apply set_acks_frame in E as (E & _). eapply frame_trans; [|eapply frame_trans; [exact E|]].
  - apply putc_same_frame. repeat split.
  - eapply sendmsg_frame. exact H.
Qed.
Lemma tx_send_frame : forall c ch i c', tx_send c ch i = Ok c' -> frame c c'.
Proof.
  intros c ch i c' H. unfold tx_send in H. destruct (nth_error _ i) as [e|]; [|discriminate].
  destruct (fill_packet c ch e) as [[c1 p1] g] eqn:E.
  assert (F : frame c c1).
  { unfold fill_packet in E. destruct (tp e); cbn [is_ackhdr] in E; try (injection E as <- <- <-; apply frame_refl); apply set_acks_frame in E; apply E. }
  eapply frame_trans; [exact F|]. eapply frame_trans; [apply (putc_same_frame c1 ch)|eapply sendmsg_frame; exact H]. repeat split.
Qed.
Lemma bump_frame : forall c ch n c', bump c ch n = Ok c' -> frame c c'.
Proof.
  intros c ch n c' H. unfold bump in H. destruct (seqmax _ n) as [m|]; cbn [bind] in H; [|discriminate]. injection H as <-.
  apply putc_same_frame. repeat split.
Qed.
Lemma send_qe_frame : forall cfg c i c' b, send_qe cfg c i = Ok (c', b) -> frame c c'.
Proof.
  intros cfg c i c' b H. unfold send_qe in H. destruct (nth_error _ i) as [e|]; [|discriminate].
  destruct (is_data (tp e) && _); [injection H as <- <-; apply frame_refl|].
  destruct (tx_send c CD i) as [c1|] eqn:E; cbn [bind] in H; [|discriminate]. injection H as <- <-. eapply tx_send_frame. exact E.
Qed.
Lemma blocked_loop_frame : forall cfg n i c c', blocked_loop cfg n i c = Ok c' -> frame c c'.
Proof.
  induction n as [|n IH]; intros i c c' H; cbn [blocked_loop] in H; [injection H as <-; apply frame_refl|].
  destruct (nth_error _ i) as [e|]; [|injection H as <-; apply frame_refl].
  destruct (if tsent e then Ok (c, true) else send_qe cfg c i) as [[c1 go]|] eqn:E; cbn [bind] in H; [|discriminate].
  assert (F : frame c c1) by (destruct (tsent e); [injection E as <- <-; apply frame_refl|eapply send_qe_frame; exact E]).
  destruct go; [|injection H as <-; exact F].
  destruct (if is_data (tp e) then bump c1 CD (segnum (tp e)) else Ok c1) as [c2|] eqn:E2; cbn [bind] in H; [|discriminate].
  eapply frame_trans; [exact F|]. eapply frame_trans; [|eapply IH; exact H].
  destruct (is_data (tp e)); [eapply bump_frame; exact E2|injection E2 as <-; apply frame_refl].
Qed.
Lemma send_blocked_frame : forall cfg c c', send_blocked cfg c = Ok c' -> frame c c'.
Proof. intros cfg c c' H. unfold send_blocked in H. eapply blocked_loop_frame. exact H. Qed.
Lemma data_send_frame : forall cfg c p c', data_send cfg c p = Ok c' -> frame c c'.
Proof.
  intros cfg c p c' H. unfold data_send in H.
  destruct (make_entry cfg c p) as [e s1] eqn:E.
  destruct (send_qe _ _ _) as [[c2 sent]|] eqn:E2; cbn [bind] in H; [|discriminate]. apply send_qe_frame in E2.
  assert (R : rx_same (cdata c) s1) by (destruct p; injection E as <- <-; repeat split).
  eapply frame_trans; [apply (putc_same_frame c CD (set_pending s1 (pending (cdata c) ++ [e]))); exact R|].
  eapply frame_trans; [exact E2|]. destruct (sent && is_data (tp e)); [eapply bump_frame; exact H|injection H as <-; apply frame_refl].
Qed.
Lemma other_send_frame : forall c p c' b, other_send c p = Ok (c', b) -> frame c c'.
Proof.
  intros c p c' b H. unfold other_send in H. destruct (negb (is_ls p) && _); [injection H as <- <-; apply raise_frame|].
  destruct (tx_send _ CO _) as [c2|] eqn:E; cbn [bind] in H; [|discriminate].
  destruct (bump c2 CO (segnum p)) as [c3|] eqn:E3; cbn [bind] in H; [|discriminate]. injection H as <- <-.
  eapply frame_trans; [|eapply frame_trans; [eapply tx_send_frame; exact E|eapply bump_frame; exact E3]].
  apply (putc_same_frame c CO). repeat split.
Qed.
Lemma pop_acked_rx : forall n s s', pop_acked n s = Ok s' -> rx_same s s'.
Proof.
  induction n as [|n IH]; intros s s' H; cbn [pop_acked] in H; [injection H as <-; apply rx_same_refl|].
  destruct (pending s) as [|e t]; [discriminate|]. apply IH in H. exact H.
Qed.
Lemma sub_ack_rx : forall s n s', sub_ack s n = Ok s' -> rx_same s s'.
Proof.
  intros s n s' H. unfold sub_ack in H. destruct (pending s) as [|e t]; [injection H as <-; apply rx_same_refl|].
  destruct (is_int (tp e) || is_data (tp e)); [|eapply pop_acked_rx; exact H].
  destruct (mod_lt 4096 n (segnum (tp e))) as [lo|]; cbn [bind] in H; [|discriminate]. destruct lo; [injection H as <-; apply rx_same_refl|].
  destruct (mod_gt 4096 n (maxseqsent s)) as [hi|]; cbn [bind] in H; [|discriminate]. destruct hi; [injection H as <-; apply rx_same_refl|].
  destruct (mod_sub 4096 n (segnum (tp e))) as [d|]; cbn [bind] in H; [|discriminate].
  destruct (mod_add 4096 d 1) as [k|]; cbn [bind] in H; [|discriminate]. eapply pop_acked_rx. exact H.
Qed.
Lemma chan_ack_frame : forall c ch n c', chan_ack c ch n = Ok c' -> frame c c'.
Proof.
  intros c ch n c' H. unfold chan_ack in H. destruct (sub_ack (getc c ch) n) as [s|] eqn:E; cbn [bind] in H; [|discriminate].
  injection H as <-. apply putc_same_frame. eapply sub_ack_rx. exact E.
Qed.
Lemma base_process_ack_frame : forall c ch a c', base_process_ack c ch a = Ok c' -> frame c c'.
Proof.
  intros c ch [[n q]|] c' H; cbn [base_process_ack] in H; [|injection H as <-; apply frame_refl]. eapply chan_ack_frame. exact H.
Qed.
Lemma send_segs_frame : forall cfg l c c', send_segs cfg c l = Ok c' -> frame c c'.
Proof.
  induction l as [|[[bo eo] pl] l IH]; intros c c' H; cbn [send_segs] in H; [injection H as <-; apply frame_refl|].
  destruct (data_send cfg c _) as [c1|] eqn:E; cbn [bind] in H; [|discriminate].
  eapply frame_trans; [eapply data_send_frame; exact E|eapply IH; exact H].
Qed.
