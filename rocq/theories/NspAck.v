(** Acknowledgments owed by a connection: what the transmitting functions do to
    the flags ackpending and holdoff of the subchannels, and the invariants. *)
From Verif Require Import Base Dict ModuloModel ModuloProps NspPktModel NspModel NspFrame NspPrim NspRx NspSend NspSendInv NspFlow NspRetx NspTags NspRxProps.

(** The number [n] was sent as acknowledgment of subchannel [k]. *)
Definition says (k : chan) (n : Z) (l : list out) : Prop := exists p g, In (OTx p g) l /\ In (k, n) (eacks p).
Definition told (k : chan) (n : Z) (log : list out) : Prop := exists l1 l2, log = l1 ++ l2 /\ delivered k l2 = [] /\ says k n l2.
Lemma says_app : forall k n a b, says k n a \/ says k n b -> says k n (a ++ b).
Proof. intros k n a b [(p & g & A & B)|(p & g & A & B)]; exists p, g; split; auto; apply in_or_app; auto. Qed.
Lemma told_ext : forall k n a b, delivered k b = [] -> told k n a \/ says k n b -> told k n (a ++ b).
Proof.
  intros k n a b D [(l1 & l2 & -> & D2 & S)|S].
  - exists l1, (l2 ++ b). split; [symmetry; apply app_assoc|]. split; [rewrite delivered_app, D2, D; reflexivity|]. apply says_app. auto.
  - exists a, b. auto.
Qed.

(** The flags of [s'] after a function that may have acknowledged subchannel
    [k] in the output [l]. *)
Definition flags (k : chan) (s s' : sub) (l : list out) : Prop :=
  (ackpending s' = ackpending s /\ hold s' = hold s) \/ (ackpending s' = false /\ hold s' = false /\ says k (acknum s) l).
Record ah (c c' : conn) : Prop := mk_ah {
  ah_log : exists l, clog c' = clog c ++ l /\ (forall k, delivered k l = []) /\ forall k, flags k (getc c k) (getc c' k) l;
  ah_num : forall k, acknum (getc c' k) = acknum (getc c k) }.
Lemma ah_refl : forall c, ah c c.
Proof. intros c. constructor; [|reflexivity]. exists []. rewrite app_nil_r. split; [reflexivity|]. split; [reflexivity|]. intros k. left. auto. Qed.
Lemma ah_trans : forall a b c, ah a b -> ah b c -> ah a c.
Proof.
  intros a b c [(l & L & D & F) N] [(m & M & E & G) O]. constructor; [|intros k; rewrite O; apply N].
  exists (l ++ m). split; [rewrite M, L, app_assoc; reflexivity|]. split; [intros k; rewrite delivered_app, D, E; reflexivity|].
  intros k. destruct (F k) as [[F1 F2]|(F1 & F2 & F3)], (G k) as [[G1 G2]|(G1 & G2 & G3)].
  - left. split; congruence.
  - right. split; [exact G1|]. split; [exact G2|]. apply says_app. right. rewrite <- N. exact G3.
  - right. split; [congruence|]. split; [congruence|]. apply says_app. auto.
  - right. split; [exact G1|]. split; [exact G2|]. apply says_app. auto.
Qed.
(** Nothing is sent, the flags stay. *)
Definition fl_same (s s' : sub) : Prop := ackpending s' = ackpending s /\ hold s' = hold s /\ acknum s' = acknum s.
Lemma ah_same : forall c c' l, (forall k, fl_same (getc c k) (getc c' k)) -> clog c' = clog c ++ l -> (forall k, delivered k l = []) -> ah c c'.
Proof.
  intros c c' l F L D. constructor; [|intros k; apply F]. exists l. split; [exact L|]. split; [exact D|]. intros k. left. destruct (F k) as (A & B & _). auto.
Qed.
Lemma ah_same0 : forall c c', (forall k, fl_same (getc c k) (getc c' k)) -> clog c' = clog c -> ah c c'.
Proof. intros c c' F L. apply (ah_same c c' []); rewrite ?app_nil_r; auto. Qed.
Lemma fl_refl : forall s, fl_same s s.
Proof. repeat split. Qed.
Lemma ah_putc : forall c ch s, fl_same (getc c ch) s -> ah c (putc c ch s).
Proof. intros c ch s F. apply ah_same0; [|destruct ch; reflexivity]. intros k. destruct k, ch; cbn [putc getc cdata coth set_cdata set_coth] in *; auto using fl_refl. Qed.
Lemma ah_emit : forall c o, delivered CD [o] = [] -> delivered CO [o] = [] -> ah c (emit c o).
Proof. intros c o A B. apply (ah_same c _ [o]); [intros []; apply fl_refl|reflexivity|intros []; auto]. Qed.

(** ** set_acks *)
Lemma acks_flags : forall c ch x p g c' p' g', set_acks c ch x p g = (c', p', g') -> is_ackhdr p = true -> chan_of p = ch ->
  (forall k t, flags k (getc c k) (getc c' k) [OTx p' t]) /\ (forall k, acknum (getc c' k) = acknum (getc c k)) /\ clog c' = clog c /\
  (x = true -> ackpending (getc c' ch) = false /\ hold (getc c' ch) = false /\ forall t, says ch (acknum (getc c ch)) [OTx p' t]) /\
  (ack2 p' = ack2 p \/ cphase c = 4).
Proof.
  intros c ch x p g c' p' g' H AH CH.
  assert (SAY : forall k n q t, In (k, n) (eacks q) -> says k n [OTx q t]) by (intros k n q t X; exists q, t; split; [left; reflexivity|exact X]).
  unfold set_acks in H. destruct (x || ackpending (getc c ch)) eqn:X.
  - set (p1 := set_ack1 p (Some (acknum (getc c ch), 0))) in *. set (c1 := putc c ch (set_hold (set_ackpending (getc c ch) false) false)) in *.
    assert (E1 : forall t, says ch (acknum (getc c ch)) [OTx p1 t]).
    { intros t. apply SAY. unfold p1. destruct p; try discriminate AH; cbn [set_ack1 eacks is_ackhdr dacks ack1 ack2]; cbn [chan_of] in CH |- *; subst ch; left; reflexivity. }
    destruct (cphase c =? 4) eqn:P4; [destruct (ackpending (getc c1 (cross ch))) eqn:X2|]; injection H as <- <- <-.
    + assert (E2 : forall t, says ch (acknum (getc c ch)) [OTx (set_ack2 p1 (Some (acknum (getc c1 (cross ch)), 2))) t]).
      { intros t. apply SAY. unfold p1. destruct p; try discriminate AH; cbn [set_ack1 set_ack2 eacks is_ackhdr dacks ack1 ack2]; cbn [chan_of] in CH |- *; subst ch; left; reflexivity. }
      assert (E3 : forall t, says (cross ch) (acknum (getc c (cross ch))) [OTx (set_ack2 p1 (Some (acknum (getc c1 (cross ch)), 2))) t]).
      { intros t. apply SAY. unfold p1, c1. destruct p; try discriminate AH; cbn [set_ack1 set_ack2 eacks is_ackhdr dacks ack1 ack2]; cbn [chan_of] in CH |- *; subst ch; right; left; reflexivity. }
      split; [|split; [intros k; destruct k, ch; reflexivity|split; [destruct ch; reflexivity|split]]].
      * intros k t. assert (KC : k = ch \/ k = cross ch) by (destruct k, ch; auto). right. destruct KC as [-> | -> ]; (split; [destruct ch; reflexivity|split; [destruct ch; reflexivity|auto]]).
      * intros _. split; [destruct ch; reflexivity|]. split; [destruct ch; reflexivity|exact E2].
      * right. lia.
    + split; [|split; [intros k; destruct k, ch; reflexivity|split; [destruct ch; reflexivity|split]]].
      * intros k t. assert (KC : k = ch \/ k = cross ch) by (destruct k, ch; auto). destruct KC as [-> | -> ]; [right; split; [destruct ch; reflexivity|split; [destruct ch; reflexivity|auto]]|left; destruct ch; auto].
      * intros _. split; [destruct ch; reflexivity|]. split; [destruct ch; reflexivity|exact E1].
      * left. unfold p1. destruct p; reflexivity.
    + split; [|split; [intros k; destruct k, ch; reflexivity|split; [destruct ch; reflexivity|split]]].
      * intros k t. assert (KC : k = ch \/ k = cross ch) by (destruct k, ch; auto). destruct KC as [-> | -> ]; [right; split; [destruct ch; reflexivity|split; [destruct ch; reflexivity|auto]]|left; destruct ch; auto].
      * intros _. split; [destruct ch; reflexivity|]. split; [destruct ch; reflexivity|exact E1].
      * left. unfold p1. destruct p; reflexivity.
  - assert (XF : x = true -> False) by (intros ->; discriminate X).
    destruct (cphase c =? 4) eqn:P4; [destruct (ackpending (getc c (cross ch))) eqn:X2|]; injection H as <- <- <-.
    + assert (E3 : forall t, says (cross ch) (acknum (getc c (cross ch))) [OTx (set_ack2 p (Some (acknum (getc c (cross ch)), 2))) t]).
      { intros t. apply SAY. destruct p; try discriminate AH; cbn [set_ack1 set_ack2 eacks is_ackhdr dacks ack1 ack2]; cbn [chan_of] in CH |- *; subst ch; apply in_or_app; right; left; reflexivity. }
      split; [|split; [intros k; destruct k, ch; reflexivity|split; [destruct ch; reflexivity|split; [tauto|right; lia]]]].
      intros k t. assert (KC : k = ch \/ k = cross ch) by (destruct k, ch; auto). destruct KC as [-> | -> ]; [left; destruct ch; auto|right; split; [destruct ch; reflexivity|split; [destruct ch; reflexivity|auto]]].
    + split; [intros k t; left; auto|]. split; [auto|]. split; [auto|]. split; [tauto|auto].
    + split; [intros k t; left; auto|]. split; [auto|]. split; [auto|]. split; [tauto|auto].
Qed.
Lemma send_ack_ah : forall c ch c', send_ack c ch = Ok c' -> ackpending (getc c' ch) = false /\ hold (getc c' ch) = false /\
  (forall k, acknum (getc c' k) = acknum (getc c k)) /\ exists l, clog c' = clog c ++ l /\ (forall k, delivered k l = []) /\ says ch (acknum (getc c ch)) l /\
  (forall k, k <> ch -> flags k (getc c k) (getc c' k) l).
Proof.
  intros c ch c' H. unfold send_ack in H. set (c0 := putc c ch _) in *. set (p := match ch with CD => _ | CO => _ end) in *.
  destruct (set_acks c0 ch true p (None, None)) as [[c1 p1] g] eqn:SA. apply sendmsg_log in H. subst c'.
  destruct (acks_flags _ _ _ _ _ _ _ _ SA) as (A & B & C & D & _); [destruct ch; reflexivity|destruct ch; reflexivity|].
  destruct (D eq_refl) as (D1 & D2 & D3).
  split; [destruct ch; exact D1|]. split; [destruct ch; exact D2|]. split; [intros k; specialize (B k); unfold c0 in B; destruct k, ch; exact B|].
  eexists. split; [cbn [emit clog set_clog]; rewrite C; unfold c0; destruct ch; reflexivity|]. split; [intros []; reflexivity|].
  split; [unfold c0 in D3; destruct ch; apply D3|]. intros k NE. specialize (A k (mk_tag 0 0 (fst g) (snd g))). unfold c0 in A. destruct k, ch; try congruence; exact A.
Qed.
(** Also of use when the holdoff timer of [ch] has just been cleared. *)
Lemma ah_sendack : forall c ch c', send_ack c ch = Ok c' -> ah c c'.
Proof.
  intros c ch c' H. destruct (send_ack_ah _ _ _ H) as (A & B & N & l & L & D & S & F). constructor; [|exact N]. exists l. split; [exact L|]. split; [exact D|].
  intros k. destruct (match k, ch with CD, CD | CO, CO => true | _, _ => false end) eqn:Q.
  - assert (k = ch) by (destruct k, ch; try discriminate Q; reflexivity). subst k. right. auto.
  - apply F. intros ->. destruct ch; discriminate Q.
Qed.
Lemma tx_send_ah : forall c ch i c', TI c -> tx_send c ch i = Ok c' -> ah c c'.
Proof.
  intros c ch i c' T H. unfold tx_send in H. destruct (nth_error (pending (getc c ch)) i) as [e|] eqn:N; [|discriminate].
  destruct (fill_packet c ch e) as [[c1 p1] g] eqn:F. apply sendmsg_log in H. subst c'.
  set (t := mk_tag (tseg e) (tmsg e) (fst g) (snd g)) in *. set (e1 := mk_txe p1 _ _ _ _ _ _ _) in *.
  assert (K : (forall k, flags k (getc c k) (getc c1 k) [OTx p1 t]) /\ (forall k, acknum (getc c1 k) = acknum (getc c k)) /\ clog c1 = clog c).
  { destruct (is_ackhdr (tp e)) eqn:AH.
    - destruct (t_ent _ T ch e (nth_error_In _ _ N) AH) as [CH _].
      assert (F2 : set_acks c ch false (tp e) (tgd e, tgo e) = (c1, p1, g)) by (unfold fill_packet in F; destruct (tp e); try discriminate AH; exact F).
      destruct (acks_flags _ _ _ _ _ _ _ _ F2 AH CH) as (A & B & C & _). auto.
    - unfold fill_packet in F. destruct (tp e); try discriminate AH; injection F as <- <- <-; split; auto; intros k; left; auto. }
  destruct K as (A & B & C). constructor.
  - exists [OTx p1 t]. split; [cbn [emit clog set_clog]; rewrite <- C; destruct ch; reflexivity|]. split; [intros []; reflexivity|].
    intros k. specialize (A k). destruct k, ch; exact A.
  - intros k. specialize (B k). destruct k, ch; exact B.
Qed.
Lemma bump_ah : forall c ch n c', bump c ch n = Ok c' -> ah c c'.
Proof. intros c ch n c' H. unfold bump in H. destruct (seqmax _ n); cbn [bind] in H; [|discriminate]. injection H as <-. apply ah_putc. repeat split. Qed.
Lemma send_qe_ah : forall cfg c i c' b, TI c -> send_qe cfg c i = Ok (c', b) -> ah c c' /\ TI c'.
Proof.
  intros cfg c i c' b T H. unfold send_qe in H. destruct (nth_error _ i); [|discriminate]. destruct (_ && _); [injection H as <- <-; auto using ah_refl|].
  destruct (tx_send c CD i) as [c1|] eqn:E; cbn [bind] in H; [|discriminate]. injection H as <- <-. split; [eapply tx_send_ah; eauto|eapply TI_tx; eauto].
Qed.
Lemma blocked_ah : forall cfg n i c c', TI c -> blocked_loop cfg n i c = Ok c' -> ah c c' /\ TI c'.
Proof.
  intros cfg. induction n as [|n IH]; intros i c c' T H; cbn [blocked_loop] in H; [injection H as <-; auto using ah_refl|].
  destruct (nth_error _ i) as [e|]; [|injection H as <-; auto using ah_refl].
  destruct (if tsent e then Ok (c, true) else send_qe cfg c i) as [[c1 go]|] eqn:E; cbn [bind] in H; [|discriminate].
  assert (K : ah c c1 /\ TI c1) by (destruct (tsent e); [injection E as <- <-; auto using ah_refl|eapply send_qe_ah; eauto]). destruct K as [K T1].
  destruct go; [|injection H as <-; auto].
  destruct (if is_data (tp e) then bump c1 CD (segnum (tp e)) else Ok c1) as [c2|] eqn:B; cbn [bind] in H; [|discriminate].
  assert (K2 : ah c1 c2 /\ TI c2) by (destruct (is_data (tp e)); [split; [eapply bump_ah; eauto|eapply TI_bump; eauto]|injection B as <-; auto using ah_refl]).
  destruct K2 as [K2 T2]. destruct (IH _ _ _ T2 H) as [K3 T3]. split; [|exact T3]. eauto using ah_trans.
Qed.
Lemma data_send_ah : forall cfg c p c', TI c -> ack1 p = None -> ack2 p = None -> (is_ackhdr p = true -> is_data p = true) -> data_send cfg c p = Ok c' -> ah c c'.
Proof.
  intros cfg c p c' T A1 A2 A3 H. unfold data_send in H. destruct (make_entry cfg c p) as [e s1] eqn:M. set (c1 := set_cdata c _) in *.
  assert (S1 : fl_same (cdata c) s1 /\ acknum s1 = acknum (cdata c) /\ rcvd s1 = rcvd (cdata c) /\ (is_ackhdr (tp e) = true -> chan_of (tp e) = CD /\ ack1 (tp e) = None /\ ack2 (tp e) = None))
    by (destruct p; cbn [is_ackhdr is_data] in A3; try (discriminate (A3 eq_refl)); injection M as <- <-; repeat split; auto; discriminate).
  destruct S1 as (S1 & S2 & S3 & S4).
  assert (K1 : ah c c1) by (apply (ah_putc c CD); exact S1).
  assert (T1 : TI c1).
  { apply (TI_keep c c1 []); auto; try (rewrite app_nil_r; reflexivity).
    - intros k x IN. destruct k; [|auto]. cbn in IN. apply in_app_or in IN as [IN|[<-|[]]]; auto.
    - intros k (N1 & N2). destruct k; [|split; assumption]. unfold num_ok. cbn in *. rewrite S2, S3. auto.
    - cbn. rewrite S3. lia.
    - constructor. }
  clearbody c1. clear T. destruct (send_qe cfg c1 _) as [[c2 b]|] eqn:Q; cbn [bind] in H; [|discriminate].
  destruct (send_qe_ah _ _ _ _ _ T1 Q) as [K2 T2]. eapply ah_trans; [exact K1|]. eapply ah_trans; [exact K2|].
  destruct (_ && _); [eapply bump_ah; eauto|injection H as <-; apply ah_refl].
Qed.
Lemma other_send_ah : forall c p c' b, TI c -> chan_of p = CO -> ack1 p = None -> ack2 p = None -> other_send c p = Ok (c', b) -> ah c c'.
Proof.
  intros c p c' b T CH A1 A2 H. unfold other_send in H. destruct (_ && _); [injection H as <- <-; apply ah_emit; reflexivity|].
  set (c1 := set_coth c _) in *. assert (K1 : ah c c1) by (apply (ah_putc c CO); repeat split).
  assert (T1 : TI c1).
  { apply (TI_keep c c1 []); auto; try (rewrite app_nil_r; reflexivity).
    - intros k x IN. destruct k; [auto|]. cbn in IN. apply in_app_or in IN as [IN|[<-|[]]]; auto.
    - intros k (N1 & N2). destruct k; split; assumption.
    - cbn. lia.
    - constructor. }
  clearbody c1. destruct (tx_send c1 CO _) as [c2|] eqn:E; cbn [bind] in H; [|discriminate]. destruct (bump c2 CO _) as [c3|] eqn:B; cbn [bind] in H; [|discriminate].
  injection H as <- <-. eapply ah_trans; [exact K1|]. eapply ah_trans; [eapply tx_send_ah; eauto|eapply bump_ah; eauto].
Qed.
Lemma pop_fl : forall n s s', pop_acked n s = Ok s' -> fl_same s s'.
Proof. induction n as [|n IH]; intros s s' H; cbn [pop_acked] in H; [injection H as <-; apply fl_refl|]. destruct (pending s); [discriminate|]. apply IH in H. exact H. Qed.
Lemma sub_ack_fl : forall s n s', sub_ack s n = Ok s' -> fl_same s s'.
Proof.
  intros s n s' H. unfold sub_ack in H. destruct (pending s); [injection H as <-; apply fl_refl|]. destruct (_ || _); [|eapply pop_fl; exact H].
  destruct (mod_lt _ _ _) as [[]|]; cbn [bind] in H; [injection H as <-; apply fl_refl| |discriminate].
  destruct (mod_gt _ _ _) as [[]|]; cbn [bind] in H; [injection H as <-; apply fl_refl| |discriminate].
  destruct (mod_sub _ _ _); cbn [bind] in H; [|discriminate]. destruct (mod_add _ _ _); cbn [bind] in H; [|discriminate]. eapply pop_fl. exact H.
Qed.
Lemma chan_ack_ah : forall c ch n c', chan_ack c ch n = Ok c' -> ah c c'.
Proof. intros c ch n c' H. unfold chan_ack in H. destruct (sub_ack _ _) eqn:E; cbn [bind] in H; [|discriminate]. injection H as <-. apply ah_putc. eapply sub_ack_fl. exact E. Qed.
Lemma to_sc_ah : forall c p r, ah c (to_sc c p r).
Proof. intros c p r. destruct (to_sc_log c p r) as (l & L & D & G & _). apply (ah_same _ _ l); auto. intros k. rewrite G. apply fl_refl. Qed.
Lemma send_segs_ah : forall cfg l c c', TI c -> send_segs cfg c l = Ok c' -> ah c c'.
Proof.
  intros cfg. induction l as [|[[bo eo] pl] l IH]; intros c c' T H; cbn [send_segs] in H; [injection H as <-; apply ah_refl|].
  destruct (data_send cfg c _) as [c1|] eqn:E; cbn [bind] in H; [|discriminate].
  eapply ah_trans; [eapply data_send_ah; [exact T|..|exact E]; auto|]. eapply IH; [|exact H]. eapply TI_data_send; [exact T|..|exact E]; reflexivity || (intros; reflexivity).
Qed.

(** ** What has been received is acknowledged, or an acknowledgment is pending *)
Record AJ (c : conn) : Prop := mk_AJ {
  j_num : forall k, acknum (getc c k) = zlen (delivered k (clog c)) mod 4096;
  j_told : forall k, ackpending (getc c k) = false -> delivered k (clog c) = [] \/ told k (acknum (getc c k)) (clog c) }.
(** As [ah], the holdoff timers aside. *)
Record aw (c c' : conn) : Prop := mk_aw {
  aw_log : exists l, clog c' = clog c ++ l /\ (forall k, delivered k l = []) /\
    forall k, ackpending (getc c' k) = ackpending (getc c k) \/ ackpending (getc c' k) = false /\ says k (acknum (getc c k)) l;
  aw_num : forall k, acknum (getc c' k) = acknum (getc c k) }.
Lemma aw_refl : forall c, aw c c.
Proof. intros c. constructor; [|reflexivity]. exists []. rewrite app_nil_r. split; [reflexivity|]. split; [reflexivity|]. intros k. left. auto. Qed.
Lemma ah_aw : forall c c', ah c c' -> aw c c'.
Proof.
  intros c c' [(l & L & D & F) N]. constructor; [|exact N]. exists l. split; [exact L|]. split; [exact D|].
  intros k. destruct (F k) as [(A & _)|(A & _ & B)]; auto.
Qed.
Lemma aw_trans : forall a b c, aw a b -> aw b c -> aw a c.
Proof.
  intros a b c [(l & L & D & F) N] [(m & M & E & G) O]. constructor; [|intros k; rewrite O; apply N].
  exists (l ++ m). split; [rewrite M, L, app_assoc; reflexivity|]. split; [intros k; rewrite delivered_app, D, E; reflexivity|].
  intros k. destruct (G k) as [G1|[G1 G2]].
  - destruct (F k) as [F1|[F1 F2]]; [left; congruence|right]. split; [congruence|]. apply says_app. auto.
  - right. split; [exact G1|]. apply says_app. rewrite <- N. auto.
Qed.
Lemma aw_AJ : forall c c', aw c c' -> AJ c -> AJ c'.
Proof.
  intros c c' [(l & L & D & F) N] [A B]. constructor.
  - intros k. rewrite N, L, delivered_app, D, app_nil_r. apply A.
  - intros k P. rewrite L, delivered_app, D, app_nil_r, N. destruct (F k) as [E|[_ S]].
    + rewrite E in P. destruct (B k P) as [X|X]; [auto|]. right. apply told_ext; [apply D|auto].
    + right. apply told_ext; [apply D|auto].
Qed.
Lemma aw_same0 : forall c c', (forall k, ackpending (getc c' k) = ackpending (getc c k) /\ acknum (getc c' k) = acknum (getc c k)) -> clog c' = clog c -> aw c c'.
Proof.
  intros c c' F L. constructor; [|intros k; apply F]. exists []. rewrite app_nil_r. split; [exact L|]. split; [reflexivity|]. intros k. left. apply F.
Qed.
Lemma putc_aw : forall c ch s, ackpending s = ackpending (getc c ch) -> acknum s = acknum (getc c ch) -> aw c (putc c ch s).
Proof. intros c ch s A B. apply aw_same0; [|destruct ch; reflexivity]. intros k. destruct k, ch; cbn [putc getc cdata coth set_cdata set_coth] in *; auto. Qed.
Lemma close_aw : forall c c', cdata c' = sub_close (cdata c) -> coth c' = sub_close (coth c) -> clog c' = clog c -> aw c c'.
Proof. intros c c' A B C. apply aw_same0; [|exact C]. intros []; cbn [getc]; rewrite ?A, ?B; auto. Qed.
Lemma grant_fl : forall s m v s1, grant s m v = Some s1 -> fl_same s s1.
Proof.
  intros s m v s1 H. unfold grant in H. repeat match type of H with context [if ?b then _ else _] => destruct b end; try discriminate; injection H as <-; repeat split.
Qed.
Lemma credit_aw : forall c p, aw c (credit c p).
Proof.
  intros c p. destruct p; try apply aw_refl. cbn [credit]. destruct (_ =? 0).
  - destruct (grant _ _ _) eqn:G; [|apply aw_refl]. apply grant_fl in G as (A & B & C). apply (putc_aw c CD); auto.
  - unfold other_ls. destruct (_ <=? _); [|apply aw_refl]. apply (putc_aw c CO); auto.
Qed.
Lemma num_next : forall n m, 0 <= n -> mod_add 4096 (n mod 4096) 1 = Ok m -> m = (n + 1) mod 4096.
Proof. exact mod_next. Qed.
Lemma acc_AJ : forall c ch num p, AJ c -> mod_add 4096 (acknum (getc c ch)) 1 = Ok num -> AJ (acc c ch num p).
Proof.
  intros c ch num p [A B] M. set (c1 := emit (putc c ch (set_rcvd (set_ackpending (set_acknum (getc c ch) num) true) (rcvd (getc c ch) + 1))) (ODeliver ch p)).
  assert (L1 : clog c1 = clog c ++ [ODeliver ch p]) by (destruct ch; reflexivity).
  assert (J : AJ c1).
  { rewrite A in M. apply num_next in M; [|apply zlen_nonneg]. constructor.
    - intros k. rewrite L1, delivered_app. destruct (match k, ch with CD, CD | CO, CO => true | _, _ => false end) eqn:Q.
      + assert (k = ch) by (destruct k, ch; try discriminate Q; reflexivity). subst k. assert (X : delivered ch [ODeliver ch p] = [p]) by (destruct ch; reflexivity). rewrite X, zlen_app, zlen_cons, zlen_nil.
        assert (Y : acknum (getc c1 ch) = num) by (destruct ch; reflexivity). rewrite Y, M. f_equal.
      + assert (X : delivered k [ODeliver ch p] = []) by (destruct k, ch; try discriminate Q; reflexivity). rewrite X, app_nil_r, <- A. destruct k, ch; try discriminate Q; reflexivity.
    - intros k P. destruct (match k, ch with CD, CD | CO, CO => true | _, _ => false end) eqn:Q.
      + assert (k = ch) by (destruct k, ch; try discriminate Q; reflexivity). subst k. destruct ch; discriminate P.
      + assert (X : delivered k [ODeliver ch p] = []) by (destruct k, ch; try discriminate Q; reflexivity). rewrite L1, delivered_app, X, app_nil_r.
        assert (Y : ackpending (getc c1 k) = ackpending (getc c k) /\ acknum (getc c1 k) = acknum (getc c k)) by (destruct k, ch; try discriminate Q; split; reflexivity). destruct Y as [Y1 Y2]. rewrite Y1 in P. rewrite Y2.
        destruct (B k P) as [Z0|Z0]; [auto|right]. apply told_ext; auto. }
  assert (E : acc c ch num p = match ch with CD => to_sc c1 p false | CO => if is_ls p then credit c1 p else to_sc c1 p false end) by reflexivity.
  rewrite E. destruct ch; [eapply aw_AJ; [apply ah_aw, to_sc_ah|exact J]|]. destruct (is_ls p); eapply aw_AJ; try exact J; [apply credit_aw|apply ah_aw, to_sc_ah].
Qed.
Lemma put_entry_ah : forall c ch i e, ah c (put_entry c ch i e).
Proof. intros. apply ah_putc. repeat split. Qed.
Lemma prim_AJ : forall cfg arr b l c c', prim cfg arr b l c c' -> TI c -> AJ c -> AJ c'.
Proof.
  intros cfg arr b l c c' H T J. 
  assert (G : aw c c' -> AJ c') by (intros X; eapply aw_AJ; eauto).
  assert (SC : forall k, cdata k = cdata c -> coth k = coth c -> clog k = clog c -> aw c k) by (intros k X Y Z0; apply aw_same0; [intros []; cbn [getc]; rewrite ?X, ?Y; auto|exact Z0]).
  destruct H; try (lazymatch goal with |- AJ (acc _ _ _ _) => fail | _ => apply G; clear G end).
  - destruct H. apply SC; auto.
  - apply SC; reflexivity.
  - apply SC; reflexivity.
  - eapply aw_trans; [|apply ah_aw; eapply data_send_ah; [| | | |exact H0]; [now apply (TI_scal c)|reflexivity..|discriminate]]. apply SC; reflexivity.
  - apply SC; reflexivity.
  - unfold disc_rej in H0. destruct (_ || _ || _) in H0; [discriminate|].
    eapply aw_trans; [|eapply aw_trans; [apply ah_aw; eapply data_send_ah; [| | | |exact H0]; [now apply (TI_close c)|reflexivity..|discriminate]|apply aw_same0; [intros []; auto|reflexivity]]].
    apply close_aw; reflexivity.
  - apply close_aw; reflexivity.
  - apply ah_aw, ah_emit; reflexivity.
  - apply ah_aw, ah_emit; reflexivity.
  - apply sendmsg_log in H2. subst c'. apply ah_aw, ah_emit; reflexivity.
  - apply ah_aw. eapply ah_sendack; eauto.
  - apply putc_aw; reflexivity.
  - apply (putc_aw c CD); reflexivity.
  - apply ah_aw. eapply ah_trans; [eapply tx_send_ah; eauto|eapply bump_ah; eauto].
  - apply ah_aw. eapply tx_send_ah; eauto.
  - apply ah_aw. eapply bump_ah; eauto.
  - destruct p; try discriminate H0. injection H2 as <- <-. apply (putc_aw c CD); reflexivity.
  - eapply aw_trans; [apply ah_aw; eapply other_send_ah; [exact T| | | |exact H]; reflexivity|]. apply (putc_aw c1 CO); reflexivity.
  - eapply aw_trans; [|apply ah_aw; eapply other_send_ah; [| | | |exact H1]; [apply (TI_putc0 c CO); [exact T|reflexivity..]|reflexivity..]]. apply (putc_aw c CO); reflexivity.
  - apply ah_aw. eapply chan_ack_ah; eauto.
  - apply ah_aw. eapply chan_ack_ah; eauto.
  - apply putc_aw; reflexivity.
  - now apply acc_AJ.
  - apply acc_AJ; [|destruct ch; exact H1]. eapply aw_AJ; [|exact J]. apply putc_aw; reflexivity.
  - eapply aw_trans; [apply ah_aw, put_entry_ah|]. apply ah_aw. eapply tx_send_ah; [|exact H3]. eapply TI_put; [exact T|exact H|reflexivity..].
  - apply ah_aw, put_entry_ah.
  - apply ah_aw, put_entry_ah.
  - eapply aw_trans; [apply ah_aw, put_entry_ah|]. eapply aw_trans; [apply ah_aw, to_sc_ah|]. apply close_aw; reflexivity.
Qed.
Lemma step_AJ : forall cfg c e c', 1 <= phase cfg -> ev_ok e -> TI c -> AJ c -> cstep cfg c e = Ok c' -> AJ c'.
Proof.
  intros cfg c e c' PH EO T J H. destruct (is_send e) eqn:S.
  - destruct e; try discriminate S. cbn [cstep] in H. unfold conn_send in H.
    destruct (cst c) eqn:ST; cbn [cstate_eqb negb orb] in H; try (injection H as <-; eapply aw_AJ; [apply ah_aw, ah_emit; reflexivity|exact J]).
    destruct (cshut c); [injection H as <-; eapply aw_AJ; [apply ah_aw, ah_emit; reflexivity|exact J]|]. destruct (csegsize c =? 0); [discriminate|].
    eapply aw_AJ; [|exact J]. apply ah_aw. eapply ah_trans; [|eapply send_segs_ah; [|exact H]]; [apply ah_emit; reflexivity|apply TI_emit; [exact T|apply quiet_one; exact I]].
  - assert (K : TI c' /\ AJ c'); [|apply K].
    eapply (star_inv cfg (ev_arr e) false (fun c => TI c /\ AJ c)); [intros l a b X [X1 X2]; split; [eapply TI_prim; eauto|eapply prim_AJ; eauto]|eapply step_star; eauto|auto].
Qed.
Lemma fresh_AJ : forall c, (forall ch, acknum (getc c ch) = 0) -> (forall ch, delivered ch (clog c) = []) -> AJ c.
Proof. intros c A B. constructor; [intros k; rewrite A, B; reflexivity|]. intros k _. left. apply B. Qed.
Lemma cexec_AJ : forall cfg c, 1 <= phase cfg -> cexec cfg c -> TI c /\ AJ c.
Proof.
  intros cfg c PH H. induction H as [src dest x c H|src dest p c H|c e c' H IH EO E].
  - split; [eapply TI_outbound; eauto|]. destruct (out_init _ _ _ _ _ H) as (A & [B _] & _). apply fresh_AJ; [intros k; apply A|exact B].
  - split; [eapply TI_inbound; eauto|]. destruct (in_init _ _ _ _ _ H) as (A & [B _] & _). apply fresh_AJ; [intros k; apply A|exact B].
  - destruct IH as [T J]. split; [eapply TI_step; eauto|eapply step_AJ; eauto].
Qed.

(** ** While the connection is not shutting down, an acknowledgment that is
    pending has its holdoff timer running *)
Definition HI (c : conn) : Prop := over (cst c) = false -> forall k, ackpending (getc c k) = true -> hold (getc c k) = true.
Definition soft (s s' : sub) : Prop := (ackpending s' = ackpending s /\ hold s' = hold s) \/ ackpending s' = false.
Lemma soft_refl : forall s, soft s s.
Proof. left. auto. Qed.
Lemma soft_trans : forall a b c, soft a b -> soft b c -> soft a c.
Proof. intros a b c A [[B1 B2]|B]; [|right; exact B]. destruct A as [[A1 A2]|A]; [left; split; congruence|right; congruence]. Qed.
Lemma fl_soft : forall s s', fl_same s s' -> soft s s'.
Proof. intros s s' (A & B & _). left. auto. Qed.
Lemma ah_soft : forall c c', ah c c' -> forall k, soft (getc c k) (getc c' k).
Proof. intros c c' [(l & L & D & F) N] k. destruct (F k) as [A|(A & B & _)]; [left; exact A|right; exact A]. Qed.
Lemma soft_HI : forall c c', (forall k, soft (getc c k) (getc c' k)) -> (over (cst c') = false -> over (cst c) = false) -> HI c -> HI c'.
Proof.
  intros c c' F O H X k P. specialize (H (O X) k). destruct (F k) as [[F1 F2]|F1]; [rewrite F1 in P; rewrite F2; auto|congruence].
Qed.
Lemma ah_HI : forall c c', ah c c' -> cst c' = cst c -> HI c -> HI c'.
Proof. intros c c' A S H. eapply soft_HI; [apply ah_soft; exact A|rewrite S; auto|exact H]. Qed.
Lemma over_HI : forall c, over (cst c) = true -> HI c.
Proof. intros c O X. congruence. Qed.
Lemma same_HI : forall c c', cst c' = cst c \/ over (cst c) = false -> cdata c' = cdata c -> coth c' = coth c -> HI c -> HI c'.
Proof. intros c c' S A B H. apply (soft_HI c); [intros []; cbn [getc]; rewrite ?A, ?B; apply soft_refl|destruct S as [-> |S]; auto|exact H]. Qed.

Lemma base_ack_ah : forall c ch a c', TI c -> base_process_ack c ch a = Ok c' -> ah c c' /\ TI c'.
Proof.
  intros c ch [[n q]|] c' T H; cbn [base_process_ack] in H; [|injection H as <-; auto using ah_refl]. split; [eapply chan_ack_ah; exact H|eapply TI_chan_ack; eauto].
Qed.
Lemma over_disc : forall cfg c r x c1, disc_rej cfg c r x = Ok c1 -> over (cst (set_cst c1 Sdi)) = true.
Proof. reflexivity. Qed.
Lemma process_ack_ah : forall cfg c ch a c', TI c -> process_ack cfg c ch a = Ok c' -> over (cst c') = true \/ (ah c c' /\ TI c' /\ frame c c').
Proof.
  intros cfg c ch a c' T H. destruct ch; cbn [process_ack] in H.
  - unfold data_process_ack in H. destruct (base_process_ack c CD a) as [c1|] eqn:E; cbn [bind] in H; [|discriminate].
    destruct (send_blocked cfg c1) as [c2|] eqn:B; cbn [bind] in H; [|discriminate].
    destruct (base_ack_ah _ _ _ _ T E) as [K1 T1]. destruct (blocked_ah _ _ _ _ _ T1 B) as [K2 T2].
    assert (S2 : cst c2 = cst c) by (rewrite (fr_st _ _ (send_blocked_frame _ _ _ B)), (fr_st _ _ (base_process_ack_frame _ _ _ _ E)); reflexivity).
    assert (K : ah c c2 /\ TI c2 /\ frame c c2) by (split; [eapply ah_trans; eauto|split; [exact T2|eapply frame_trans; [eapply base_process_ack_frame; exact E|eapply send_blocked_frame; exact B]]]).
    destruct (cshut c2); [|injection H as <-; auto]. destruct (pending (cdata c2)); [|injection H as <-; auto].
    destruct (disc_rej cfg c2 _ _) as [c3|] eqn:D; cbn [bind] in H; [|discriminate]. injection H as <-. left. reflexivity.
  - right. destruct (base_ack_ah _ _ _ _ T H) as [K1 T1]. split; [exact K1|]. split; [exact T1|]. exact (base_process_ack_frame _ _ _ _ H).
Qed.
Lemma acc_soft : forall c ch num p k, k <> ch -> soft (getc c k) (getc (acc c ch num p) k).
Proof.
  intros c ch num p k NE. unfold acc. set (c1 := emit _ _). assert (G : getc c1 k = getc c k) by (destruct k, ch; try congruence; reflexivity).
  rewrite <- G. clearbody c1. destruct ch.
  - apply ah_soft, to_sc_ah.
  - destruct (is_ls p); [|apply ah_soft, to_sc_ah]. destruct p; try apply soft_refl. cbn [credit]. destruct (_ =? 0).
    + destruct (grant _ _ _) eqn:GR; [|apply soft_refl]. apply grant_fl in GR. destruct k; [|congruence]. apply fl_soft. exact GR.
    + unfold other_ls. destruct (_ <=? _); [|apply soft_refl]. destruct k; [apply soft_refl|congruence].
Qed.
Lemma process_soft : forall cfg c ch num p c', TI c -> mod_add 4096 (acknum (getc c ch)) 1 = Ok num ->
  process_data cfg (putc c ch (set_rcvd (set_ackpending (set_acknum (getc c ch) num) true) (rcvd (getc c ch) + 1))) ch p = Ok c' ->
  TI c' /\ forall k, k <> ch -> soft (getc c k) (getc c' k).
Proof.
  intros cfg c ch num p c' T M H. pose proof (TI_acc c ch num p T M) as T1.
  assert (G : c' = acc c ch num p \/ send_blocked cfg (acc c ch num p) = Ok c').
  { clear T M T1. unfold process_data in H. unfold acc. destruct ch.
    - injection H as <-. auto.
    - destruct p; cbn [is_ls]; try (injection H as <-; auto; fail). unfold credit.
      destruct (_ =? 0) eqn:Z0 in H; rewrite Z0; [|injection H as <-; auto].
      unfold data_ls in H. set (c2 := emit _ _) in *.
      assert (G : match grant (cdata c2) fcmod fcval with None => Ok c2 | Some s2 => send_blocked cfg (set_cdata c2 s2) end = Ok c').
      { rewrite <- H. unfold grant. destruct (flow (cdata c2) =? 2); [destruct (_ && _); reflexivity|]. destruct (flow (cdata c2) =? 1); [destruct (_ && _); reflexivity|reflexivity]. }
      clear H. destruct (grant (cdata c2) fcmod fcval) as [s2|] eqn:E; [right; exact G|injection G as <-; left; reflexivity]. }
  destruct G as [-> |G]; [split; [exact T1|]; intros k NE; now apply acc_soft|].
  destruct (blocked_ah _ _ _ _ _ T1 G) as [K T2]. split; [exact T2|]. intros k NE. eapply soft_trans; [now apply (acc_soft c ch num p)|]. now apply ah_soft.
Qed.
Lemma loop_soft : forall cfg fuel c ch num p c', TI c -> mod_add 4096 (acknum (getc c ch)) 1 = Ok num -> accept_loop cfg fuel c ch num p = Ok c' ->
  TI c' /\ forall k, k <> ch -> soft (getc c k) (getc c' k).
Proof.
  intros cfg. induction fuel as [|f IH]; intros c ch num p c' T M H; cbn [accept_loop] in H; [discriminate|].
  destruct (process_data _ _ _ _) as [c2|] eqn:E in H; cbn [bind] in H; [|discriminate].
  pose proof (process_data_keep _ _ _ _ _ E) as (_ & K). destruct (process_soft _ _ _ _ _ _ T M E) as [T2 F2].
  assert (A : acknum (getc c2 ch) = num) by (destruct (K ch) as (-> & _); rewrite getc_putc; reflexivity).
  destruct (mod_add 4096 num 1) as [n2|] eqn:M2; cbn [bind] in H; [|discriminate].
  destruct (dget Z.eqb (ooo (getc c2 ch)) n2) as [q|]; [|injection H as <-; auto].
  destruct (IH _ _ _ _ _ (TI_putc0 c2 ch (set_ooo (getc c2 ch) (ddel Z.eqb (ooo (getc c2 ch)) n2)) T2 eq_refl eq_refl eq_refl) ltac:(rewrite getc_putc; cbn [acknum set_ooo]; rewrite A; exact M2) H) as [T3 F3].
  split; [exact T3|]. intros k NE. eapply soft_trans; [apply F2; exact NE|]. specialize (F3 k NE). rewrite getc_putc_other in F3 by congruence. exact F3.
Qed.
Lemma chan_dec : forall k ch : chan, k = ch \/ k <> ch.
Proof. intros [] []; auto; right; discriminate. Qed.
Lemma tail_HI : forall cfg c ch p c', TI c -> tail cfg c ch p = Ok c' -> HI c -> HI c'.
Proof.
  intros cfg c ch p c' T H I0. unfold tail in H. cbv zeta in H.
  destruct (mod_le _ _ _) as [le|]; cbn [bind] in H; [|discriminate].
  destruct le; [eapply ah_HI; [eapply ah_sendack; exact H|exact (fr_st _ _ (send_ack_frame _ _ _ H))|exact I0]|].
  destruct (mod_add _ _ _) as [nxt|] eqn:M; cbn [bind] in H; [|discriminate].
  destruct (segnum p =? nxt) eqn:Q; cbn [negb] in H; [|injection H as <-; eapply ah_HI; [apply ah_putc; repeat split|destruct ch; reflexivity|exact I0]].
  apply Z.eqb_eq in Q. subst nxt. destruct (accept_loop _ _ _ _ _ _) as [c3|] eqn:A; cbn [bind] in H; [|discriminate].
  pose proof (accept_loop_st _ _ _ _ _ _ _ A) as S3. destruct (loop_soft _ _ _ _ _ _ _ T M A) as [T3 F3].
  assert (G : forall c4, cst c4 = cst c3 -> (forall k, k <> ch -> soft (getc c3 k) (getc c4 k)) -> (ackpending (getc c4 ch) = true -> hold (getc c4 ch) = true) -> HI c4).
  { intros c4 S4 F4 X O k P. destruct (chan_dec k ch) as [-> |NE]; [auto|]. rewrite S4, S3 in O.
    destruct (soft_trans _ _ _ (F3 k NE) (F4 k NE)) as [[Y1 Y2]|Y]; [|congruence]. rewrite Y2. apply (I0 O). congruence. }
  destruct (_ && _ && _).
  - destruct (ackpending (getc c3 ch)) eqn:P; cbn [andb] in H.
    + destruct (hold (getc c3 ch)) eqn:HD; cbn [negb] in H; injection H as <-.
      * apply G; auto. intros; apply soft_refl.
      * apply G; [destruct ch; reflexivity| |intros _; destruct ch; reflexivity]. intros k NE. rewrite getc_putc_other by congruence. apply soft_refl.
    + injection H as <-. apply G; auto; [intros; apply soft_refl|congruence].
  - destruct (ackpending (getc c3 ch)) eqn:P.
    + pose proof (ah_soft _ _ (ah_sendack _ _ _ H)) as F4. destruct (send_ack_ah _ _ _ H) as (X & _). apply G; [exact (fr_st _ _ (send_ack_frame _ _ _ H))|auto|congruence].
    + injection H as <-. apply G; auto; [intros; apply soft_refl|congruence].
Qed.
Lemma over_stays : forall cfg c ch a c', process_ack cfg c ch a = Ok c' -> over (cst c) = true -> over (cst c') = true.
Proof.
  intros cfg c ch a c' H O. destruct ch; cbn [process_ack] in H; [|rewrite (fr_st _ _ (base_process_ack_frame _ _ _ _ H)); exact O].
  unfold data_process_ack in H. destruct (base_process_ack c CD a) as [c1|] eqn:E; cbn [bind] in H; [|discriminate].
  destruct (send_blocked cfg c1) as [c2|] eqn:B; cbn [bind] in H; [|discriminate].
  assert (S2 : cst c2 = cst c) by (rewrite (fr_st _ _ (send_blocked_frame _ _ _ B)), (fr_st _ _ (base_process_ack_frame _ _ _ _ E)); reflexivity).
  destruct (cshut c2); [|injection H as <-; congruence]. destruct (pending (cdata c2)); [|injection H as <-; congruence].
  destruct (disc_rej cfg c2 _ _); cbn [bind] in H; [|discriminate]. injection H as <-. reflexivity.
Qed.
(** A received packet of a subchannel: the connection starts to disconnect, or
    the acknowledgments change only the flags (towards false) and the rest of
    the processing follows. *)
Lemma sub_recv_split : forall cfg c ch p c', TI c -> sub_recv cfg c ch p = Ok c' -> over (cst c') = true \/
  exists c2, ah c c2 /\ TI c2 /\ frame c c2 /\ (is_seg p = true -> tail cfg c2 ch p = Ok c') /\ (is_seg p = false -> is_ackhdr p = true -> c' = c2).
Proof.
  intros cfg c ch p c' T H. unfold sub_recv in H.
  destruct (process_ack cfg c ch (ack1 p)) as [c1|] eqn:E1; cbn [bind] in H; [|discriminate].
  destruct (process_ack cfg c1 ch (ack2 p)) as [c2|] eqn:E2; cbn [bind] in H; [|discriminate].
  assert (SC : cst c' = cst c2). { destruct p; try (injection H as <-; reflexivity); eapply (tail_st cfg c2 ch); exact H. }
  destruct (process_ack_ah _ _ _ _ _ T E1) as [O|(K1 & T1 & S1)]; [left; rewrite SC; eapply over_stays; eauto|].
  destruct (process_ack_ah _ _ _ _ _ T1 E2) as [O|(K2 & T2 & S2)]; [left; rewrite SC; exact O|].
  right. exists c2. split; [eapply ah_trans; eauto|]. split; [exact T2|]. split; [eapply frame_trans; eauto|].
  split; [intros X; destruct p; try discriminate X; exact H|]. intros X Y. destruct p; try discriminate X; try discriminate Y; injection H as <-; reflexivity.
Qed.
Lemma sub_recv_HI : forall cfg c ch p c', TI c -> is_ackhdr p = true -> sub_recv cfg c ch p = Ok c' -> HI c -> HI c'.
Proof.
  intros cfg c ch p c' T AH H I0. destruct (sub_recv_split _ _ _ _ _ T H) as [O|(c2 & K & T2 & S2 & G1 & G2)]; [now apply over_HI|].
  pose proof (ah_HI _ _ K (fr_st _ _ S2) I0) as I2. destruct (is_seg p) eqn:SG; [eapply tail_HI; eauto|]. rewrite (G2 eq_refl AH). exact I2.
Qed.
Lemma run_recv_HI : forall cfg c p c', TI c -> run_recv cfg c p = Ok c' -> HI c -> HI c'.
Proof.
  intros cfg c p c' T H I0. unfold run_recv in H. set (c0 := if 2 <? cphase c then set_ctimer c true else c) in *.
  assert (T0 : TI c0) by (unfold c0; destruct (2 <? _); [now apply (TI_scal c)|exact T]).
  assert (I1 : HI c0) by (unfold c0; destruct (2 <? _); [apply (same_HI c); auto|exact I0]).
  clearbody c0. destruct p; try (injection H as <-; exact I1); try (eapply sub_recv_HI; [exact T0| |exact H|exact I1]; reflexivity).
  - destruct (2 <? _); [|injection H as <-; exact I1]. eapply ah_HI; [eapply ah_sendack; exact H|exact (fr_st _ _ (send_ack_frame _ _ _ H))|exact I1].
  - destruct (sendmsg _ _ _) as [c1|] eqn:E in H; cbn [bind] in H; [|discriminate]. injection H as <-. now apply over_HI.
  - injection H as <-. now apply over_HI.
Qed.
Lemma cd_recv_HI : forall cfg c p c', over (cst c) = false -> cd_recv cfg c p = Ok c' -> HI c -> HI c'.
Proof.
  intros cfg c p c' O H I0. destruct p; cbn [cd_recv] in H; try (injection H as <-; exact I0).
  - set (c0 := set_csegsize _ _) in *. assert (I1 : HI c0) by (apply (soft_HI c); [intros []; apply fl_soft; repeat split|auto|exact I0]).
    assert (S0 : cst c0 = cst c) by reflexivity. clearbody c0.
    destruct (chan_ack c0 CD 0) as [c1|] eqn:E; cbn [bind] in H; [|discriminate].
    assert (I2 : HI c1) by (eapply ah_HI; [eapply chan_ack_ah; exact E|exact (fr_st _ _ (chan_ack_frame _ _ _ _ E))|exact I1]).
    assert (S1 : cst c1 = cst c) by (rewrite (fr_st _ _ (chan_ack_frame _ _ _ _ E)); exact S0).
    destruct (if 2 <? cphase c1 then (let* c := send_ack c1 CD in Ok (set_ctimer c true)) else Ok c1) as [c2|] eqn:E2; cbn [bind] in H; [|discriminate]. injection H as <-.
    assert (X : HI c2 /\ cst c2 = cst c1).
    { destruct (2 <? cphase c1); [|injection E2 as <-; auto]. destruct (send_ack c1 CD) as [c3|] eqn:E3; cbn [bind] in E2; [|discriminate]. injection E2 as <-.
      pose proof (fr_st _ _ (send_ack_frame _ _ _ E3)) as S3. split; [apply (same_HI c3); auto; eapply ah_HI; [eapply ah_sendack; exact E3|exact S3|exact I2]|exact S3]. }
    destruct X as [I3 S3]. apply (same_HI c2); auto. right. rewrite S3, S1. exact O.
  - destruct (sendmsg _ _ _) as [c1|] eqn:E in H; cbn [bind] in H; [|discriminate]. injection H as <-. now apply over_HI.
  - injection H as <-. now apply over_HI.
Qed.
Lemma disc_over : forall cfg c r x c', cst c = Sdi -> api_disc cfg c r x = Ok c' -> over (cst c') = true.
Proof.
  intros cfg c r x c' S H. unfold api_disc in H. destruct (disc_rej cfg c r x) as [c1|[]] eqn:D; try discriminate; injection H as <-.
  - unfold disc_rej in D. destruct (_ || _ || _); [discriminate|]. rewrite (fr_st _ _ (data_send_frame _ _ _ _ D)). cbn. now rewrite S.
  - cbn. now rewrite S.
Qed.
Lemma recv_HI : forall cfg c p c', TI c -> HI c -> conn_recv cfg c p = Ok c' -> HI c'.
Proof.
  intros cfg c p c' T I0 H.
  unfold conn_recv in H. destruct (cst c) eqn:ST; try discriminate.
  + unfold ci_recv in H. destruct p; try (eapply cd_recv_HI; [rewrite ST; reflexivity|exact H|exact I0]).
    * destruct (2 <? phase cfg); [|eapply cd_recv_HI; [rewrite ST; reflexivity|exact H|exact I0]].
      destruct (chan_ack c CD 0) as [c1|] eqn:E; cbn [bind] in H; [|discriminate]. injection H as <-. pose proof (fr_st _ _ (chan_ack_frame _ _ _ _ E)) as S1.
      apply (same_HI c1); auto; [right; rewrite S1, ST; reflexivity|]. eapply ah_HI; [eapply chan_ack_ah; exact E|exact S1|exact I0].
    * injection H as <-. now apply over_HI.
  + eapply cd_recv_HI; [rewrite ST; reflexivity|exact H|exact I0].
  + unfold cr_recv in H. destruct p; try (injection H as <-; exact I0). destruct (2 <? _); [|injection H as <-; exact I0]. apply sendmsg_log in H. subst c'. now apply (same_HI c); auto.
  + unfold cc_recv in H. destruct (if is_ackhdr p then chan_ack c CD 0 else Ok c) as [c1|] eqn:E; cbn [bind] in H; [|discriminate].
    assert (X : HI c1 /\ cst c1 = cst c /\ TI c1).
    { destruct (is_ackhdr p); [|injection E as <-; auto]. pose proof (fr_st _ _ (chan_ack_frame _ _ _ _ E)) as S1. split; [eapply ah_HI; [eapply chan_ack_ah; exact E|exact S1|exact I0]|]. split; [exact S1|eapply TI_chan_ack; eauto]. }
    destruct X as (I1 & S1 & T1). eapply run_recv_HI; [|exact H|].
    * apply TI_emit; [now apply (TI_scal c1)|apply quiet_one; exact I].
    * apply (same_HI c1); auto. right. rewrite S1, ST. reflexivity.
  + eapply run_recv_HI; eauto.
  + unfold di_recv in H. destruct p; try (injection H as <-; (exact I0 || now apply over_HI)). destruct (sendmsg _ _ _) as [c1|] eqn:E in H; cbn [bind] in H; [|discriminate]. injection H as <-. now apply over_HI.
Qed.
Lemma accept_HI : forall cfg c x c', TI c -> HI c -> conn_accept cfg c x = Ok c' -> HI c'.
Proof.
  intros cfg c x c' T I0 H.
  assert (RS : forall x, HI (emit c (ORaise x))) by (intros z; apply (same_HI c); auto).
  unfold conn_accept in H. destruct (cst c) eqn:ST; cbn [cstate_eqb negb] in H; try (injection H as <-; apply RS).
  destruct (cphase c =? 2).
  + apply sendmsg_log in H. subst c'. apply (same_HI c); auto. right. rewrite ST. reflexivity.
  + eapply ah_HI; [eapply data_send_ah; [| | | |exact H]; [now apply (TI_scal c)|reflexivity..|discriminate]|exact (fr_st _ _ (data_send_frame _ _ _ _ H))|].
    apply (same_HI c); auto. right. rewrite ST. reflexivity.
Qed.
Lemma reject_HI : forall cfg c r x c', TI c -> HI c -> conn_reject cfg c r x = Ok c' -> HI c'.
Proof.
  intros cfg c r x c' T I0 H.
  assert (RS : forall x, HI (emit c (ORaise x))) by (intros z; apply (same_HI c); auto).
  unfold conn_reject in H. destruct (cst c) eqn:ST; cbn [cstate_eqb negb] in H; try (injection H as <-; apply RS). apply over_HI. eapply disc_over; [|exact H]. reflexivity.
Qed.
Lemma disconnect_HI : forall cfg c r x c', TI c -> HI c -> conn_disconnect cfg c r x = Ok c' -> HI c'.
Proof.
  intros cfg c r x c' T I0 H.
  assert (RS : forall x, HI (emit c (ORaise x))) by (intros z; apply (same_HI c); auto).
  unfold conn_disconnect in H. destruct (cst c) eqn:ST; cbn [cstate_eqb negb] in H; try (injection H as <-; apply RS).
  destruct (pending (cdata c)); [apply over_HI; eapply disc_over; [|exact H]; reflexivity|]. injection H as <-. apply (same_HI c); auto.
Qed.
Lemma abort_HI : forall cfg c r x c', TI c -> HI c -> conn_abort cfg c r x = Ok c' -> HI c'.
Proof.
  intros cfg c r x c' T I0 H.
  assert (RS : forall x, HI (emit c (ORaise x))) by (intros z; apply (same_HI c); auto).
  unfold conn_abort in H. destruct (cst c) eqn:ST; cbn [cstate_eqb negb] in H; try (injection H as <-; apply RS).
  destruct (disc_rej cfg c r x) as [c1|[]]; try discriminate; injection H as <-; [now apply over_HI|apply RS].
Qed.
Lemma send_HI : forall cfg c data c', TI c -> HI c -> conn_send cfg c data = Ok c' -> HI c'.
Proof.
  intros cfg c data c' T I0 H.
  assert (RS : forall x, HI (emit c (ORaise x))) by (intros z; apply (same_HI c); auto).
  unfold conn_send in H. destruct (cst c) eqn:ST; cbn [cstate_eqb negb orb] in H; try (injection H as <-; apply RS).
  destruct (cshut c); [injection H as <-; apply RS|]. destruct (csegsize c =? 0); [discriminate|].
  eapply ah_HI; [eapply send_segs_ah; [|exact H]; apply TI_emit; [exact T|apply quiet_one; exact I]|exact (fr_st _ _ (send_segs_frame _ _ _ _ H))|]. apply (same_HI c); auto.
Qed.
Lemma interrupt_HI : forall cfg c data c', TI c -> HI c -> conn_interrupt cfg c data = Ok c' -> HI c'.
Proof.
  intros cfg c data c' T I0 H.
  assert (RS : forall x, HI (emit c (ORaise x))) by (intros z; apply (same_HI c); auto).
  unfold conn_interrupt in H. destruct (cst c) eqn:ST; cbn [cstate_eqb negb orb] in H; try (injection H as <-; apply RS).
  destruct (cshut c); [injection H as <-; apply RS|]. destruct (16 <? _); [injection H as <-; apply RS|].
  destruct (other_send c _) as [[c1 b]|] eqn:E; cbn [bind] in H; [|discriminate].
  assert (I1 : HI c1) by (eapply ah_HI; [eapply other_send_ah; [exact T| | | |exact E]; reflexivity|exact (fr_st _ _ (other_send_frame _ _ _ _ E))|exact I0]).
  destruct b; [|injection H as <-; exact I1]. destruct (mod_add _ _ _); cbn [bind] in H; [|discriminate]. injection H as <-.
  apply (soft_HI c1); [intros []; apply fl_soft; repeat split|auto|exact I1].
Qed.
Lemma keepalive_HI : forall k n b c1, TI k -> HI k -> other_send (set_coth k (set_seqnum (coth k) n)) (NLs (cdst k) (csrc k) None None (seqnum (coth k)) 0 0 0) = Ok (c1, b) -> HI c1.
Proof.
  intros k n b c1 TK IK E. assert (T1 : TI (set_coth k (set_seqnum (coth k) n))) by (apply (TI_putc0 k CO); [exact TK|reflexivity..]).
  eapply ah_HI; [eapply other_send_ah; [exact T1| | | |exact E]; reflexivity|exact (fr_st _ _ (other_send_frame _ _ _ _ E))|].
  apply (soft_HI k); [intros []; apply fl_soft; repeat split|auto|exact IK].
Qed.
Lemma timeout_HI : forall cfg c c', TI c -> HI c -> conn_timeout cfg c = Ok c' -> HI c'.
Proof.
  intros cfg c c' T I0 H. unfold conn_timeout in H. destruct (ctimer c); cbn [negb] in H; [|injection H as <-; exact I0].
  assert (T1 : TI (set_ctimer c false)) by now apply (TI_scal c). assert (I1 : HI (set_ctimer c false)) by (apply (same_HI c); auto).
  remember (set_ctimer c false) as k eqn:HK. clear HK. cbv zeta in H. destruct (cst k) eqn:ST; try discriminate.
  + injection H as <-. now apply over_HI.
  + injection H as <-. now apply over_HI.
  + destruct (conn_reject cfg k OBJ_FAIL []) as [c1|] eqn:D; cbn [bind] in H; [|discriminate]. injection H as <-.
    apply (same_HI c1); auto. eapply reject_HI; eauto.
  + destruct (mod_add _ _ _) as [n|]; cbn [bind] in H; [|discriminate]. destruct (other_send _ _) as [[c1 b]|] eqn:E; cbn [bind] in H; [|discriminate]. injection H as <-.
    eapply (keepalive_HI k); eauto.
  + destruct (mod_add _ _ _) as [n|]; cbn [bind] in H; [|discriminate]. destruct (other_send _ _) as [[c1 b]|] eqn:E; cbn [bind] in H; [|discriminate]. injection H as <-.
    eapply (keepalive_HI k); eauto.
  + injection H as <-. exact I1.
Qed.
Lemma holdoff_HI : forall c ch c', TI c -> HI c -> holdoff c ch = Ok c' -> HI c'.
Proof.
  intros c ch c' T I0 H.
  unfold holdoff in H. destruct (hold (getc c ch)) eqn:HD; [|injection H as <-; exact I0].
  destruct (send_ack_ah _ _ _ H) as (A & B & _). pose proof (ah_soft _ _ (ah_sendack _ _ _ H)) as F.
  intros O k P. destruct (chan_dec k ch) as [-> |NE]; [congruence|]. specialize (F k). rewrite getc_putc_other in F by congruence.
  rewrite (fr_st _ _ (send_ack_frame _ _ _ H)) in O. assert (O2 : over (cst c) = false) by (destruct ch; exact O).
  destruct F as [[F1 F2]|F]; [|congruence]. rewrite F2. apply (I0 O2). congruence.
Qed.
Lemma retransmit_HI : forall cfg c ch i c', TI c -> HI c -> retransmit cfg c ch i = Ok c' -> HI c'.
Proof.
  intros cfg c ch i c' T I0 H.
  unfold retransmit in H. destruct (nth_error _ i) as [e|] eqn:N; [|injection H as <-; exact I0]. destruct (ttimer e); cbn [negb] in H; [|injection H as <-; exact I0].
  assert (PE : forall e1, HI (put_entry c ch i e1)) by (intros e1; eapply ah_HI; [apply put_entry_ah|destruct ch; reflexivity|exact I0]).
  destruct (_ <=? _); [destruct (is_ci (tp e)); injection H as <-; [apply PE|now apply over_HI]|].
  destruct (negb _ || _); [|injection H as <-; apply PE].
  eapply ah_HI; [eapply tx_send_ah; [|exact H]; eapply TI_put; [exact T|exact N|reflexivity..]|exact (fr_st _ _ (tx_send_frame _ _ _ _ H))|apply PE].
Qed.
Lemma step_HI : forall cfg c e c', TI c -> HI c -> cstep cfg c e = Ok c' -> HI c'.
Proof.
  intros cfg c e c' T I0 H. destruct e; cbn [cstep] in H.
  - exact (recv_HI _ _ _ _ T I0 H).
  - exact (accept_HI _ _ _ _ T I0 H).
  - exact (reject_HI _ _ _ _ _ T I0 H).
  - exact (disconnect_HI _ _ _ _ _ T I0 H).
  - exact (abort_HI _ _ _ _ _ T I0 H).
  - exact (send_HI _ _ _ _ T I0 H).
  - exact (interrupt_HI _ _ _ _ T I0 H).
  - injection H as <-. apply (same_HI c); auto.
  - exact (timeout_HI _ _ _ T I0 H).
  - exact (holdoff_HI _ _ _ T I0 H).
  - exact (retransmit_HI _ _ _ _ _ T I0 H).
Qed.
Lemma cexec_HI : forall cfg c, 1 <= phase cfg -> cexec cfg c -> HI c.
Proof.
  intros cfg c PH H. induction H as [src dest x c H|src dest p c H|c e c' H IH EO E].
  - unfold conn_outbound in H. set (c0 := mk_conn Sci _ _ _ _ _ _ _ _ _ _ _ _ _) in *.
    destruct (data_send cfg c0 _) as [c1|] eqn:E; cbn [bind] in H; [|discriminate]. injection H as <-. apply (same_HI c1); auto.
    eapply ah_HI; [eapply data_send_ah; [|..|exact E]; [|reflexivity..|discriminate]|exact (fr_st _ _ (data_send_frame _ _ _ _ E))|intros _ []; discriminate].
    apply TI_fresh; [intros []; auto|intros [] e []|constructor].
  - destruct p; try discriminate H. cbn [conn_inbound] in H. set (c0 := setphase cfg _ info) in *.
    assert (I0 : HI c0) by (intros _ []; discriminate). clearbody c0.
    destruct (2 <? cphase c0); cbn [bind] in H; [destruct (sendmsg c0 _ _) as [c1|] eqn:E; cbn [bind] in H; [|discriminate]; apply sendmsg_log in E; subst c1|];
      injection H as <-; apply (same_HI c0); auto.
  - eapply step_HI; [eapply cexec_AJ; eauto|exact IH|exact E].
Qed.

(** ** The second acknowledgment field is used in Phase IV only *)
Definition no2 (c : conn) : Prop := (forall p g, In (OTx p g) (clog c) -> ack2 p = None) /\ forall ch e, In e (pending (getc c ch)) -> ack2 (tp e) = None.
Definition PX (c : conn) : Prop := cphase c = 4 \/ no2 c.
Definition mute (l : list out) : Prop := Forall (fun o => match o with OTx p _ => ack2 p = None | _ => True end) l.
Lemma mute_one : forall o, match o with OTx p _ => ack2 p = None | _ => True end -> mute [o].
Proof. intros o H. constructor; [exact H|constructor]. Qed.
Lemma no2_keep : forall c c' l, no2 c -> clog c' = clog c ++ l -> mute l -> (forall ch e, In e (pending (getc c' ch)) -> In e (pending (getc c ch)) \/ ack2 (tp e) = None) -> no2 c'.
Proof.
  intros c c' l [A B] L M P. split.
  - intros p g H. rewrite L in H. apply in_app_or in H as [H|H]; [eauto|]. unfold mute in M. rewrite Forall_forall in M. exact (M _ H).
  - intros ch e H. destruct (P ch e H); eauto.
Qed.
Lemma PX_keep : forall c c' l, PX c -> cphase c' = cphase c -> clog c' = clog c ++ l -> mute l -> (forall ch e, In e (pending (getc c' ch)) -> In e (pending (getc c ch)) \/ ack2 (tp e) = None) -> PX c'.
Proof. intros c c' l [A|A] S L M P; [left; congruence|right]. eapply no2_keep; eauto. Qed.
Lemma PX_same : forall c c', PX c -> cphase c' = cphase c -> clog c' = clog c -> (forall ch, pending (getc c' ch) = pending (getc c ch)) -> PX c'.
Proof. intros c c' A S L P. apply (PX_keep c c' []); rewrite ?app_nil_r; auto; [constructor|]. intros ch e H. rewrite P in H. auto. Qed.
Lemma PX_putc : forall c ch s, PX c -> (forall e, In e (pending s) -> In e (pending (getc c ch)) \/ ack2 (tp e) = None) -> PX (putc c ch s).
Proof.
  intros c ch s A P. apply (PX_keep c _ []); rewrite ?app_nil_r; auto; try (destruct ch; reflexivity); [constructor|].
  intros k e H. destruct k, ch; cbn [putc getc cdata coth set_cdata set_coth] in *; auto.
Qed.
Lemma PX_emit : forall c o, PX c -> match o with OTx p _ => ack2 p = None | _ => True end -> PX (emit c o).
Proof. intros c o A M. apply (PX_keep c (emit c o) [o] A eq_refl eq_refl); [now apply mute_one|intros []; auto]. Qed.
Lemma PX_tosc : forall c p r, PX c -> PX (to_sc c p r).
Proof.
  intros c p r A. destruct p; cbn [to_sc]; try (now apply PX_emit); [].
  assert (S1 : forall x, PX (set_casm c x)) by (intros x; apply (PX_same c); auto; intros []; reflexivity).
  destruct (casm c); match goal with |- context [if ?b then _ else _] => destruct b end; try apply S1; apply PX_emit; auto.
Qed.
Lemma PX_close : forall c c', PX c -> cphase c' = cphase c -> cdata c' = sub_close (cdata c) -> coth c' = sub_close (coth c) -> clog c' = clog c -> PX c'.
Proof.
  intros c c' A S D O L. apply (PX_keep c c' []); rewrite ?app_nil_r; auto; [constructor|]. intros [] e; cbn [getc]; rewrite ?D, ?O; cbn [pending sub_close set_ooo set_pending]; contradiction.
Qed.
Lemma PX_sendack : forall c ch c', PX c -> send_ack c ch = Ok c' -> PX c'.
Proof.
  intros c ch c' A H. pose proof (fr_phase _ _ (send_ack_frame _ _ _ H)) as PH. destruct A as [A|A]; [left; congruence|].
  destruct (Z.eq_dec (cphase c) 4) as [E|E]; [left; congruence|right]. unfold send_ack in H. set (c0 := putc c ch _) in *. set (p := match ch with CD => _ | CO => _ end) in *.
  assert (A0 : no2 c0) by (apply (no2_keep c c0 []); auto; [destruct ch; rewrite app_nil_r; reflexivity|constructor|intros k e; destruct k, ch; auto]).
  destruct (set_acks c0 ch true p (None, None)) as [[c1 p1] g] eqn:SA. apply sendmsg_log in H. subst c'.
  destruct (acks_flags _ _ _ _ _ _ _ _ SA) as (_ & _ & L & _ & [X|X]); [destruct ch; reflexivity|destruct ch; reflexivity| |unfold c0 in X; destruct ch; contradiction].
  apply set_acks_frame in SA as (_ & _ & P). eapply (no2_keep c0); [exact A0|cbn [emit clog set_clog]; rewrite L; reflexivity|apply mute_one; rewrite X; unfold p; destruct ch; reflexivity|].
  intros k e IN. left. destruct (P k) as (<- & _). destruct k; exact IN.
Qed.
Lemma PX_tx : forall c ch i c', TI c -> PX c -> tx_send c ch i = Ok c' -> PX c'.
Proof.
  intros c ch i c' T A H. pose proof (fr_phase _ _ (tx_send_frame _ _ _ _ H)) as PH. destruct A as [A|A]; [left; congruence|].
  destruct (Z.eq_dec (cphase c) 4) as [E|E]; [left; congruence|right].
  unfold tx_send in H. destruct (nth_error (pending (getc c ch)) i) as [e|] eqn:N; [|discriminate].
  destruct (fill_packet c ch e) as [[c1 p1] g] eqn:F. apply sendmsg_log in H. pose proof (fill_data _ _ _ _ _ _ F) as (_ & _ & _ & _ & L & _ & _ & P).
  assert (X : ack2 p1 = None).
  { pose proof (proj2 A ch e (nth_error_In _ _ N)) as X0. destruct (is_ackhdr (tp e)) eqn:AH.
    - destruct (t_ent _ T ch e (nth_error_In _ _ N) AH) as [CH _].
      assert (F2 : set_acks c ch false (tp e) (tgd e, tgo e) = (c1, p1, g)) by (unfold fill_packet in F; destruct (tp e); try discriminate AH; exact F).
      destruct (acks_flags _ _ _ _ _ _ _ _ F2 AH CH) as (_ & _ & _ & _ & [X|X]); [congruence|contradiction].
    - unfold fill_packet in F. destruct (tp e); try discriminate AH; injection F as <- <- <-; reflexivity. }
  subst c'. eapply (no2_keep c); [exact A|cbn [emit clog set_clog]; rewrite <- L; destruct ch; reflexivity|apply mute_one; exact X|].
  intros k x IN. destruct (chan_dec k ch) as [-> |NE].
  - assert (Y : In x (upd i (mk_txe p1 (tseg e) (tmsg e) (ttries e + 1) true true (fst g) (snd g)) (pending (getc c ch)))) by (destruct (P ch) as (<- & _); destruct ch; exact IN).
    apply in_upd in Y as [-> |Y]; [right; exact X|left; exact Y].
  - left. destruct (P k) as (<- & _). destruct k, ch; try congruence; exact IN.
Qed.
Lemma PX_bump : forall c ch n c', PX c -> bump c ch n = Ok c' -> PX c'.
Proof. intros c ch n c' A H. unfold bump in H. destruct (seqmax _ n); cbn [bind] in H; [|discriminate]. injection H as <-. apply PX_putc; auto. Qed.
Lemma PX_data_send : forall cfg c p c', TI c -> PX c -> ack1 p = None -> ack2 p = None -> (is_ackhdr p = true -> is_data p = true) -> data_send cfg c p = Ok c' -> PX c'.
Proof.
  intros cfg c p c' T A A1 A2 A3 H. unfold data_send in H. destruct (make_entry cfg c p) as [e s1] eqn:M. set (c1 := set_cdata c _) in *.
  assert (S1 : acknum s1 = acknum (cdata c) /\ rcvd s1 = rcvd (cdata c) /\ ack2 (tp e) = None /\ (is_ackhdr (tp e) = true -> chan_of (tp e) = CD /\ ack1 (tp e) = None /\ ack2 (tp e) = None))
    by (destruct p; cbn [is_ackhdr is_data] in A3; try (discriminate (A3 eq_refl)); injection M as <- <-; repeat split; auto; discriminate).
  destruct S1 as (S2 & S3 & S5 & S4).
  assert (K1 : PX c1) by (apply (PX_putc c CD); auto; intros x IN; apply in_app_or in IN as [IN|[<-|[]]]; auto).
  assert (T1 : TI c1).
  { apply (TI_keep c c1 []); auto; try (rewrite app_nil_r; reflexivity).
    - intros k x IN. destruct k; [|auto]. cbn in IN. apply in_app_or in IN as [IN|[<-|[]]]; auto.
    - intros k (N1 & N2). destruct k; [|split; assumption]. unfold num_ok. cbn in *. rewrite S2, S3. auto.
    - cbn. rewrite S3. lia.
    - constructor. }
  clearbody c1. clear T. destruct (send_qe cfg c1 _) as [[c2 b]|] eqn:Q; cbn [bind] in H; [|discriminate].
  assert (K2 : PX c2).
  { unfold send_qe in Q. destruct (nth_error _ _); [|discriminate]. destruct (_ && _) in Q; [injection Q as <- <-; exact K1|]. destruct (tx_send c1 CD _) eqn:E; cbn [bind] in Q; [|discriminate]. injection Q as <- <-. eapply PX_tx; eauto. }
  destruct (_ && _) in H; [eapply PX_bump; eauto|injection H as <-; exact K2].
Qed.
Lemma PX_other_send : forall c p c' b, TI c -> PX c -> chan_of p = CO -> ack1 p = None -> ack2 p = None -> other_send c p = Ok (c', b) -> PX c'.
Proof.
  intros c p c' b T A CH A1 A2 H. unfold other_send in H. destruct (_ && _); [injection H as <- <-; apply PX_emit; auto|].
  set (c1 := set_coth c _) in *. assert (K1 : PX c1) by (apply (PX_putc c CO); auto; intros x IN; apply in_app_or in IN as [IN|[<-|[]]]; auto).
  assert (T1 : TI c1).
  { apply (TI_keep c c1 []); auto; try (rewrite app_nil_r; reflexivity).
    - intros k x IN. destruct k; [auto|]. cbn in IN. apply in_app_or in IN as [IN|[<-|[]]]; auto.
    - intros k (N1 & N2). destruct k; split; assumption.
    - cbn. lia.
    - constructor. }
  clearbody c1. destruct (tx_send c1 CO _) as [c2|] eqn:E; cbn [bind] in H; [|discriminate]. destruct (bump c2 CO _) as [c3|] eqn:B; cbn [bind] in H; [|discriminate].
  injection H as <- <-. eapply PX_bump; [|exact B]. eapply PX_tx; eauto.
Qed.
Lemma PX_chan_ack : forall c ch n c', PX c -> chan_ack c ch n = Ok c' -> PX c'.
Proof.
  intros c ch n c' A H. unfold chan_ack in H. destruct (sub_ack (getc c ch) n) as [s|] eqn:S; cbn [bind] in H; [|discriminate]. injection H as <-.
  apply sub_ack_skip in S as ((j & J) & _). apply PX_putc; auto. intros e IN. left. rewrite J in IN. now apply skip_in in IN.
Qed.
Lemma PX_put : forall c ch i e e1, PX c -> nth_error (pending (getc c ch)) i = Some e -> tp e1 = tp e -> PX (put_entry c ch i e1).
Proof.
  intros c ch i e e1 [A|A] N TP; [left; destruct ch; exact A|right]. pose proof (proj2 A ch e (nth_error_In _ _ N)) as X.
  apply (no2_keep c _ []); auto; [destruct ch; rewrite app_nil_r; reflexivity|constructor|].
  intros k x IN. destruct (chan_dec k ch) as [-> |NE].
  - assert (Y : In x (upd i e1 (pending (getc c ch)))) by (destruct ch; exact IN). apply in_upd in Y as [-> |Y]; [right; congruence|auto].
  - left. destruct k, ch; try congruence; exact IN.
Qed.
Lemma PX_acc : forall c ch num p, PX c -> PX (acc c ch num p).
Proof.
  intros c ch num p A. unfold acc. set (c1 := emit _ _). assert (A1 : PX c1) by (apply PX_emit; [apply PX_putc; auto|exact I]). clearbody c1.
  destruct ch; [now apply PX_tosc|]. destruct (is_ls p); [|now apply PX_tosc]. destruct p; try exact A1. cbn [credit]. destruct (_ =? 0).
  - destruct (grant _ _ _) as [s1|] eqn:G; [|exact A1]. apply (PX_putc c1 CD); [exact A1|]. intros e IN. left. unfold grant in G.
    repeat match type of G with context [if ?b then _ else _] => destruct b end; try discriminate; injection G as <-; exact IN.
  - unfold other_ls. destruct (_ <=? _); [|exact A1]. apply (PX_putc c1 CO); auto.
Qed.
Definition settled (s : cstate) : Prop := s <> Sci /\ s <> Scd.
Lemma acc_st : forall c ch num p, cst (acc c ch num p) = cst c.
Proof.
  intros c ch num p. unfold acc. set (c1 := emit _ _). assert (S1 : cst c1 = cst c) by (destruct ch; reflexivity). rewrite <- S1. clearbody c1.
  assert (T : cst (to_sc c1 p false) = cst c1) by (destruct (to_sc_log c1 p false) as (l & _ & _ & _ & X); exact X).
  destruct ch; [exact T|]. destruct (is_ls p); [|exact T]. destruct p; try reflexivity. cbn [credit]. destruct (_ =? 0); [destruct (grant _ _ _); reflexivity|]. unfold other_ls. destruct (_ <=? _); reflexivity.
Qed.
Lemma prim_PX : forall cfg arr l c c', prim cfg arr false l c c' -> TI c -> settled (cst c) /\ PX c -> settled (cst c') /\ PX c'.
Proof.
  intros cfg arr l c c' H T [ST J]. remember false as b eqn:HB.
  assert (FR : forall k k', cst k = cst c -> frame k k' -> settled (cst k')) by (intros k k' E F; rewrite (fr_st _ _ F), E; exact ST).
  assert (SC : forall k, cphase k = cphase c -> cdata k = cdata c -> coth k = coth c -> clog k = clog c -> PX k) by (intros k X Y Z0 W; apply (PX_same c); auto; intros []; cbn [getc]; rewrite ?Y, ?Z0; reflexivity).
  destruct H.
  - destruct H. split; [congruence|]. apply SC; auto. destruct sc_set as [X|[X|X]]; [exact X|destruct ST; contradiction|destruct ST; contradiction].
  - split; [|apply SC; reflexivity]. cbn. destruct H0 as [-> | -> ]; [|split; discriminate]. destruct H as [H|[H|H]]; [destruct ST; contradiction|destruct ST; contradiction|]. specialize (H2 H). discriminate.
  - split; [split; discriminate|]. apply SC; reflexivity.
  - split; [rewrite (fr_st _ _ (data_send_frame _ _ _ _ H0)); split; discriminate|].
    eapply PX_data_send; [| | | | |exact H0]; [now apply (TI_scal c)|apply SC; reflexivity|reflexivity..|discriminate].
  - split; [split; discriminate|]. apply SC; reflexivity.
  - split; [split; discriminate|]. unfold disc_rej in H0. destruct (_ || _ || _) in H0; [discriminate|].
    apply (PX_same c1); [|reflexivity|reflexivity|intros []; reflexivity]. eapply PX_data_send; [| | | | |exact H0]; [now apply (TI_close c)|now apply (PX_close c)|reflexivity..|discriminate].
  - split; [split; discriminate|]. now apply (PX_close c).
  - split; [exact ST|]. apply PX_emit; auto.
  - split; [exact ST|]. apply PX_emit; auto.
  - split; [eapply FR; [|eapply sendmsg_frame; exact H2]; reflexivity|]. apply sendmsg_log in H2. subst c'. apply PX_emit; [exact J|]. destruct p; try discriminate H; reflexivity.
  - split; [eapply FR; [|eapply send_ack_frame; exact H]; reflexivity|]. eapply PX_sendack; eauto.
  - split; [destruct ch; exact ST|]. apply PX_putc; auto.
  - split; [exact ST|]. apply (PX_putc c CD); auto.
  - split; [eapply FR; [|eapply frame_trans; [eapply tx_send_frame; eauto|eapply bump_frame; eauto]]; reflexivity|]. eapply PX_bump; [|exact H4]. eapply PX_tx; eauto.
  - split; [eapply FR; [|eapply tx_send_frame; eauto]; reflexivity|]. eapply PX_tx; eauto.
  - split; [eapply FR; [|eapply bump_frame; eauto]; reflexivity|]. eapply PX_bump; eauto.
  - congruence.
  - split; [eapply (FR c); [reflexivity|eapply frame_trans; [eapply other_send_frame; eauto|apply (putc_same_frame c1 CO); repeat split]]|]. apply (PX_putc c1 CO); auto. eapply PX_other_send; [| | | | |exact H]; auto.
  - split; [eapply FR; [|eapply other_send_frame; exact H1]; reflexivity|]. eapply PX_other_send; [| | | | |exact H1]; [apply (TI_putc0 c CO); [exact T|reflexivity..]|apply (PX_putc c CO); auto|reflexivity..].
  - split; [eapply FR; [|eapply chan_ack_frame; eauto]; reflexivity|]. eapply PX_chan_ack; eauto.
  - split; [eapply FR; [|eapply chan_ack_frame; eauto]; reflexivity|]. eapply PX_chan_ack; eauto.
  - split; [destruct ch; exact ST|]. apply PX_putc; auto.
  - split; [rewrite acc_st; exact ST|]. now apply PX_acc.
  - split; [rewrite acc_st; destruct ch; exact ST|]. apply PX_acc. apply PX_putc; auto.
  - split; [eapply (FR (put_entry c ch i e1)); [destruct ch; reflexivity|eapply tx_send_frame; eauto]|]. eapply PX_tx; [| |exact H3]; [eapply TI_put; [exact T|exact H|reflexivity..]|eapply PX_put; [exact J|exact H|reflexivity]].
  - split; [destruct ch; exact ST|]. eapply PX_put; [exact J|exact H|reflexivity].
  - split; [destruct ch; exact ST|]. eapply PX_put; [exact J|exact H|reflexivity].
  - split; [split; discriminate|]. eapply (PX_close (to_sc (put_entry c ch i (set_ttimer e false)) (NDI 0 0 UNREACH []) false)); try reflexivity. apply PX_tosc. eapply PX_put; [exact J|exact H|reflexivity].
Qed.
Definition XI (c : conn) : Prop := PX c /\ (settled (cst c) \/ cphase c = 0).
Lemma segs_PX : forall cfg l c c', TI c -> PX c -> send_segs cfg c l = Ok c' -> PX c'.
Proof.
  intros cfg. induction l as [|[[bo eo] pl] l IH]; intros c c' T A H; cbn [send_segs] in H; [injection H as <-; exact A|].
  destruct (data_send cfg c _) as [c1|] eqn:E; cbn [bind] in H; [|discriminate].
  eapply IH; [| |exact H]; [eapply TI_data_send|eapply PX_data_send]; try exact E; auto.
Qed.
Lemma close_XI : forall c, PX c -> XI (conn_close c).
Proof. intros c A. split; [now apply (PX_close c)|left; split; discriminate]. Qed.
Lemma cd_recv_XI : forall cfg c p c', XI c -> cst c = Sci \/ cst c = Scd -> cphase c = 0 -> cd_recv cfg c p = Ok c' -> XI c'.
Proof.
  intros cfg c p c' [A B] S Z0 H. assert (N : no2 c) by (destruct A as [A|A]; [congruence|exact A]).
  destruct p; cbn [cd_recv] in H; try (injection H as <-; split; assumption).
  - set (c0 := set_csegsize _ _) in *. assert (A0 : PX c0) by (right; apply (no2_keep c _ []); auto; [rewrite app_nil_r; reflexivity|constructor|intros [] e; auto]). clearbody c0.
    destruct (chan_ack c0 CD 0) as [c1|] eqn:E; cbn [bind] in H; [|discriminate]. pose proof (PX_chan_ack _ _ _ _ A0 E) as A1.
    destruct (if 2 <? cphase c1 then (let* c := send_ack c1 CD in Ok (set_ctimer c true)) else Ok c1) as [c2|] eqn:E2; cbn [bind] in H; [|discriminate]. injection H as <-.
    assert (A2 : PX c2).
    { destruct (2 <? cphase c1); [|injection E2 as <-; exact A1]. destruct (send_ack c1 CD) as [c3|] eqn:E3; cbn [bind] in E2; [|discriminate]. injection E2 as <-.
      apply (PX_same c3); [eapply PX_sendack; eauto|reflexivity|reflexivity|intros []; reflexivity]. }
    split; [|left; split; discriminate]. apply (PX_same (emit c2 (OSc (SPkt (NCC d s fcopt info segsize data)) false))); [apply PX_emit; auto|reflexivity|reflexivity|intros []; reflexivity].
  - destruct (sendmsg _ _ _) as [c1|] eqn:E in H; cbn [bind] in H; [|discriminate]. injection H as <-. apply close_XI. apply sendmsg_log in E. subst c1.
    apply PX_emit; [|reflexivity]. apply (PX_tosc (set_cdst c s) (NDI d s reason data) true). apply (PX_same c); [exact A|reflexivity|reflexivity|intros []; reflexivity].
  - injection H as <-. apply close_XI. now apply (PX_tosc c (NDC d s reason) true).
Qed.
Lemma step_XI : forall cfg c e c', 1 <= phase cfg -> ev_ok e -> TI c -> XI c -> cstep cfg c e = Ok c' -> XI c'.
Proof.
  intros cfg c e c' PH EO T [A B] H.
  assert (D : settled (cst c) \/ (cst c = Sci \/ cst c = Scd) /\ cphase c = 0).
  { destruct B as [B|B]; [auto|]. destruct (cst c); try (left; split; discriminate); auto. }
  destruct D as [D|[D Z0]].
  - destruct (is_send e) eqn:S.
    + destruct e; try discriminate S. cbn [cstep] in H. unfold conn_send in H.
      assert (RS : forall x, XI (emit c (ORaise x))) by (intros x; split; [apply PX_emit; auto|left; exact D]).
      destruct (cst c) eqn:ST; cbn [cstate_eqb negb orb] in H; try (injection H as <-; apply RS).
      destruct (cshut c); [injection H as <-; apply RS|]. destruct (csegsize c =? 0); [discriminate|].
      split; [|left; rewrite (fr_st _ _ (send_segs_frame _ _ _ _ H)); cbn; rewrite ST; exact D].
      eapply segs_PX; [| |exact H]; [apply TI_emit; [exact T|apply quiet_one; exact I]|apply PX_emit; auto].
    + assert (K : TI c' /\ settled (cst c') /\ PX c'); [|split; [apply K|left; apply K]].
      eapply (star_inv cfg (ev_arr e) false (fun c => TI c /\ settled (cst c) /\ PX c)); [intros l a b X [X1 X2]; split; [eapply TI_prim; eauto|eapply prim_PX; eauto]|eapply step_star; eauto|auto].
  - assert (X0 : XI c) by (split; auto).
    assert (RS : forall x, XI (emit c (ORaise x))) by (intros x; split; [apply PX_emit; auto|right; exact Z0]).
    assert (NS : cstate_eqb (cst c) Scr = false /\ cstate_eqb (cst c) Srun = false) by (destruct D as [-> | -> ]; auto). destruct NS as [NS1 NS2].
    destruct e; cbn [cstep] in H.
    + unfold conn_recv in H. destruct (cst c) eqn:ST; try (destruct D; discriminate).
      * unfold ci_recv in H. destruct p; try (eapply cd_recv_XI; [exact X0|left; exact ST|exact Z0|exact H]).
        { destruct (2 <? phase cfg); [|eapply cd_recv_XI; [exact X0|left; exact ST|exact Z0|exact H]].
          destruct (chan_ack c CD 0) as [c1|] eqn:E; cbn [bind] in H; [|discriminate]. injection H as <-.
          split; [apply (PX_same c1); [eapply PX_chan_ack; eauto|reflexivity|reflexivity|intros []; reflexivity]|right; cbn; rewrite (fr_phase _ _ (chan_ack_frame _ _ _ _ E)); exact Z0]. }
        { injection H as <-. apply close_XI. now apply (PX_tosc c (NDI 0 0 UNREACH []) true). }
      * eapply cd_recv_XI; [exact X0|right; exact ST|exact Z0|exact H].
    + unfold conn_accept in H. rewrite NS1 in H. cbn [negb] in H. injection H as <-. apply RS.
    + unfold conn_reject in H. rewrite NS1 in H. cbn [negb] in H. injection H as <-. apply RS.
    + unfold conn_disconnect in H. rewrite NS2 in H. cbn [negb] in H. injection H as <-. apply RS.
    + unfold conn_abort in H. rewrite NS2 in H. cbn [negb] in H. injection H as <-. apply RS.
    + unfold conn_send in H. rewrite NS2 in H. cbn [negb orb] in H. injection H as <-. apply RS.
    + unfold conn_interrupt in H. rewrite NS2 in H. cbn [negb orb] in H. injection H as <-. apply RS.
    + injection H as <-. split; [apply (PX_same c); [exact A|reflexivity|reflexivity|intros []; reflexivity]|right; exact Z0].
    + unfold conn_timeout in H. destruct (ctimer c); cbn [negb] in H; [|injection H as <-; exact X0].
      assert (A1 : PX (set_ctimer c false)) by (apply (PX_same c); [exact A|reflexivity|reflexivity|intros []; reflexivity]).
      assert (S1 : cst (set_ctimer c false) = cst c) by reflexivity. remember (set_ctimer c false) as k eqn:HK. clear HK. cbv zeta in H. rewrite S1 in H.
      destruct D as [D|D]; rewrite D in H; injection H as <-; apply close_XI; now apply (PX_tosc k (NDI 0 0 OBJ_FAIL []) true).
    + unfold holdoff in H. destruct (hold (getc c ch)); [|injection H as <-; exact X0]. split.
      * eapply PX_sendack; [|exact H]. apply PX_putc; auto.
      * right. rewrite (fr_phase _ _ (send_ack_frame _ _ _ H)). destruct ch; exact Z0.
    + unfold retransmit in H. destruct (nth_error _ i) as [e|] eqn:N; [|injection H as <-; exact X0]. destruct (ttimer e); cbn [negb] in H; [|injection H as <-; exact X0].
      assert (PE : forall e1, tp e1 = tp e -> PX (put_entry c ch i e1) /\ cphase (put_entry c ch i e1) = 0) by (intros e1 TP; split; [eapply PX_put; eauto|destruct ch; exact Z0]).
      destruct (_ <=? _).
      * destruct (is_ci (tp e)); injection H as <-; [destruct (PE (set_ttimer e false) eq_refl); split; auto|].
        apply close_XI. apply (PX_tosc (put_entry c ch i (set_ttimer e false)) (NDI 0 0 UNREACH []) false). apply PE. reflexivity.
      * destruct (PE (set_tsent (set_ttimer e false) false) eq_refl) as [P1 P2]. destruct (negb _ || _); [|injection H as <-; split; auto].
        split; [eapply PX_tx; [|exact P1|exact H]; eapply TI_put; [exact T|exact N|reflexivity..]|]. right. rewrite (fr_phase _ _ (tx_send_frame _ _ _ _ H)). exact P2.
Qed.
Lemma cexec_XI : forall cfg c, 1 <= phase cfg -> cexec cfg c -> XI c.
Proof.
  intros cfg c PH H. induction H as [src dest x c H|src dest p c H|c e c' H IH EO E].
  - unfold conn_outbound in H. set (c0 := mk_conn Sci _ _ _ _ _ _ _ _ _ _ _ _ _) in *.
    destruct (data_send cfg c0 _) as [c1|] eqn:E; cbn [bind] in H; [|discriminate]. injection H as <-.
    assert (P1 : cphase c1 = 0) by (rewrite (fr_phase _ _ (data_send_frame _ _ _ _ E)); reflexivity). split; [|right; exact P1].
    apply (PX_same c1); [|reflexivity|reflexivity|intros []; reflexivity].
    eapply PX_data_send; [| |..|exact E]; [| |reflexivity..|discriminate]; [apply TI_fresh; [intros []; auto|intros [] e []|constructor]|].
    right. split; [intros p g []|intros [] e []].
  - destruct p; try discriminate H. cbn [conn_inbound] in H. set (c0 := setphase cfg _ info) in *.
    assert (I0 : PX c0 /\ cst c0 = Scr) by (split; [right; split; [intros p g []|intros [] e []]|reflexivity]). clearbody c0. destruct I0 as [I0 S0].
    destruct (2 <? cphase c0); cbn [bind] in H; [destruct (sendmsg c0 _ _) as [c1|] eqn:E; cbn [bind] in H; [|discriminate]; apply sendmsg_log in E; subst c1|];
      injection H as <-; (split; [|left; cbn; rewrite S0; split; discriminate]).
    + apply (PX_same (emit (emit c0 (OTx (NAckConn (cdst c0)) no_tag)) (OSc (SPkt (NCI rci s fcopt info segsize pl)) false))); [|reflexivity|reflexivity|intros []; reflexivity]. repeat (apply PX_emit; auto).
    + apply (PX_same (emit c0 (OSc (SPkt (NCI rci s fcopt info segsize pl)) false))); [|reflexivity|reflexivity|intros []; reflexivity]. apply PX_emit; auto.
  - eapply step_XI; [exact PH|exact EO|eapply cexec_AJ; eauto|exact IH|exact E].
Qed.
