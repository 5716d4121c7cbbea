(** Acknowledgement numbers in the packets a connection sends: each is the
    number of packets it had received on that subchannel when the field was
    filled in (the ghost tag), modulo 4096. *)
From Verif Require Import Base Dict ModuloModel ModuloProps NspPktModel NspModel NspFrame NspPrim NspRx NspSend NspSendInv NspFlow NspRetx.

Definition fld (q : Z) (a : ack) : Prop := a = None \/ exists n, a = Some (n, q) /\ 0 <= n < 4096.
Definition lab_ok (m : Z) (p : npkt) (gd : option Z) : Prop :=
  fld 0 (ack1 p) /\ fld 2 (ack2 p) /\ forall n, In (CD, n) (eacks p) -> exists r, gd = Some r /\ n = r mod 4096 /\ 0 <= r <= m.
Definition num_ok (s : sub) : Prop := 0 <= rcvd s /\ acknum s = rcvd s mod 4096.
Record TI (c : conn) : Prop := mk_TI {
  t_num : forall ch, num_ok (getc c ch);
  t_ent : forall ch e, In e (pending (getc c ch)) -> is_ackhdr (tp e) = true -> chan_of (tp e) = ch /\ lab_ok (rcvd (cdata c)) (tp e) (tgd e);
  t_log : forall p g, In (OTx p g) (clog c) -> is_ackhdr p = true -> lab_ok (rcvd (cdata c)) p (g_d g) }.
Definition quiet (l : list out) : Prop := Forall (fun o => match o with OTx p _ => is_ackhdr p = false | _ => True end) l.
Lemma quiet_one : forall o, match o with OTx p _ => is_ackhdr p = false | _ => True end -> quiet [o].
Proof. intros o H. constructor; [exact H|constructor]. Qed.
Lemma lab_mono : forall m m' p g, m <= m' -> lab_ok m p g -> lab_ok m' p g.
Proof. intros m m' p g L (A & B & C). split; [exact A|]. split; [exact B|]. intros n N. destruct (C n N) as (r & R1 & R2 & R3). exists r. repeat split; auto; lia. Qed.
Lemma lab_fresh : forall m p g, ack1 p = None -> ack2 p = None -> lab_ok m p g.
Proof. intros m p g A B. split; [left; exact A|]. split; [left; exact B|]. intros n N. unfold eacks, dacks in N. rewrite A, B in N. destruct (is_ackhdr p); destruct N. Qed.

Lemma TI_keep : forall c c' l, (forall ch e, In e (pending (getc c' ch)) -> In e (pending (getc c ch)) \/ (is_ackhdr (tp e) = true -> chan_of (tp e) = ch /\ ack1 (tp e) = None /\ ack2 (tp e) = None)) ->
  (forall ch, num_ok (getc c ch) -> num_ok (getc c' ch)) -> rcvd (cdata c) <= rcvd (cdata c') -> clog c' = clog c ++ l -> quiet l -> TI c -> TI c'.
Proof.
  intros c c' l P N M L Q [A B C]. constructor.
  - intros ch. apply N. apply A.
  - intros ch e H AH. destruct (P ch e H) as [X|X].
    + destruct (B ch e X AH) as [B1 B2]. split; [exact B1|]. eapply lab_mono; eauto.
    + destruct (X AH) as (X1 & X2 & X3). split; [exact X1|]. now apply lab_fresh.
  - intros p g H AH. rewrite L in H. apply in_app_or in H as [H|H]; [eapply lab_mono; [exact M|]; eauto|].
    unfold quiet in Q. rewrite Forall_forall in Q. specialize (Q _ H). cbn in Q. congruence.
Qed.
Lemma TI_scal : forall c c', TI c -> coth c' = coth c -> cdata c' = cdata c -> clog c' = clog c -> TI c'.
Proof.
  intros c c' H A B C. assert (G : forall ch, getc c' ch = getc c ch) by (intros []; assumption).
  apply (TI_keep c c' []); rewrite ?B, ?C, ?app_nil_r; auto; try (intros ch; rewrite G; auto); [lia|constructor].
Qed.
Lemma TI_emit : forall c o, TI c -> quiet [o] -> TI (emit c o).
Proof. intros c o H Q. apply (TI_keep c (emit c o) [o]); [intros [] e X; left; exact X|intros [] X; exact X|cbn; lia|reflexivity|exact Q|exact H]. Qed.
Lemma TI_putc : forall c ch s, TI c -> (forall e, In e (pending s) -> In e (pending (getc c ch)) \/ (is_ackhdr (tp e) = true -> chan_of (tp e) = ch /\ ack1 (tp e) = None /\ ack2 (tp e) = None)) ->
  (num_ok (getc c ch) -> num_ok s) -> rcvd (getc c ch) <= rcvd s -> TI (putc c ch s).
Proof.
  intros c ch s H P N M. apply (TI_keep c (putc c ch s) []); auto.
  - intros k e. destruct ch, k; cbn [getc putc set_cdata set_coth cdata coth]; auto.
  - intros k. destruct ch, k; cbn [getc putc set_cdata set_coth cdata coth] in *; auto.
  - destruct ch; cbn [getc putc set_cdata set_coth cdata coth] in *; lia.
  - destruct ch; cbn; now rewrite app_nil_r.
  - constructor.
Qed.
Ltac same_sub := first [reflexivity | intros ?; assumption | lia | (intros ? ?; auto)].
Lemma TI_putc0 : forall c ch s, TI c -> pending s = pending (getc c ch) -> rcvd s = rcvd (getc c ch) -> acknum s = acknum (getc c ch) -> TI (putc c ch s).
Proof.
  intros c ch s H A B C. apply TI_putc; auto; [rewrite A; auto| |lia]. unfold num_ok. now rewrite B, C.
Qed.
Lemma TI_tosc : forall c p r, TI c -> TI (to_sc c p r).
Proof.
  intros c p r H. destruct p; cbn [to_sc]; try (apply TI_emit; [exact H|apply quiet_one; exact I]).
  destruct (casm c); repeat match goal with |- context [if ?b then _ else _] => destruct b end; try (apply TI_emit; [|apply quiet_one; exact I]); try exact H; now apply (TI_scal c).
Qed.
Lemma TI_close : forall c c', TI c -> coth c' = sub_close (coth c) -> cdata c' = sub_close (cdata c) -> clog c' = clog c -> TI c'.
Proof.
  intros c c' H A B C. apply (TI_keep c c' []); rewrite ?C, ?app_nil_r; auto; [| | |constructor].
  - intros [] e; cbn [getc]; rewrite ?A, ?B; cbn [pending sub_close set_ooo set_pending]; contradiction.
  - intros []; cbn [getc]; rewrite ?A, ?B; auto.
  - rewrite B. cbn. lia.
Qed.
(** Filling in the acknowledgements. *)
Lemma acks_lab : forall c ch x p g c' p' g', set_acks c ch x p g = (c', p', g') -> (forall k, num_ok (getc c k)) -> is_ackhdr p = true -> chan_of p = ch ->
  lab_ok (rcvd (cdata c)) p (fst g) -> is_ackhdr p' = true /\ chan_of p' = ch /\ lab_ok (rcvd (cdata c)) p' (fst g') /\
  forall k, pending (getc c' k) = pending (getc c k) /\ rcvd (getc c' k) = rcvd (getc c k) /\ acknum (getc c' k) = acknum (getc c k).
Proof.
  intros c ch x p g c' p' g' H N AH CH (L1 & L2 & L3).
  assert (ST : forall k, 0 <= acknum (getc c k) < 4096) by (intros k; destruct (N k) as [_ ->]; lia).
  assert (F : forall k q, fld q (Some (acknum (getc c k), q))) by (intros k q; right; eauto).
  assert (E : forall p0, is_ackhdr p0 = true -> eacks p0 = tgt (chan_of p0) (ack1 p0) ++ tgt (chan_of p0) (ack2 p0)) by (intros p0 X; unfold eacks; rewrite X; reflexivity).
  rewrite (E p AH), CH in L3.
  assert (A1 : forall a, is_ackhdr (set_ack1 p a) = true /\ chan_of (set_ack1 p a) = ch /\ ack1 (set_ack1 p a) = a /\ ack2 (set_ack1 p a) = ack2 p) by (intros a; destruct p; try discriminate AH; auto).
  assert (A2 : forall p0 a, is_ackhdr p0 = true -> is_ackhdr (set_ack2 p0 a) = true /\ chan_of (set_ack2 p0 a) = chan_of p0 /\ ack1 (set_ack2 p0 a) = ack1 p0 /\ ack2 (set_ack2 p0 a) = a) by (intros p0 a X; destruct p0; try discriminate X; auto).
  unfold set_acks in H.
  (* the first field *)
  destruct (if x || ackpending (getc c ch) then _ else _) as [[c1 p1] g1] eqn:S1 in H.
  assert (I1 : is_ackhdr p1 = true /\ chan_of p1 = ch /\ lab_ok (rcvd (cdata c)) p1 (fst g1) /\ ack2 p1 = ack2 p /\
     forall k, pending (getc c1 k) = pending (getc c k) /\ rcvd (getc c1 k) = rcvd (getc c k) /\ acknum (getc c1 k) = acknum (getc c k)).
  { destruct (x || ackpending (getc c ch)); injection S1 as <- <- <-.
    - destruct (A1 (Some (acknum (getc c ch), 0))) as (B1 & B2 & B3 & B4). split; [exact B1|]. split; [exact B2|]. split; [|split; [exact B4|]].
      + split; [rewrite B3; apply F|]. split; [rewrite B4; exact L2|]. intros n IN. rewrite (E _ B1), B2, B3, B4 in IN. apply in_app_or in IN as [IN|IN].
        * cbn [tgt is_cross] in IN. change ((0 =? 2) || (0 =? 3)) with false in IN. destruct IN as [IN|[]]. injection IN as -> <-. cbn [fst]. destruct (N CD) as [N1 N2]. exists (rcvd (getc c CD)). split; [reflexivity|]. split; [exact N2|cbn [getc] in *; lia].
        * destruct ch; cbn [fst].
          { exfalso. destruct L2 as [L2|(m & L2 & _)]; rewrite L2 in IN; [destruct IN|]. cbn in IN. destruct IN as [IN|[]]. discriminate. }
          { apply L3. apply in_or_app. auto. }
      + intros k. destruct ch, k; cbn; auto.
    - split; [exact AH|]. split; [exact CH|]. split; [|auto]. split; [exact L1|]. split; [exact L2|]. rewrite (E p AH), CH. exact L3. }
  clear S1. destruct I1 as (B1 & B2 & (B3 & B4 & B5) & B6 & B7). rewrite (E p1 B1), B2 in B5.
  destruct (cphase c =? 4); [|injection H as <- <- <-; split; [exact B1|]; split; [exact B2|]; split; [split; [exact B3|]; split; [exact B4|]; rewrite (E p1 B1), B2; exact B5|exact B7]].
  destruct (ackpending (getc c1 (cross ch))); injection H as <- <- <-.
  2:{ split; [exact B1|]. split; [exact B2|]. split; [split; [exact B3|]; split; [exact B4|]; rewrite (E p1 B1), B2; exact B5|exact B7]. }
  destruct (A2 p1 (Some (acknum (getc c1 (cross ch)), 2)) B1) as (D1 & D2 & D3 & D4). rewrite B2 in D2. destruct (B7 (cross ch)) as (_ & RX & AX).
  split; [exact D1|]. split; [exact D2|]. split.
  - split; [rewrite D3; exact B3|]. split; [rewrite D4, AX; apply F|]. intros n IN. rewrite (E _ D1), D2, D3, D4 in IN. apply in_app_or in IN as [IN|IN].
    + destruct ch; cbn [fst].
      * apply B5. apply in_or_app. auto.
      * exfalso. destruct B3 as [B3|(m & B3 & _)]; rewrite B3 in IN; [destruct IN|]. cbn in IN. destruct IN as [IN|[]]. discriminate.
    + cbn [tgt] in IN. change (is_cross 2) with true in IN. destruct IN as [IN|[]]. injection IN as X <-. destruct ch; [discriminate X|]. cbn [fst cross] in *. exists (rcvd (getc c1 CD)). split; [reflexivity|]. rewrite RX, AX. destruct (N CD) as [N1 N2]. cbn [getc] in *. split; [exact N2|lia].
  - intros k. destruct (B7 k) as (E1 & E2 & E3). destruct ch, k; cbn in *; auto.
Qed.
Lemma TI_tx : forall c ch i c', TI c -> tx_send c ch i = Ok c' -> TI c'.
Proof.
  intros c ch i c' [A B C] H. unfold tx_send in H. destruct (nth_error (pending (getc c ch)) i) as [e|] eqn:N; [|discriminate].
  destruct (fill_packet c ch e) as [[c1 p1] g] eqn:F. pose proof (fill_data _ _ _ _ _ _ F) as (_ & FA & _ & _ & FL & _). pose proof (nth_error_In _ _ N) as IN.
  assert (K : (is_ackhdr p1 = true -> chan_of p1 = ch /\ lab_ok (rcvd (cdata c)) p1 (fst g)) /\
     forall k, pending (getc c1 k) = pending (getc c k) /\ rcvd (getc c1 k) = rcvd (getc c k) /\ acknum (getc c1 k) = acknum (getc c k)).
  { destruct (is_ackhdr (tp e)) eqn:AH.
    - destruct (B ch e IN AH) as [CH LB]. assert (F2 : set_acks c ch false (tp e) (tgd e, tgo e) = (c1, p1, g)) by (unfold fill_packet in F; destruct (tp e); try discriminate AH; exact F).
      destruct (acks_lab _ _ _ _ _ _ _ _ F2 A AH CH LB) as (X1 & X2 & X3 & X4). auto.
    - split; [rewrite FA; discriminate|]. unfold fill_packet in F. destruct (tp e); try discriminate AH; injection F as <- <- <-; auto. }
  destruct K as [K1 K2]. apply sendmsg_log in H. subst c'.
  assert (G : forall k, getc (emit (putc c1 ch (set_pending (getc c1 ch) (upd i (mk_txe p1 (tseg e) (tmsg e) (ttries e + 1) true true (fst g) (snd g)) (pending (getc c1 ch))))) (OTx p1 (mk_tag (tseg e) (tmsg e) (fst g) (snd g)))) k =
    if match k, ch with CD, CD | CO, CO => true | _, _ => false end then set_pending (getc c1 ch) (upd i (mk_txe p1 (tseg e) (tmsg e) (ttries e + 1) true true (fst g) (snd g)) (pending (getc c1 ch))) else getc c1 k) by (intros k; destruct k, ch; reflexivity).
  set (c2 := emit _ _) in *.
  assert (RC : rcvd (cdata c2) = rcvd (cdata c)). { destruct (K2 CD) as (_ & X & _). change (cdata c2) with (getc c2 CD). rewrite G. destruct ch; exact X. }
  constructor.
  - intros k. rewrite G. destruct (K2 k) as (_ & X & Y). destruct (A k) as [A1 A2]. unfold num_ok. destruct k, ch; cbn [getc rcvd acknum set_pending] in *; rewrite X, Y; auto.
  - rewrite RC. intros k x IX AX. rewrite G in IX. destruct (K2 k) as (X & _ & _). destruct (match k, ch with CD, CD | CO, CO => true | _, _ => false end) eqn:Q.
    + assert (k = ch) by (destruct k, ch; try discriminate Q; reflexivity). subst k. cbn [pending set_pending] in IX. rewrite X in IX. apply in_upd in IX as [-> |IX]; [cbn [tp tgd] in *; auto|eauto].
    + rewrite X in IX. eauto.
  - rewrite RC. intros p g0 IX AX. unfold c2 in IX. cbn [emit clog set_clog] in IX. apply in_app_or in IX as [IX|[IX|[]]].
    + assert (Y : clog (putc c1 ch (set_pending (getc c1 ch) (upd i (mk_txe p1 (tseg e) (tmsg e) (ttries e + 1) true true (fst g) (snd g)) (pending (getc c1 ch))))) = clog c1) by (destruct ch; reflexivity).
      rewrite Y, FL in IX. eauto.
    + injection IX as <- <-. cbn [g_d]. apply K1. exact AX.
Qed.
Lemma TI_sendack : forall c ch c', TI c -> send_ack c ch = Ok c' -> TI c'.
Proof.
  intros c ch c' T H. unfold send_ack in H. set (c0 := putc c ch _) in *. assert (T0 : TI c0) by (apply TI_putc0; auto). clearbody c0. clear T c.
  destruct (set_acks c0 ch true _ _) as [[c1 p1] g] eqn:SA. destruct T0 as [A B C].
  assert (X : is_ackhdr p1 = true /\ chan_of p1 = ch /\ lab_ok (rcvd (cdata c0)) p1 (fst g) /\ forall k, pending (getc c1 k) = pending (getc c0 k) /\ rcvd (getc c1 k) = rcvd (getc c0 k) /\ acknum (getc c1 k) = acknum (getc c0 k)).
  { eapply acks_lab; [exact SA|exact A|destruct ch; reflexivity..|]. destruct ch; apply lab_fresh; reflexivity. }
  destruct X as (_ & _ & X1 & X2). pose proof (set_acks_frame _ _ _ _ _ _ _ _ SA) as (_ & CL & _). apply sendmsg_log in H. subst c'.
  assert (RC : rcvd (cdata c1) = rcvd (cdata c0)) by (destruct (X2 CD) as (_ & Y & _); exact Y).
  constructor.
  - intros k. destruct (X2 k) as (_ & Y1 & Y2). destruct (A k) as [A1 A2]. unfold num_ok. destruct k; cbn [getc emit set_clog cdata coth] in *; rewrite Y1, Y2; auto.
  - intros k x IX AX. destruct (X2 k) as (Y0 & _ & _). cbn [emit set_clog cdata]. rewrite RC. apply B; [|exact AX]. destruct k; cbn [getc emit set_clog cdata coth] in *; rewrite <- Y0; exact IX.
  - intros p g0 IX AX. cbn [emit set_clog cdata clog] in *. rewrite RC. apply in_app_or in IX as [IX|[IX|[]]]; [rewrite CL in IX; eauto|]. injection IX as <- <-. exact X1.
Qed.
Lemma TI_bump : forall c ch n c', TI c -> bump c ch n = Ok c' -> TI c'.
Proof. intros c ch n c' H E. unfold bump in E. destruct (seqmax _ _); cbn [bind] in E; [|discriminate]. injection E as <-. apply TI_putc0; auto. Qed.
Lemma TI_data_send : forall cfg c p c', TI c -> ack1 p = None -> ack2 p = None -> (is_ackhdr p = true -> is_data p = true) -> data_send cfg c p = Ok c' -> TI c'.
Proof.
  intros cfg c p c' H N1 N2 D E. unfold data_send in E. destruct (make_entry cfg c p) as [e s1] eqn:ME. set (c1 := set_cdata c _) in *.
  assert (H1 : TI c1).
  { unfold c1. assert (X : (is_ackhdr (tp e) = true -> chan_of (tp e) = CD /\ ack1 (tp e) = None /\ ack2 (tp e) = None) /\ rcvd s1 = rcvd (cdata c) /\ acknum s1 = acknum (cdata c)).
    { destruct p; cbn [make_entry] in ME; injection ME as <- <-; cbn [tp is_ackhdr ack1 ack2 chan_of] in *; auto; (split; [intros X; try discriminate X; specialize (D eq_refl); discriminate D|auto]). }
    destruct X as (X1 & X2 & X3). apply (TI_putc c CD); auto; cbn [pending set_pending rcvd getc]; [|unfold num_ok; cbn [rcvd acknum set_pending]; now rewrite X2, X3|lia].
    intros x IX. apply in_app_or in IX as [IX|[<- |[]]]; auto. }
  clearbody c1. destruct (send_qe cfg c1 _) as [[c2 b]|] eqn:S; cbn [bind] in E; [|discriminate].
  assert (H2 : TI c2).
  { unfold send_qe in S. destruct (nth_error _ _) as [e0|]; [|discriminate]. destruct (_ && _) in S; [injection S as <- <-; exact H1|].
    destruct (tx_send c1 CD _) as [c3|] eqn:T; cbn [bind] in S; [|discriminate]. injection S as <- <-. eapply TI_tx; eauto. }
  destruct (_ && _) in E; [eapply TI_bump; eauto|injection E as <-; exact H2].
Qed.
Lemma TI_other_send : forall c p c' b, TI c -> chan_of p = CO -> ack1 p = None -> ack2 p = None -> other_send c p = Ok (c', b) -> TI c'.
Proof.
  intros c p c' b H CH N1 N2 E. unfold other_send in E. destruct (negb (is_ls p) && _); [injection E as <- <-; apply TI_emit; [exact H|apply quiet_one; exact I]|].
  set (e := mk_txe p 0 _ 0 false false None None) in *. set (c1 := set_coth c _) in *.
  assert (H1 : TI c1).
  { apply (TI_putc c CO); auto; cbn [pending set_pending rcvd getc set_nextmsg]; [|lia]. intros x IX. apply in_app_or in IX as [IX|[<- |[]]]; auto. }
  destruct (tx_send c1 CO _) as [c2|] eqn:T; cbn [bind] in E; [|discriminate].
  destruct (bump c2 CO (segnum p)) as [c3|] eqn:B; cbn [bind] in E; [|discriminate]. injection E as <- <-. eapply TI_bump; [|exact B]. eapply TI_tx; eauto.
Qed.
Lemma sub_ack_num : forall s n s', sub_ack s n = Ok s' -> rcvd s' = rcvd s /\ acknum s' = acknum s.
Proof.
  intros s n s' S. assert (PA : forall m s0 s1, pop_acked m s0 = Ok s1 -> rcvd s1 = rcvd s0 /\ acknum s1 = acknum s0).
  { induction m as [|m IH]; intros s0 s1 X; cbn [pop_acked] in X; [injection X as <-; auto|]. destruct (pending s0) as [|e t] eqn:P; [discriminate|]. apply (IH _ _ X). }
  unfold sub_ack in S. destruct (pending s) as [|e t] eqn:P; [injection S as <-; auto|].
  repeat match type of S with
  | context [if ?b then _ else _] => destruct b
  | (let* _ := ?r in _) = _ => destruct r; cbn [bind] in S; [|discriminate]
  end; try (injection S as <-; auto); try discriminate; eapply PA; exact S.
Qed.
Lemma TI_chan_ack : forall c ch n c', TI c -> chan_ack c ch n = Ok c' -> TI c'.
Proof.
  intros c ch n c' H E. unfold chan_ack in E. destruct (sub_ack (getc c ch) n) as [s|] eqn:S; cbn [bind] in E; [|discriminate]. injection E as <-.
  destruct (sub_ack_num _ _ _ S) as [X Y]. apply sub_ack_skip in S as ((j & J) & _). apply TI_putc; auto; [|unfold num_ok; now rewrite X, Y|lia].
  intros e IN. left. rewrite J in IN. now apply skip_in in IN.
Qed.
Lemma TI_acc : forall c ch num p, TI c -> mod_add 4096 (acknum (getc c ch)) 1 = Ok num -> TI (acc c ch num p).
Proof.
  intros c ch num p H M. unfold acc. set (c0 := putc c ch _).
  assert (H0 : TI c0).
  { apply TI_putc; auto; cbn [pending rcvd acknum set_rcvd set_ackpending set_acknum]; [|lia]. intros [N1 N2]. split; cbn [rcvd acknum set_rcvd set_ackpending set_acknum]; [lia|].
    rewrite N2 in M. apply mod_next in M; auto. }
  clearbody c0. clear H M c.
  assert (G : TI (emit c0 (ODeliver ch p))) by (apply TI_emit; [exact H0|apply quiet_one; exact I]).
  destruct ch; [apply TI_tosc; exact G|]. destruct (is_ls p); [|apply TI_tosc; exact G].
  destruct p; try exact G. cbn [credit]. destruct (_ =? 0).
  - destruct (grant _ _ _) as [s1|] eqn:GR; [|exact G]. apply (TI_putc0 _ CD); [exact G|..]; unfold grant in GR; repeat match type of GR with context [if ?b then _ else _] => destruct b end; try discriminate; injection GR as <-; reflexivity.
  - unfold other_ls. destruct (0 <=? _); [|exact G]. apply (TI_putc0 _ CO); [exact G|reflexivity..].
Qed.
Lemma TI_put : forall c ch i e e1, TI c -> nth_error (pending (getc c ch)) i = Some e -> tp e1 = tp e -> tgd e1 = tgd e -> TI (put_entry c ch i e1).
Proof.
  intros c ch i e e1 [A B C] N T1 T2. pose proof (nth_error_In _ _ N) as IN. constructor.
  - intros k. specialize (A k). destruct k, ch; exact A.
  - assert (RC : rcvd (cdata (put_entry c ch i e1)) = rcvd (cdata c)) by (destruct ch; reflexivity). rewrite RC.
    intros k x IX AX. assert (Y : In x (pending (getc c k)) \/ k = ch /\ x = e1).
    { destruct k, ch; cbn in IX; auto; apply in_upd in IX as [-> |IX]; auto. }
    destruct Y as [Y|[-> -> ]]; [eauto|]. rewrite T1, T2 in *. eauto.
  - intros p g IX AX. destruct ch; cbn in IX |- *; eauto.
Qed.
Lemma TI_prim : forall cfg arr l c c', prim cfg arr false l c c' -> TI c -> TI c'.
Proof.
  intros cfg arr l c c' H O. remember false as b eqn:HB. destruct H.
  - destruct H. now apply (TI_scal c).
  - now apply (TI_scal c).
  - now apply (TI_scal c).
  - eapply TI_data_send; [| | | |exact H0]; [now apply (TI_scal c)|reflexivity..|discriminate].
  - now apply (TI_scal c).
  - apply (TI_scal c1); auto. unfold disc_rej in H0. destruct (_ || _ || _) in H0; [discriminate|]. eapply TI_data_send; [| | | |exact H0]; [now apply (TI_close c)|reflexivity..|discriminate].
  - now apply (TI_close c).
  - apply TI_emit; [exact O|apply quiet_one; exact I].
  - apply TI_emit; [exact O|apply quiet_one; exact I].
  - apply sendmsg_log in H2. subst c'. apply TI_emit; [exact O|apply quiet_one]. exact H.
  - eapply TI_sendack; eauto.
  - apply TI_putc0; auto.
  - apply (TI_putc0 c CD); auto.
  - eapply TI_bump; [|exact H4]. eapply TI_tx; eauto.
  - eapply TI_tx; eauto.
  - eapply TI_bump; eauto.
  - congruence.
  - apply (TI_putc0 _ CO); [|reflexivity..]. eapply TI_other_send; [exact O| | | |exact H]; reflexivity.
  - eapply TI_other_send; [| | | |exact H1]; [apply (TI_putc0 c CO); [exact O|reflexivity..]|reflexivity..].
  - eapply TI_chan_ack; eauto.
  - eapply TI_chan_ack; eauto.
  - apply TI_putc0; auto.
  - now apply TI_acc.
  - apply TI_acc; [|destruct ch; exact H1]. apply TI_putc0; auto.
  - eapply TI_tx; [|exact H3]. eapply TI_put; [exact O|exact H|reflexivity..].
  - eapply TI_put; [exact O|exact H|reflexivity..].
  - eapply TI_put; [exact O|exact H|reflexivity..].
  - eapply (TI_close (to_sc c (NDI 0 0 UNREACH []) false)); [apply TI_tosc; exact O|destruct ch; reflexivity..].
Qed.
Lemma TI_segs : forall cfg l c c', TI c -> send_segs cfg c l = Ok c' -> TI c'.
Proof.
  intros cfg. induction l as [|[[bo eo] pl] l IH]; intros c c' T H; cbn [send_segs] in H; [injection H as <-; exact T|].
  destruct (data_send cfg c _) as [c1|] eqn:E; cbn [bind] in H; [|discriminate]. eapply IH; [|exact H]. eapply TI_data_send; [exact T|..|exact E]; reflexivity || (intros; reflexivity).
Qed.
Lemma TI_step : forall cfg c e c', 1 <= phase cfg -> ev_ok e -> TI c -> cstep cfg c e = Ok c' -> TI c'.
Proof.
  intros cfg c e c' PH EO O H. destruct (is_send e) eqn:S.
  - destruct e; try discriminate S. cbn [cstep] in H. unfold conn_send in H.
    destruct (cst c) eqn:ST; cbn [cstate_eqb negb orb] in H; try (injection H as <-; apply TI_emit; [exact O|apply quiet_one; exact I]).
    destruct (cshut c); [injection H as <-; apply TI_emit; [exact O|apply quiet_one; exact I]|]. destruct (csegsize c =? 0); [discriminate|].
    eapply TI_segs; [|exact H]. apply TI_emit; [exact O|apply quiet_one; exact I].
  - eapply (star_inv cfg (ev_arr e) false); [intros l a b X; eapply TI_prim; exact X|eapply step_star; eauto|exact O].
Qed.
Lemma TI_fresh : forall c, (forall ch, acknum (getc c ch) = 0 /\ rcvd (getc c ch) = 0) -> (forall ch e, In e (pending (getc c ch)) -> is_ackhdr (tp e) = false) -> quiet (clog c) -> TI c.
Proof.
  intros c N P Q. constructor.
  - intros ch. destruct (N ch) as [A B]. unfold num_ok. rewrite A, B. split; [lia|reflexivity].
  - intros ch e H AH. rewrite (P ch e H) in AH. discriminate.
  - intros p g H AH. unfold quiet in Q. rewrite Forall_forall in Q. specialize (Q _ H). cbn in Q. congruence.
Qed.
Lemma TI_outbound : forall cfg src dest x c, conn_outbound cfg src dest x = Ok c -> TI c.
Proof.
  intros cfg src dest x c H. unfold conn_outbound in H. set (c0 := mk_conn Sci _ _ _ _ _ _ _ _ _ _ _ _ _) in *.
  destruct (data_send cfg c0 _) as [c1|] eqn:E; cbn [bind] in H; [|discriminate]. injection H as <-. apply (TI_scal c1); auto.
  eapply TI_data_send; [|..|exact E]; [|reflexivity..|discriminate]. apply TI_fresh; [intros []; auto|intros [] e []|constructor].
Qed.
Lemma TI_inbound : forall cfg src dest p c, conn_inbound cfg src dest p = Ok c -> TI c.
Proof.
  intros cfg src dest p c H. destruct p; try discriminate H. cbn [conn_inbound] in H.
  destruct (if 2 <? _ then _ else _) as [c1|] eqn:E in H; cbn [bind] in H; [|discriminate]. injection H as <-.
  set (c0 := setphase cfg _ info) in *. assert (R0 : TI c0) by (apply TI_fresh; [intros []; auto|intros [] e []|constructor]).
  assert (R1 : TI c1) by (destruct (2 <? cphase c0); [apply sendmsg_log in E; subst c1; apply TI_emit; [exact R0|apply quiet_one; reflexivity]|injection E as <-; exact R0]).
  apply (TI_scal (to_sc c1 (NCI rci s fcopt info segsize pl) false)); auto. now apply TI_tosc.
Qed.
