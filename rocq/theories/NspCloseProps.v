(** C58: a disconnect reaches the partner and completes; a connection does not wait
    for ever. *)
From Verif Require Import Base Dict ModuloModel PacketModel NspPktModel NspPktProps NspModel NspFrame NspPrim NspRx NspRxProps NspNodeProps NspLife NspWatch NspLifeProps.

(** * Specification *)
(** The reason and the data of the last reject, disconnect or abort that was not
    refused.  38: the object did not answer. *)
Definition bye (rx : Z * list Z) (o : obs) : Z * list Z :=
  match o with Ask (VReject r x) None | Ask (VDisconnect r x) None | Ask (VAbort r x) None => (r, x) | _ => rx end.
Definition goodbye (tr : list obs) : Z * list Z := fold_left bye tr (38, []).
(** The retransmission timer of the data subchannel expires [n] times. *)
Inductive expiries (cfg : ncfg) : nat -> conn -> conn -> Prop :=
  | ex_0 : forall c, expiries cfg 0 c c
  | ex_S : forall n c c1 c', cstep cfg c (VRetx CD 0) = Ok c1 -> expiries cfg n c1 c' -> expiries cfg (S n) c c'.
Definition again (p : npkt) (o : out) : Prop := exists g, o = OTx p g.

(** * The invariant *)
Record II (rx : Z * list Z) (c : conn) : Prop := mk_II {
  ii_di : cst c = Sdi -> watched c (NDI (cdst c) (csrc c) (fst rx) (snd rx));
  ii_shut : cst c = Srun -> cshut c = true -> cdisc c = rx;
  ii_cr : cst c = Scr -> rx = (38, []) }.
Lemma II_same : forall rx c c', II rx c -> kept_ids c c' -> incl (clog c) (clog c') -> pending (cdata c') = pending (cdata c) -> II rx c'.
Proof. intros rx c c' [W1 W2 W3] (A & B & C & D & E) I P. constructor; rewrite A; [rewrite B, C; intros S; apply (watched_same c); auto|rewrite D, E; exact W2|exact W3]. Qed.
Definition plain (s : cstate) : Prop := s <> Sdi /\ s <> Srun /\ s <> Scr.
Lemma II_plain : forall rx c, plain (cst c) -> II rx c. Proof. intros rx c (A & B & C). constructor; intros; contradiction. Qed.
Lemma II_run : forall rx c, cst c = Srun -> (cshut c = true -> cdisc c = rx) -> II rx c.
Proof. intros rx c R H. constructor; intros; try congruence. auto. Qed.
Lemma II_di : forall rx c, cst c = Sdi -> watched c (NDI (cdst c) (csrc c) (fst rx) (snd rx)) -> II rx c.
Proof. intros rx c R H. constructor; intros; try congruence. Qed.
Lemma calm_II : forall rx c c', II rx c -> calm c c' -> II rx c'.
Proof. intros rx c c' [W1 W2 W3] ((A & B & C & D & E) & P). constructor; rewrite A; [rewrite B, C; intros S; apply P; auto|rewrite D, E; exact W2|exact W3]. Qed.
Ltac plain := split; [|split]; discriminate.
Lemma run_II : forall rx cfg c p c', cst c = Srun -> (cshut c = true -> cdisc c = rx) -> run_recv cfg c p = Ok c' -> II rx c'.
Proof.
  intros rx cfg c p c' R SH H. unfold run_recv in H. set (c0 := if 2 <? cphase c then set_ctimer c true else c) in *.
  assert (X : cst c0 = Srun /\ (cshut c0 = true -> cdisc c0 = rx)) by (unfold c0; destruct (2 <? cphase c); auto). clearbody c0. destruct X as [R0 S0].
  assert (G : forall ch, sub_recv cfg c0 ch p = Ok c' -> II rx c').
  { intros ch G. apply sub_recv_watched in G as ((B & C & D & E) & T & W); [|exact R0]. destruct T as [T|T]; [rewrite R0 in T; apply II_run; [exact T|]; rewrite E, D; exact S0|].
    destruct (W T) as [W1 W2]. apply II_di; [exact T|]. rewrite B, C. unfold parting in W1. rewrite (S0 W2) in W1. exact W1. }
  destruct p; try (injection H as <-; now apply II_run); try (eapply G; exact H).
  - destruct (2 <? cphase c0); [|injection H as <-; now apply II_run]. eapply calm_II; [|eapply send_ack_calm; exact H]. now apply II_run.
  - destruct (sendmsg _ _ _); cbn [bind] in H; [|discriminate]. injection H as <-. apply II_plain. plain.
  - injection H as <-. apply II_plain. plain.
Qed.
Lemma chan_ack_ids : forall c ch n c1, chan_ack c ch n = Ok c1 -> kept_ids c c1. Proof. intros c ch n c1 H. apply frame_ids. eapply chan_ack_frame. exact H. Qed.
Lemma cd_II : forall rx cfg c p c', plain (cst c) -> cshut c = false -> cd_recv cfg c p = Ok c' -> II rx c'.
Proof.
  intros rx cfg c p c' E SH H. destruct p; cbn [cd_recv] in H; try (injection H as <-; now apply II_plain).
  - destruct (chan_ack _ CD 0) as [c1|] eqn:A; cbn [bind] in H; [|discriminate]. apply chan_ack_ids in A as (_ & _ & _ & _ & A). change (cshut c1 = cshut c) in A.
    destruct (if 2 <? cphase c1 then _ else _) as [c2|] eqn:B; cbn [bind] in H; [|discriminate]. injection H as <-. apply II_run; [reflexivity|]. intros X. exfalso.
    assert (Y : cshut c2 = cshut c1). { destruct (2 <? cphase c1); [|injection B as <-; reflexivity]. destruct (send_ack c1 CD) as [c3|] eqn:C; cbn [bind] in B; [|discriminate]. injection B as <-. apply (fr_shut _ _ (send_ack_frame _ _ _ C)). }
    cbn in X. congruence.
  - destruct (sendmsg _ _ _); cbn [bind] in H; [|discriminate]. injection H as <-. apply II_plain. plain.
Qed.
Lemma recv_II : forall rx cfg c p c', II rx c -> (cst c <> Srun -> cst c <> Sdi -> cst c <> Sclosed -> cshut c = false) -> conn_recv cfg c p = Ok c' -> II rx c'.
Proof.
  intros rx cfg c p c' E SH H. unfold conn_recv in H. destruct (cst c) eqn:S.
  - assert (PL : plain (cst c)) by (rewrite S; plain). specialize (SH ltac:(discriminate) ltac:(discriminate) ltac:(discriminate)). destruct p; cbn [ci_recv] in H; try (exact (cd_II _ _ _ _ _ PL SH H)).
    + destruct (2 <? phase cfg); [|exact (cd_II _ _ _ _ _ PL SH H)]. destruct (chan_ack c CD 0); cbn [bind] in H; [|discriminate]. injection H as <-. apply II_plain. plain.
    + injection H as <-. apply II_plain. plain.
  - assert (PL : plain (cst c)) by (rewrite S; plain). specialize (SH ltac:(discriminate) ltac:(discriminate) ltac:(discriminate)). exact (cd_II _ _ _ _ _ PL SH H).
  - destruct p; cbn [cr_recv] in H; try (injection H as <-; exact E). destruct (2 <? cphase c); [|injection H as <-; exact E].
    unfold sendmsg in H. destruct (encode _); cbn [bind] in H; [|discriminate]. injection H as <-. apply (II_same rx c); [exact E|repeat split|lg|reflexivity].
  - specialize (SH ltac:(discriminate) ltac:(discriminate) ltac:(discriminate)). unfold cc_recv in H. destruct (if is_ackhdr p then chan_ack c CD 0 else Ok c) as [c1|] eqn:A; cbn [bind] in H; [|discriminate].
    assert (F : cshut c1 = cshut c) by (destruct (is_ackhdr p); [apply chan_ack_ids in A; apply A|injection A as <-; reflexivity]). eapply run_II; [| |exact H]; [reflexivity|]. intros X. cbn in X. congruence.
  - eapply run_II; [exact S|intros X; apply (ii_shut _ _ E S X)|exact H].
  - destruct p; cbn [di_recv] in H; try (injection H as <-; exact E).
    + destruct (sendmsg _ _ _); cbn [bind] in H; [|discriminate]. injection H as <-. apply II_plain. plain.
    + injection H as <-. apply II_plain. plain.
  - discriminate.
Qed.
(** A call that failed because of its reason. *)
Definition bad_call (c c' : conn) : Prop := clog c' = clog c ++ [ORaise RangeError].
Lemma api_II : forall cfg c0 c r x c', clog c0 = clog c -> cst c = Sdi -> api_disc cfg c r x = Ok c' -> II (r, x) c' /\ sends c0 c' \/ bad_call c0 c'.
Proof.
  intros cfg c0 c r x c' L S H. unfold api_disc in H. destruct (disc_rej cfg c r x) as [c1|[]] eqn:E; try discriminate H; injection H as <-; [left|right; unfold bad_call; rewrite L; reflexivity].
  pose proof (disc_sends _ _ _ _ _ E) as ((l & LL & SO) & _). apply disc_watched in E as (W & (A & B & C & _)). split; [apply II_di; [congruence|rewrite B, C; exact W]|]. exists l. rewrite L. auto.
Qed.
Lemma rej_II : forall cfg k r x c1 p, cst k = Scr -> conn_reject cfg k r x = Ok c1 -> legal r = true -> II (r, x) (to_sc c1 p false).
Proof.
  intros cfg k r x c1 p S R G. unfold conn_reject in R. rewrite S in R. cbn [cstate_eqb negb] in R. unfold api_disc in R. destruct (disc_rej cfg _ r x) as [c2|er] eqn:E.
  - injection R as <-. eapply calm_II; [|apply to_sc_calm]. apply disc_watched in E as (W & (A & B & C & _)). apply II_di; [rewrite A; reflexivity|]. rewrite B, C. exact W.
  - destruct er; try discriminate R. apply disc_range in E. congruence.
Qed.
Lemma keep_II : forall rx k f c', II rx k -> cst k <> Sdi ->
  (let* n := f in let* (c1, _) := other_send (set_coth k (set_seqnum (coth k) n)) (NLs (cdst k) (csrc k) None None (seqnum (coth k)) 0 0 0) in Ok c1) = Ok c' -> II rx c'.
Proof.
  intros rx k f c' W N H. destruct f as [n|]; cbn [bind] in H; [|discriminate]. destruct (other_send _ _) as [[c1 b]|] eqn:F; cbn [bind] in H; [|discriminate]. injection H as <-.
  apply other_send_frame in F. destruct W as [W1 W2 W3]. constructor; rewrite (fr_st _ _ F); [intros X; contradiction|rewrite (fr_disc _ _ F), (fr_shut _ _ F); exact W2|exact W3].
Qed.
Lemma timeout_II : forall rx cfg c c', II rx c -> conn_timeout cfg c = Ok c' -> II rx c'.
Proof.
  intros rx cfg c c' E H. unfold conn_timeout in H. destruct (negb (ctimer c)); [injection H as <-; exact E|]. assert (E0 : II rx (set_ctimer c false)) by (apply (II_same rx c); [exact E|repeat split|lg|reflexivity]).
  remember (set_ctimer c false) as k. clear Heqk E c. destruct (cst k) eqn:S.
  - injection H as <-. apply II_plain. plain.
  - injection H as <-. apply II_plain. plain.
  - destruct (conn_reject cfg k OBJ_FAIL []) as [c1|] eqn:R; cbn [bind] in H; [|discriminate]. injection H as <-. rewrite (ii_cr _ _ E0 S). exact (rej_II _ _ _ _ _ (NDI 0 0 OBJ_FAIL []) S R eq_refl).
  - eapply keep_II; [exact E0| |exact H]. rewrite S. discriminate.
  - eapply keep_II; [exact E0| |exact H]. rewrite S. discriminate.
  - injection H as <-. exact E0.
  - discriminate.
Qed.
(** The retransmission timer of the Disconnect Initiate. *)
Lemma retx_dying : forall cfg c e, dying c e ->
  exists c' o, retransmit cfg c CD 0 = Ok c' /\ clog c' = clog c ++ [o] /\
    if retransmits cfg <=? ttries e then cst c' = Sclosed /\ o = OSc (SPkt (NDI 0 0 UNREACH [])) false
    else kept_ids c c' /\ (exists g, o = OTx (tp e) g) /\ exists e', dying c' e' /\ tp e' = tp e /\ ttries e' = ttries e + 1.
Proof.
  intros cfg c e (P & D & T & S & N & (b & B)). unfold retransmit. cbn [getc]. rewrite P. cbn [nth_error]. rewrite T. cbn [negb]. destruct (retransmits cfg <=? ttries e) eqn:L.
  - destruct (is_ci (tp e)) eqn:IC; [destruct (tp e); discriminate|]. eexists. eexists. split; [reflexivity|]. split; [reflexivity|]. split; reflexivity.
  - destruct (is_data (tp e)) eqn:ID; [destruct (tp e); discriminate|]. cbn [negb orb].
    set (k := putc c CD _). assert (PK : pending (cdata k) = [set_tsent (set_ttimer e false) false]) by reflexivity.
    destruct (tx_send k CD 0) as [c'|er] eqn:E.
    + apply (tx_send_di k (set_tsent (set_ttimer e false) false)) in E; [|exact PK|exact D|cbn [ttries set_tsent set_ttimer]; lia]. destruct E as ((e' & W & X & Y) & S' & (g & G)).
      exists c', (OTx (tp e) g). split; [reflexivity|]. split; [exact G|]. split; [exact S'|]. split; [exists g; reflexivity|]. exists e'. auto.
    + exfalso. unfold tx_send in E. cbn [getc] in E. rewrite PK in E. cbn [nth_error] in E. unfold fill_packet in E. cbn [tp set_tsent set_ttimer] in E. destruct (tp e) eqn:TP; try discriminate D. cbn [is_ackhdr] in E.
      unfold sendmsg in E. rewrite B in E. discriminate E.
Qed.
Lemma retx_II : forall rx cfg c ch i c', II rx c -> retransmit cfg c ch i = Ok c' -> II rx c'.
Proof.
  intros rx cfg c ch i c' W H. pose proof H as H0. unfold retransmit in H.
  assert (PI : forall e1, kept_ids c (putc c ch (set_pending (getc c ch) (upd i e1 (pending (getc c ch)))))) by (intros e1; destruct ch; repeat split).
  assert (K : kept_ids c c' \/ cst c' = Sclosed).
  { destruct (nth_error _ _) as [e|]; [|injection H as <-; left; repeat split]. destruct (negb (ttimer e)); [injection H as <-; left; repeat split|].
    destruct (_ <=? _) in H; [destruct (is_ci (tp e)); injection H as <-; [left; apply PI|right; reflexivity]|].
    destruct (_ || _) in H; [left; eapply kept_ids_trans; [apply PI|apply frame_ids; eapply tx_send_frame; exact H]|injection H as <-; left; apply PI]. }
  destruct K as [K|K]; [|apply II_plain; rewrite K; plain].
  destruct (cstate_eqb (cst c) Sdi) eqn:SD; [|destruct W as [W1 W2 W3]; destruct K as (A & B & C & D & E); constructor; rewrite A; [intros X; rewrite X in SD; discriminate|rewrite D, E; exact W2|exact W3]].
  apply st_eqb in SD. pose proof (ii_di _ _ W SD) as WW. destruct K as (A & B & C & _ & _). apply II_di; [congruence|]. rewrite B, C. destruct ch.
  - destruct WW as ((e & DY & T) & (g & LG)). destruct i as [|i].
    + destruct (retx_dying cfg c e DY) as (c1 & o & E & LL & G). rewrite E in H0. injection H0 as <-. destruct (_ <=? _) in G; [destruct G; congruence|]. destruct G as (_ & _ & (e' & G1 & G2 & _)). split; [exists e'; split; [exact G1|congruence]|]. exists g. rewrite LL. apply in_or_app. left. exact LG.
    + pose proof DY as (P & _). cbn [getc] in H. rewrite P in H. cbn [nth_error] in H. destruct i; cbn [nth_error] in H; injection H as <-; (split; [exists e; auto|exists g; exact LG]).
  - apply (watched_same c); [| |exact WW].
    { destruct (nth_error _ _) as [e|]; [|injection H as <-; lg]. destruct (negb (ttimer e)); [injection H as <-; lg|].
      destruct (_ <=? _) in H; [destruct (is_ci (tp e)); injection H as <-; lg|].
      destruct (_ || _) in H; [apply tx_send_frame, frame_incl in H; exact H|injection H as <-; lg]. }
    destruct (nth_error _ _) as [e|]; [|injection H as <-; reflexivity]. destruct (negb (ttimer e)); [injection H as <-; reflexivity|].
    destruct (_ <=? _) in H; [destruct (is_ci (tp e)); injection H as <-; [reflexivity|cbn in A; congruence]|].
    destruct (_ || _) in H; [apply tx_send_other in H; exact H|injection H as <-; reflexivity].
Qed.
Lemma bye_tells : forall l rx, fold_left bye (tells l) rx = rx.
Proof. induction l as [|o l IH]; intros rx; [reflexivity|]. destruct o; try exact (IH rx). Qed.
(** [bye] for one event. *)
Definition said (rx : Z * list Z) (e : cev) (l : list out) : Z * list Z := if is_call e then bye rx (Ask e (raised l)) else rx.
Lemma bye_observed : forall e l rx, fold_left bye (observed e l) rx = said rx e l.
Proof. intros e l rx. unfold observed, said. rewrite fold_left_app, bye_tells. destruct (is_call e); reflexivity. Qed.
Lemma emit_II : forall rx c o, II rx c -> II rx (emit c o). Proof. intros rx c o W. apply (II_same rx c); [exact W|repeat split|lg|reflexivity]. Qed.
Lemma step_II : forall rx cfg c e c', II rx c -> (cst c <> Srun -> cst c <> Sdi -> cst c <> Sclosed -> cshut c = false) -> cstep cfg c e = Ok c' ->
  II (said rx e (news c c')) c' \/ bad_call c c' /\ is_call e = true.
Proof.
  intros rx cfg c e c' W SH H. unfold said. destruct e; cbn [is_call bye]; cbn [cstep] in H.
  - left. eapply recv_II; eauto.
  - left. unfold conn_accept in H. destruct (cst c) eqn:S; cbn [cstate_eqb negb] in H; try (injection H as <-; now apply emit_II). specialize (SH ltac:(discriminate) ltac:(discriminate) ltac:(discriminate)).
    destruct (cphase c =? 2).
    + pose proof (sendmsg_frame _ _ _ _ H) as F. apply II_run; [rewrite (fr_st _ _ F); reflexivity|]. rewrite (fr_shut _ _ F). cbn. congruence.
    + apply II_plain. rewrite (fr_st _ _ (data_send_frame _ _ _ _ H)). plain.
  - unfold conn_reject in H. destruct (negb _); [injection H as <-; left; rewrite (news_app c _ [ORaise WrongState]) by reflexivity; now apply emit_II|].
    eapply (api_II _ c) in H; [|reflexivity|reflexivity]. destruct H as [[H (l & L & SO)]|H]; [left|right; auto]. rewrite (news_app _ _ _ L), (proj2 (sent_tx _ SO)). exact H.
  - unfold conn_disconnect in H. destruct (cst c) eqn:S; cbn [cstate_eqb negb] in H; try (injection H as <-; left; rewrite (news_app c _ [ORaise WrongState]) by reflexivity; now apply emit_II).
    destruct (pending (cdata c)); [|injection H as <-; left; rewrite (news_app c _ []) by (cbn; now rewrite app_nil_r); now apply II_run].
    eapply (api_II _ c) in H; [|reflexivity|reflexivity]. destruct H as [[H (l & L & SO)]|H]; [left|right; auto]. rewrite (news_app _ _ _ L), (proj2 (sent_tx _ SO)). exact H.
  - unfold conn_abort in H. destruct (negb _); [injection H as <-; left; rewrite (news_app c _ [ORaise WrongState]) by reflexivity; now apply emit_II|].
    destruct (disc_rej cfg c r x) as [c1|[]] eqn:E; try discriminate H; injection H as <-; [|right; split; reflexivity]. left.
    pose proof (disc_sends _ _ _ _ _ E) as ((l & L & SO) & _). rewrite (news_app c (set_cst c1 Sdi) l L), (proj2 (sent_tx _ SO)). apply disc_watched in E as (X & (A & B & C & _)).
    apply II_di; [reflexivity|]. cbn [cdst csrc set_cst fst snd]. rewrite B, C. exact X.
  - left. unfold conn_send in H. destruct (cst c) eqn:S; cbn [cstate_eqb negb orb] in H; try (injection H as <-; now apply emit_II). destruct (cshut c) eqn:CS; [injection H as <-; now apply emit_II|].
    destruct (csegsize c =? 0); [discriminate|]. pose proof (send_segs_frame _ _ _ _ H) as F. apply II_run; [rewrite (fr_st _ _ F); exact S|]. rewrite (fr_shut _ _ F). cbn [cshut emit set_clog]. congruence.
  - left. unfold conn_interrupt in H. destruct (cst c) eqn:S; cbn [cstate_eqb negb orb] in H; try (injection H as <-; now apply emit_II). destruct (cshut c) eqn:CS; [injection H as <-; now apply emit_II|].
    destruct (16 <? zlen data); [injection H as <-; now apply emit_II|]. destruct (other_send c _) as [[c1 b]|] eqn:F; cbn [bind] in H; [|discriminate]. apply other_send_frame in F.
    assert (X : cst c' = Srun /\ cshut c' = false) by (destruct b; [destruct (mod_add _ _ _); cbn [bind] in H; [|discriminate]|]; injection H as <-; cbn [cst cshut set_coth]; rewrite (fr_st _ _ F), (fr_shut _ _ F); auto).
    destruct X as [X1 X2]. apply II_run; [exact X1|congruence].
  - left. injection H as <-. apply (II_same rx c); [exact W|repeat split|lg|reflexivity].
  - left. eapply timeout_II; eauto.
  - left. unfold holdoff in H. destruct (hold (getc c ch)); [|injection H as <-; exact W]. apply send_ack_calm in H. eapply calm_II; [|exact H]. apply (II_same rx c); [exact W|destruct ch; repeat split|destruct ch; lg|destruct ch; reflexivity].
  - left. eapply retx_II; eauto.
Qed.
Lemma KK_shut : forall two s c, KK two s c -> cst c <> Srun -> cst c <> Sdi -> cst c <> Sclosed -> cshut c = false.
Proof. intros two s c [_ K] A B C. destruct s; cbn in K; intuition congruence. Qed.
Lemma story_II : forall cfg ci tr c, 2 <= phase cfg -> story cfg ci tr c -> (forall e, ~ In (Ask e (Some RangeError)) tr) -> II (goodbye tr) c.
Proof.
  intros cfg ci tr c P H. induction H as [src dest x c H|src dest p c H|ci tr c a H IH W|ci tr c e c' H IH E]; intros N.
  - apply II_plain. apply outbound_start in H as (_ & (_ & [S _]) & _). destruct S as [-> | -> ]; plain.
  - unfold goodbye. rewrite bye_tells. apply inbound_start in H as (_ & (_ & S & _) & _); [|exact P]. constructor; intros X; [congruence|congruence|reflexivity].
  - apply II_plain. cbn. destruct W as [-> | -> ]; plain.
  - assert (D : II (goodbye tr) c) by (apply IH; intros x X; apply (N x); apply in_or_app; left; exact X).
    destruct (story_inv _ _ _ _ P H) as (s & _ & K & _). destruct (step_II _ _ _ _ _ D (KK_shut _ _ _ K) E) as [G|[G C]].
    + unfold goodbye. rewrite fold_left_app, bye_observed. exact G.
    + exfalso. apply (N e). apply in_or_app. right. unfold observed. rewrite (news_app _ _ _ G), C. left. reflexivity.
Qed.
Lemma dying_ends : forall cfg n c e, dying c e -> (Z.to_nat (retransmits cfg - ttries e) = n)%nat ->
  exists c' l, expiries cfg (S n) c c' /\ cst c' = Sclosed /\ clog c' = clog c ++ l ++ [OSc (SPkt (NDI 0 0 UNREACH [])) false] /\ Forall (again (tp e)) l /\ length l = n.
Proof.
  induction n as [|n IH]; intros c e D M; destruct (retx_dying cfg c e D) as (c1 & o & E & L & G).
  - replace (retransmits cfg <=? ttries e) with true in G by lia. destruct G as [G ->]. exists c1, []. split; [econstructor; [exact E|constructor]|]. split; [exact G|]. split; [exact L|]. split; [constructor|reflexivity].
  - replace (retransmits cfg <=? ttries e) with false in G by lia. destruct G as (S1 & (g & ->) & (e' & D' & T & R)). destruct (IH c1 e' D' ltac:(rewrite R; lia)) as (c' & l & X & C & LL & F & LE).
    exists c', (OTx (tp e) g :: l). split; [econstructor; [exact E|exact X]|]. split; [exact C|]. split; [rewrite LL, L, <- app_assoc; reflexivity|]. split; [constructor; [exists g; reflexivity|rewrite <- T; exact F]|cbn [length]; now rewrite LE].
Qed.

(** * Theorems *)
(** A connection that is being disconnected does not stay so.  If the partner says
    nothing, the message with the reason and data of the user is sent again,
    [retransmits] times at most in all; then the connection is closed and the
    user told.  This excludes users that gave a reason which was refused with an
    exception: see nsp_bad_reason_refuted. *)
Theorem nsp_disconnect_ends : forall cfg ci tr c, 2 <= phase cfg -> story cfg ci tr c -> cst c = Sdi -> (forall e, ~ In (Ask e (Some RangeError)) tr) ->
  exists n c' l, expiries cfg (S n) c c' /\ cst c' = Sclosed /\ news c c' = l ++ [OSc (SPkt (NDI 0 0 39 [])) false] /\
    Forall (again (NDI (cdst c) (csrc c) (fst (goodbye tr)) (snd (goodbye tr)))) l /\ length l = n /\ Z.of_nat n <= Z.max 0 (retransmits cfg - 1).
Proof.
  intros cfg ci tr c P H S N. destruct (ii_di _ _ (story_II _ _ _ _ P H N) S) as ((e & D & TP) & _). pose proof D as (_ & DI & _ & _ & T & _).
  destruct (dying_ends cfg _ c e D eq_refl) as (c' & l & X & C & L & F & LE). exists (Z.to_nat (retransmits cfg - ttries e)), c', l. rewrite <- TP.
  split; [exact X|]. split; [exact C|]. split; [rewrite (news_app _ _ _ L); reflexivity|]. split; [exact F|]. split; [exact LE|]. lia.
Qed.
(** The partner was told so. *)
Theorem nsp_disconnect_sent : forall cfg ci tr c, 2 <= phase cfg -> story cfg ci tr c -> cst c = Sdi -> (forall e, ~ In (Ask e (Some RangeError)) tr) ->
  exists g, In (OTx (NDI (cdst c) (csrc c) (fst (goodbye tr)) (snd (goodbye tr))) g) (clog c).
Proof. intros cfg ci tr c P H S N. apply (ii_di _ _ (story_II _ _ _ _ P H N) S). Qed.
(** A connection that waits for an answer, of the partner or of its own user, has
    its timer running.  When it expires the user is told, and the connection is
    closed or, if it was offered by a partner, refused with reason 38. *)
Theorem nsp_wait_ends : forall cfg ci tr c, 2 <= phase cfg -> story cfg ci tr c -> cst c = Sci \/ cst c = Scd \/ cst c = Scr -> word (csrc c) -> word (cdst c) ->
  ctimer c = true /\ exists c', cstep cfg c VTimer = Ok c' /\ observed VTimer (news c c') = [Tell (SPkt (NDI 0 0 38 [])) (negb (cstate_eqb (cst c) Scr))] /\
    (if cstate_eqb (cst c) Scr then cst c' = Sdi /\ exists g, In (OTx (NDI (cdst c) (csrc c) 38 []) g) (news c c') else cst c' = Sclosed).
Proof.
  intros cfg ci tr c P H W W1 W2. destruct (story_inv _ _ _ _ P H) as (s & _ & K & E & _).
  destruct (E ltac:(destruct W as [-> |[-> | -> ]]; reflexivity)) as [T _]. split; [exact T|]. cbn [cstep]. unfold conn_timeout. rewrite T. cbn [negb]. cbn [cst set_ctimer].
  destruct W as [W|[W|W]]; rewrite W; cbn [cstate_eqb negb].
  - eexists. split; [reflexivity|]. split; [|reflexivity]. match goal with |- context [news c ?k] => rewrite (news_app c k [OSc (SPkt (NDI 0 0 OBJ_FAIL [])) true] eq_refl) end. reflexivity.
  - eexists. split; [reflexivity|]. split; [|reflexivity]. match goal with |- context [news c ?k] => rewrite (news_app c k [OSc (SPkt (NDI 0 0 OBJ_FAIL [])) true] eq_refl) end. reflexivity.
  - unfold conn_reject. cbn [cst set_ctimer]. rewrite W. cbn [cstate_eqb negb].
    set (k := set_cst (set_ctimer (set_ctimer c false) false) Sdi). assert (KI : cdst k = cdst c /\ csrc k = csrc c /\ clog k = clog c /\ cst k = Sdi) by (repeat split). clearbody k. destruct KI as (K1 & K2 & K3 & K4).
    assert (X : exists g c1, disc_rej cfg k OBJ_FAIL [] = Ok c1 /\ clog c1 = clog k ++ [OTx (NDI (cdst k) (csrc k) OBJ_FAIL []) g] /\ cst c1 = cst k).
    { destruct (nsp_round_trip (NDI (cdst k) (csrc k) OBJ_FAIL [])) as [EN _]; [rewrite K1, K2; repeat split; try apply W1; try apply W2; try (unfold word, OBJ_FAIL; lia); try constructor; cbn; lia|exact I|].
      unfold disc_rej, data_send, send_qe, tx_send, sendmsg. cbn -[encode]. match goal with |- context [encode ?q] => change q with (NDI (cdst k) (csrc k) OBJ_FAIL []) end. rewrite EN. cbn [bind andb]. eexists. eexists. split; [reflexivity|]. split; reflexivity. }
    destruct X as (g & c1 & X & L & S). unfold api_disc. rewrite X. cbn [bind]. eexists. split; [reflexivity|].
    assert (LL : clog (to_sc c1 (NDI 0 0 OBJ_FAIL []) false) = clog c ++ [OTx (NDI (cdst k) (csrc k) OBJ_FAIL []) g; OSc (SPkt (NDI 0 0 OBJ_FAIL [])) false]) by (cbn [to_sc emit clog set_clog]; rewrite L, K3, <- app_assoc; reflexivity).
    rewrite (news_app _ _ _ LL). split; [reflexivity|]. split; [cbn [to_sc emit cst set_clog]; congruence|]. exists g. rewrite K1, K2. left. reflexivity.
Qed.
(** A disconnect of the partner is confirmed, the connection is gone, and its user
    is told with the reason and the data, unless the user left before. *)
Theorem nsp_disconnect_confirmed : forall cfg ci tr c d s r x c', 2 <= phase cfg -> story cfg ci tr c -> cst c <> Scr -> cstep cfg c (VRecv (NDI d s r x)) = Ok c' ->
  cst c' = Sclosed /\
  (exists g, In (OTx (NDC (if cstate_eqb (cst c) Sci || cstate_eqb (cst c) Scd then s else cdst c) (csrc c) 42) g) (news c c')) /\
  (cst c <> Sdi -> In (Tell (SPkt (NDI d s r x)) (cstate_eqb (cst c) Sci || cstate_eqb (cst c) Scd)) (observed (VRecv (NDI d s r x)) (news c c'))).
Proof.
  intros cfg ci tr c d s r x c' P H N E. cbn [cstep] in E. unfold conn_recv in E.
  assert (G : forall k b, In (OSc (SPkt (NDI d s r x)) b) k -> In (Tell (SPkt (NDI d s r x)) b) (observed (VRecv (NDI d s r x)) k)).
  { intros k b X. unfold observed. cbn [is_call app]. unfold tells. apply in_flat_map. exists (OSc (SPkt (NDI d s r x)) b). split; [exact X|left; reflexivity]. }
  destruct (cst c) eqn:S; try congruence; cbn [cstate_eqb orb].
  - cbn [ci_recv cd_recv] in E. unfold sendmsg in E. destruct (encode _); cbn [bind] in E; [|discriminate]. injection E as <-. split; [reflexivity|].
    match goal with |- context [news c ?k] => assert (L : exists g, clog k = clog c ++ [OSc (SPkt (NDI d s r x)) true; OTx (NDC s (csrc c) 42) g]) by (eexists; cbn; rewrite <- app_assoc; reflexivity) end.
    destruct L as (g & L). rewrite (news_app _ _ _ L). split; [exists g; right; left; reflexivity|]. intros _. apply G. left. reflexivity.
  - cbn [cd_recv] in E. unfold sendmsg in E. destruct (encode _); cbn [bind] in E; [|discriminate]. injection E as <-. split; [reflexivity|].
    match goal with |- context [news c ?k] => assert (L : exists g, clog k = clog c ++ [OSc (SPkt (NDI d s r x)) true; OTx (NDC s (csrc c) 42) g]) by (eexists; cbn; rewrite <- app_assoc; reflexivity) end.
    destruct L as (g & L). rewrite (news_app _ _ _ L). split; [exists g; right; left; reflexivity|]. intros _. apply G. left. reflexivity.
  - unfold cc_recv in E. cbn [is_ackhdr bind run_recv] in E. set (c0 := if _ <? _ then _ else _) in E. assert (X : clog c0 = clog c ++ [OSc SRun false] /\ cdst c0 = cdst c /\ csrc c0 = csrc c) by (unfold c0; destruct (_ <? _); repeat split).
    clearbody c0. destruct X as (X1 & X2 & X3). unfold sendmsg in E. destruct (encode _); cbn [bind] in E; [|discriminate]. injection E as <-. split; [reflexivity|].
    match goal with |- context [news c ?k] => assert (L : exists g, clog k = clog c ++ [OSc SRun false; OSc (SPkt (NDI d s r x)) false; OTx (NDC (cdst c) (csrc c) 42) g]) by (eexists; cbn; rewrite X1, X2, X3, <- !app_assoc; reflexivity) end.
    destruct L as (g & L). rewrite (news_app _ _ _ L). split; [exists g; right; right; left; reflexivity|]. intros _. apply G. right. left. reflexivity.
  - cbn [run_recv] in E. set (c0 := if _ <? _ then _ else _) in E. assert (X : clog c0 = clog c /\ cdst c0 = cdst c /\ csrc c0 = csrc c) by (unfold c0; destruct (_ <? _); repeat split).
    clearbody c0. destruct X as (X1 & X2 & X3). unfold sendmsg in E. destruct (encode _); cbn [bind] in E; [|discriminate]. injection E as <-. split; [reflexivity|].
    match goal with |- context [news c ?k] => assert (L : exists g, clog k = clog c ++ [OSc (SPkt (NDI d s r x)) false; OTx (NDC (cdst c) (csrc c) 42) g]) by (eexists; cbn; rewrite X1, X2, X3, <- !app_assoc; reflexivity) end.
    destruct L as (g & L). rewrite (news_app _ _ _ L). split; [exists g; right; left; reflexivity|]. intros _. apply G. left. reflexivity.
  - cbn [di_recv] in E. unfold sendmsg in E. destruct (encode _); cbn [bind] in E; [|discriminate]. injection E as <-. split; [reflexivity|].
    match goal with |- context [news c ?k] => assert (L : exists g, clog k = clog c ++ [OTx (NDC (cdst c) (csrc c) 42) g]) by (eexists; reflexivity) end.
    destruct L as (g & L). rewrite (news_app _ _ _ L). split; [exists g; left; reflexivity|]. intros X. congruence.
Qed.

(** * Examples *)
Lemma dead_step : forall cfg c e c', cst c = Sdi -> quiet c -> (forall p, e <> VRecv p) -> cstep cfg c e = Ok c' -> cst c' = Sdi /\ quiet c' /\ forall p g, ~ In (OTx p g) (news c c').
Proof.
  intros cfg c e c' S (T & Q) N H.
  assert (G : forall x, c' = emit c (ORaise x) -> cst c' = Sdi /\ quiet c' /\ forall p g, ~ In (OTx p g) (news c c')).
  { intros x ->. split; [exact S|]. split; [split; [exact T|intros []; [apply (Q CD)|apply (Q CO)]]|]. rewrite (news_app c (emit c (ORaise x)) [ORaise x] eq_refl). intros p g [X|[]]. discriminate X. }
  assert (K : c' = c -> cst c' = Sdi /\ quiet c' /\ forall p g, ~ In (OTx p g) (news c c')).
  { intros ->. split; [exact S|]. split; [split; [exact T|exact Q]|]. rewrite (news_app c c []) by (symmetry; apply app_nil_r). intros p g []. }
  destruct e; cbn [cstep] in H; try (elim (N p); reflexivity).
  - unfold conn_accept in H. rewrite S in H. injection H as H. eapply G. symmetry. exact H.
  - unfold conn_reject in H. rewrite S in H. injection H as H. eapply G. symmetry. exact H.
  - unfold conn_disconnect in H. rewrite S in H. injection H as H. eapply G. symmetry. exact H.
  - unfold conn_abort in H. rewrite S in H. injection H as H. eapply G. symmetry. exact H.
  - unfold conn_send in H. rewrite S in H. injection H as H. eapply G. symmetry. exact H.
  - unfold conn_interrupt in H. rewrite S in H. injection H as H. eapply G. symmetry. exact H.
  - injection H as <-. split; [exact S|]. split; [split; [exact T|intros []; [apply (Q CD)|apply (Q CO)]]|]. rewrite (news_app c _ []) by (symmetry; apply app_nil_r). intros p g [].
  - unfold conn_timeout in H. rewrite T in H. injection H as H. apply K. now symmetry.
  - unfold holdoff in H. destruct (Q ch) as [_ X]. rewrite X in H. injection H as H. apply K. now symmetry.
  - unfold retransmit in H. destruct (Q ch) as [X _]. rewrite X in H. destruct i; cbn [nth_error] in H; injection H as H; apply K; now symmetry.
Qed.
(** After reject with a reason that is refused the connection is lost: nothing was
    sent, no timer runs, no call is allowed. *)
Theorem nsp_bad_reason_refuted : exists tr c, story ex_cfg (Some ex_ci) tr c /\ In (Ask (VReject 42 []) (Some RangeError)) tr /\ cst c = Sdi /\ quiet c /\
  (forall e c', (forall p, e <> VRecv p) -> cstep ex_cfg c e = Ok c' -> cst c' = Sdi /\ quiet c' /\ forall p g, ~ In (OTx p g) (news c c')).
Proof.
  destruct (play ex_cfg [Tell (SPkt ex_ci) false] ex_c0 [VReject 42 []]) as [[tr c]|] eqn:E; [|vm_compute in E; discriminate E].
  pose proof (play_story _ _ _ _ _ _ _ ex_c0_story E) as S. exists tr, c. split; [exact S|]. clear S. vm_compute in E. injection E as <- <-. split; [right; left; reflexivity|]. split; [reflexivity|]. split; [split; [reflexivity|intros []; split; reflexivity]|].
  intros e c' N H. apply (dead_step ex_cfg _ e c'); [reflexivity|split; [reflexivity|intros []; split; reflexivity]|exact N|exact H].
Qed.
(** A disconnect that waits for the data to be acknowledged is forgotten if the
    acknowledgment arrives on the other subchannel. *)
Theorem nsp_cross_ack_disconnect_refuted : exists tr c, story ex_cfg (Some ex_ci) tr c /\ In (Ask (VDisconnect 0 []) None) tr /\ cst c = Srun /\ pending (cdata c) = [] /\
  forall p g, In (OTx p g) (clog c) -> is_di p = false.
Proof.
  destruct (play ex_cfg [Tell (SPkt ex_ci) false] ex_c0 [VAccept []; VRecv (NAckData 200 300 (Some (0, 0)) None); VSend [1]; VDisconnect 0 []; VRecv (NAckOther 200 300 (Some (1, 2)) None)]) as [[tr c]|] eqn:E; [|vm_compute in E; discriminate E].
  pose proof (play_story _ _ _ _ _ _ _ ex_c0_story E) as S. exists tr, c. split; [exact S|]. clear S. vm_compute in E. injection E as <- <-.
  split; [cbn; tauto|]. split; [reflexivity|]. split; [reflexivity|]. intros p g X. vm_compute in X. repeat (destruct X as [X|X]; [try discriminate X; injection X as <- _; reflexivity|]). contradiction.
Qed.
(** A disconnect that had to wait for an acknowledgment, sent with the reason and
    the data given before. *)
Example nsp_disconnect_witness : exists tr c, story ex_cfg (Some ex_ci) tr c /\ cst c = Sdi /\ (forall e, ~ In (Ask e (Some RangeError)) tr) /\ goodbye tr = (5, [6]) /\
  In (Ask (VDisconnect 5 [6]) None) tr.
Proof.
  destruct (play ex_cfg [Tell (SPkt ex_ci) false] ex_c0 [VAccept []; VRecv (NAckData 200 300 (Some (0, 0)) None); VSend [1]; VDisconnect 5 [6]; VRecv (NAckData 200 300 (Some (1, 0)) None)]) as [[tr c]|] eqn:E; [|vm_compute in E; discriminate E].
  pose proof (play_story _ _ _ _ _ _ _ ex_c0_story E) as S. exists tr, c. split; [exact S|]. clear S. vm_compute in E. injection E as <- <-.
  split; [reflexivity|]. split; [intros e X; cbn in X; intuition discriminate|]. split; [reflexivity|]. cbn. tauto.
Qed.
Print Assumptions nsp_disconnect_ends.
Print Assumptions nsp_disconnect_sent.
Print Assumptions nsp_wait_ends.
Print Assumptions nsp_disconnect_confirmed.
Print Assumptions nsp_bad_reason_refuted.
Print Assumptions nsp_cross_ack_disconnect_refuted.
