(** Retransmission terminates (C36): theorems. *)
From Verif Require Import Base Dict ModuloModel NspPktModel NspModel NspFrame NspPrim NspRx NspRxProps NspSend NspSendInv NspFlow NspFlowProps NspRetx.

Lemma fresh_RI : forall cfg c, 1 <= retransmits cfg -> pending (cdata c) = [] -> pending (coth c) = [] -> plain (clog c) -> RI cfg c.
Proof.
  intros cfg c RP P1 P2 PL. assert (Z : forall k, fst k <= 2 -> sent_times k (clog c) = 0) by (intros k K; apply plain_times; auto).
  constructor; intros.
  - rewrite Z by assumption. lia.
  - destruct ch; cbn [getc] in *; rewrite ?P1, ?P2 in *; contradiction.
  - destruct ch; cbn [getc]; rewrite ?P1, ?P2; intros i j a b A; destruct i; discriminate.
  - rewrite P1 in *. contradiction.
  - rewrite P2 in *. contradiction.
  - apply Z. cbn. lia.
  - apply Z. cbn. lia.
Qed.
Lemma out_RI : forall cfg src dest x c, 1 <= retransmits cfg -> conn_outbound cfg src dest x = Ok c -> RI cfg c.
Proof.
  intros cfg src dest x c RP H. unfold conn_outbound in H. set (c0 := mk_conn Sci _ _ _ _ _ _ _ _ _ _ _ _ _) in *.
  destruct (data_send cfg c0 _) as [c1|] eqn:E; cbn [bind] in H; [|discriminate]. injection H as <-. apply (RI_scal cfg c1); auto.
  unfold data_send in E. cbn [make_entry] in E. set (e := mk_txe (NCI _ _ _ _ _ _) _ _ _ _ _ _ _) in *. set (c2 := set_cdata c0 _) in *. unfold send_qe in E.
  change (nth_error (pending (cdata c2)) (length (pending (cdata c0)))) with (Some e) in E. cbn [is_data tp e andb] in E.
  destruct (tx_send c2 CD _) as [c3|] eqn:T; cbn [bind andb] in E; [|discriminate]. injection E as <-.
  assert (R0 : RI cfg c2).
  { constructor; cbn [clog c2 set_cdata c0].
    - intros k K. cbn. lia.
    - intros [] y; cbn [getc cdata coth c2 set_cdata c0 pending set_pending new_data new_other]; [|contradiction]. intros [<- |[]]. unfold eok, e. cbn. repeat split; try lia; try discriminate.
    - intros [] i j a b; cbn [getc cdata coth c2 set_cdata c0 pending set_pending new_data new_other]; [|destruct i; discriminate].
      destruct i as [|i]; [|destruct i; discriminate]. destruct j as [|j]; [|destruct j; discriminate]. reflexivity.
    - intros y [<- |[]]. cbn. split; lia.
    - intros y [].
    - reflexivity.
    - reflexivity. }
  exact (RI_tx cfg c2 CD (length (pending (cdata c0))) e c3 R0 eq_refl ltac:(cbn; lia) T).
Qed.
Lemma in_RI : forall cfg src dest p c, 1 <= retransmits cfg -> conn_inbound cfg src dest p = Ok c -> RI cfg c.
Proof.
  intros cfg src dest p c RP H. destruct p; try discriminate H. cbn [conn_inbound] in H.
  destruct (if 2 <? _ then _ else _) as [c1|] eqn:E in H; cbn [bind] in H; [|discriminate]. injection H as <-.
  set (c0 := setphase cfg _ info) in *. assert (R0 : RI cfg c0) by (apply fresh_RI; auto; constructor).
  assert (R1 : RI cfg c1) by (destruct (2 <? cphase c0); [apply sendmsg_log in E; subst c1; apply RI_emit; [exact R0|apply plain_one; reflexivity]|injection E as <-; exact R0]).
  apply (RI_scal cfg (to_sc c1 (NCI rci s fcopt info segsize pl) false)); auto. now apply RI_tosc.
Qed.
Lemma texec_RI : forall cfg o evs c, 1 <= retransmits cfg -> 1 <= phase cfg -> texec cfg o evs c -> RI cfg c.
Proof.
  intros cfg o evs c RP PH H. induction H as [src dest x c H|src dest p c H|o evs c e c' H IH EO E]; [eapply out_RI; eauto|eapply in_RI; eauto|].
  eapply RI_step; eauto.
Qed.

(** C36: in every execution, however the acknowledgements arrive or fail to,
    each data segment, each interrupt or Link Service message and the Connect
    Initiate is transmitted at most [retransmits] times. *)
Theorem nsp_retransmission_bounded : forall cfg o evs c, 1 <= retransmits cfg -> 1 <= phase cfg -> texec cfg o evs c ->
  forall k, fst k <= 2 -> sent_times k (clog c) <= retransmits cfg.
Proof. intros cfg o evs c RP PH H. exact (r_bound _ _ (texec_RI _ _ _ _ RP PH H)). Qed.

(** A message sent and not acknowledged has a running retransmission timer (the
    Connect Initiate, after the last attempt, relies on the connection timer). *)
Theorem nsp_timer_running : forall cfg o evs c ch e, 1 <= retransmits cfg -> 1 <= phase cfg -> texec cfg o evs c ->
  In e (pending (getc c ch)) -> tsent e = true -> is_ci (tp e) = false -> ttimer e = true.
Proof.
  intros cfg o evs c ch e RP PH H IN S C. destruct (r_ent _ _ (texec_RI _ _ _ _ RP PH H) ch e IN) as (_ & _ & X & _). destruct (X S) as [X1|X1]; [exact X1|congruence].
Qed.

(** When that timer expires, the message is sent once more; a data segment may
    instead wait for the other end to allow it; after [retransmits]
    transmissions the connection is closed and the user is told that the other
    end is unreachable. *)
Definition told_unreachable : out := OSc (SPkt (NDI 0 0 UNREACH [])) false.
Theorem nsp_timeout : forall cfg o evs c ch i e c', 1 <= retransmits cfg -> 1 <= phase cfg -> texec cfg o evs c ->
  nth_error (pending (getc c ch)) i = Some e -> ttimer e = true -> fst (key e) <= 1 -> cstep cfg c (VRetx ch i) = Ok c' ->
  (sent_times (key e) (clog c) < retransmits cfg /\ cst c' = cst c /\
     ((exists p g, clog c' = clog c ++ [OTx p g] /\ key_of p (g_seg g) (g_msg g) = key e /\ exists e1, nth_error (pending (getc c' ch)) i = Some e1 /\ key e1 = key e /\ ttimer e1 = true) \/
      (clog c' = clog c /\ is_data (tp e) = true /\ exists e1, nth_error (pending (getc c' ch)) i = Some e1 /\ key e1 = key e /\ tsent e1 = false /\ flow_ok cfg (getc c' ch) e1 = false)))
  \/ (sent_times (key e) (clog c) = retransmits cfg /\ cst c' = Sclosed /\ clog c' = clog c ++ [told_unreachable] /\ pending (cdata c') = [] /\ pending (coth c') = []).
Proof.
  intros cfg o evs c ch i e c' RP PH H N T K E. assert (R := texec_RI _ _ _ _ RP PH H). destruct (r_ent _ _ R ch e (nth_error_In _ _ N)) as (B1 & B2 & B3 & B4). rewrite (B4 ltac:(lia)).
  cbn [cstep] in E. unfold retransmit in E. rewrite N, T in E. cbn [negb] in E. destruct (retransmits cfg <=? ttries e) eqn:L.
  - right. assert (CI : is_ci (tp e) = false) by (unfold key, key_of in K; destruct (tp e); try reflexivity; cbn in K; lia). rewrite CI in E. injection E as <-.
    split; [lia|]. split; [reflexivity|]. split; [destruct ch; reflexivity|]. split; reflexivity.
  - left. split; [lia|]. destruct (negb (is_data (tp e)) || flow_ok cfg _ _) eqn:F.
    + set (c1 := putc c ch _) in E. assert (N1 : nth_error (pending (getc c1 ch)) i = Some (set_tsent (set_ttimer e false) false)).
      { unfold c1. destruct ch; cbn [getc putc cdata coth set_cdata set_coth pending set_pending] in *; eapply upd_nth_same; exact N. }
      assert (CL : clog c1 = clog c) by (unfold c1; destruct ch; reflexivity). assert (ST : cst c1 = cst c) by (unfold c1; destruct ch; reflexivity). clearbody c1.
      split; [rewrite (fr_st _ _ (tx_send_frame _ _ _ _ E)); exact ST|]. left.
      destruct (tx_key _ _ _ _ E) as (e0 & e1 & p & g & N0 & LG & KP & P1 & K1 & _ & _ & _ & _ & T3 & _). assert (e0 = set_tsent (set_ttimer e false) false) by congruence. subst e0.
      exists p, g. split; [rewrite <- CL; exact LG|]. split; [exact KP|]. exists e1. split; [rewrite P1; eapply upd_nth_same; exact N1|]. split; [exact K1|exact T3].
    + injection E as <-. split; [destruct ch; reflexivity|]. right. split; [destruct ch; reflexivity|]. apply orb_false_iff in F as [F1 F2]. split; [destruct (is_data (tp e)); [reflexivity|discriminate]|].
      exists (set_tsent (set_ttimer e false) false). split; [destruct ch; cbn [getc putc cdata coth set_cdata set_coth pending set_pending] in *; eapply upd_nth_same; exact N|].
      split; [reflexivity|]. split; [reflexivity|exact F2].
Qed.

(** Without an acknowledgement: as its timer expires again and again, the
    connection is closed, unless the segment waits for the other end. *)
Fixpoint expiries (cfg : ncfg) (n : nat) (ch : chan) (i : nat) (c : conn) : res conn :=
  match n with O => Ok c | S m => let* c1 := cstep cfg c (VRetx ch i) in expiries cfg m ch i c1 end.
Lemma expire_nothing : forall cfg n ch i c, (forall e, nth_error (pending (getc c ch)) i = Some e -> ttimer e = false) -> expiries cfg n ch i c = Ok c.
Proof.
  intros cfg n ch i c H. assert (X : cstep cfg c (VRetx ch i) = Ok c).
  { cbn [cstep]. unfold retransmit. destruct (nth_error _ i) as [e|] eqn:N; [|reflexivity]. now rewrite (H e eq_refl). }
  induction n as [|n IH]; [reflexivity|]. cbn [expiries]. rewrite X. exact IH.
Qed.
Theorem nsp_unacknowledged_closes : forall cfg o evs c ch i e c', 1 <= retransmits cfg -> 1 <= phase cfg -> texec cfg o evs c ->
  nth_error (pending (getc c ch)) i = Some e -> tsent e = true -> fst (key e) <= 1 -> expiries cfg (Z.to_nat (retransmits cfg) + 1) ch i c = Ok c' ->
  (cst c' = Sclosed /\ In told_unreachable (clog c')) \/
  (exists e1, nth_error (pending (getc c' ch)) i = Some e1 /\ key e1 = key e /\ is_data (tp e1) = true /\ tsent e1 = false /\ flow_ok cfg (getc c' ch) e1 = false).
Proof.
  intros cfg o evs c ch i e c' RP PH H N TS K E.
  assert (T : ttimer e = true). { eapply nsp_timer_running; eauto; [eapply nth_error_In; exact N|]. unfold key, key_of in K. destruct (tp e); try reflexivity; cbn in K; lia. }
  clear TS. assert (SN := times_nonneg (key e) (clog c)).
  remember (Z.to_nat (retransmits cfg) + 1)%nat as n eqn:Hn. assert (B : retransmits cfg + 1 - sent_times (key e) (clog c) <= Z.of_nat n) by lia. clear Hn SN.
  revert evs c e H N T K B E. induction n as [|n IH]; intros evs c e H N T K B E; cbn [expiries] in E.
  - pose proof (nsp_retransmission_bounded _ _ _ _ RP PH H (key e) ltac:(lia)). lia.
  - destruct (cstep cfg c (VRetx ch i)) as [c1|] eqn:S; cbn [bind] in E; [|discriminate].
    assert (H1 : texec cfg o (evs ++ [VRetx ch i]) c1) by (eapply te_ev; [exact H|exact I|exact S]).
    destruct (nsp_timeout _ _ _ _ _ _ _ _ RP PH H N T K S) as [(LT & ST & [(p & g & L & KP & e1 & N1 & K1 & T1)|(L & D & e1 & N1 & K1 & T1 & F1)])|(EQ & ST & L & P1 & P2)].
    + rewrite <- K1. rewrite <- K1 in K. eapply IH; eauto. rewrite K1, L, times_app, <- KP, times_same. rewrite KP. lia.
    + assert (TT : ttimer e1 = false).
      { cbn [cstep] in S. unfold retransmit in S. rewrite N, T in S. cbn [negb] in S. destruct (retransmits cfg <=? ttries e) eqn:LE.
        - exfalso. destruct (r_ent _ _ (texec_RI _ _ _ _ RP PH H) ch e (nth_error_In _ _ N)) as (_ & _ & _ & B4). rewrite B4 in LT by lia. lia.
        - destruct (_ || _) in S; [|injection S as <-; assert (X : e1 = set_tsent (set_ttimer e false) false); [|subst e1; reflexivity]].
          + destruct (tx_key _ _ _ _ S) as (_ & _ & p & g & _ & LG & _). exfalso. assert (Y : clog (putc c ch (set_pending (getc c ch) (upd i (set_tsent (set_ttimer e false) false) (pending (getc c ch))))) = clog c) by (destruct ch; reflexivity).
            rewrite Y, L in LG. apply (f_equal (@length out)) in LG. rewrite app_length in LG. cbn in LG. lia.
          + pose proof (upd_nth_same _ i (set_tsent (set_ttimer e false) false) _ _ N) as U. destruct ch; cbn [getc putc cdata coth set_cdata set_coth pending set_pending] in *; congruence. }
      rewrite expire_nothing in E; [|intros e2 N2; congruence]. injection E as <-. right. exists e1. split; [exact N1|]. split; [exact K1|]. split; [|auto].
      unfold key, key_of in K1. destruct (tp e); try discriminate D. cbn in K1. destruct (tp e1); try discriminate K1; reflexivity.
    + rewrite expire_nothing in E; [|destruct ch; cbn [getc]; rewrite ?P1, ?P2; intros e2 N2; destruct i; discriminate]. injection E as <-. left. split; [exact ST|]. rewrite L. apply in_or_app. right. left. reflexivity.
Qed.
Print Assumptions nsp_retransmission_bounded.
Print Assumptions nsp_timer_running.
Print Assumptions nsp_timeout.
Print Assumptions nsp_unacknowledged_closes.

(** A concrete case: a segment sent and never acknowledged, with a limit of 5. *)
Definition rx_c : conn := fx_run fx_c0 (firstn 4 fx_evs).
Example nsp_retransmission_example : texec fx_cfg (Some fx_ci) (firstn 4 fx_evs) rx_c /\ (exists e, nth_error (pending (getc rx_c CD)) 0 = Some e /\ tsent e = true /\ key e = (0, 1)) /\
  exists c', expiries fx_cfg 6 CD 0 rx_c = Ok c' /\ cst c' = Sclosed /\ sent_times (0, 1) (clog c') = 5.
Proof.
  split; [|split; [eexists; vm_compute; auto|eexists; vm_compute; auto]].
  apply (te_ev _ _ (firstn 3 fx_evs) (fx_run fx_c0 (firstn 3 fx_evs)) (nth 3 fx_evs VTimer)); [|exact I|vm_compute; reflexivity].
  apply (te_ev _ _ (firstn 2 fx_evs) (fx_run fx_c0 (firstn 2 fx_evs)) (nth 2 fx_evs VTimer)); [|exact I|vm_compute; reflexivity].
  apply (te_ev _ _ (firstn 1 fx_evs) (fx_run fx_c0 (firstn 1 fx_evs)) (nth 1 fx_evs VTimer)); [|exact I|vm_compute; reflexivity].
  apply (te_ev _ _ [] fx_c0 (nth 0 fx_evs VTimer)); [|exact I|vm_compute; reflexivity]. apply (te_in fx_cfg 200 1025 fx_ci). vm_compute. reflexivity.
Qed.
