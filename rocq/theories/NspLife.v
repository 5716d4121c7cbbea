(** For C57: which items a received packet gives to Session Control. *)
From Verif Require Import Base Dict ModuloModel NspPktModel NspModel NspFrame NspPrim.

(** * Data messages and interrupts *)
Definition msg_item (o : out) : Prop :=
  match o with OSc (SData _) r => r = false | OSc (SPkt (NInt _ _ _ _ _ _)) r => r = false | OSc _ _ => False | _ => True end.
Definition msgs_only (l : list out) : Prop := Forall msg_item l.
Definition oook (c : conn) : Prop := forall ch n q, dget Z.eqb (ooo (getc c ch)) n = Some q -> is_seg q = true /\ chan_of q = ch.
Record mild (c c' : conn) : Prop := mk_mild {
  mi_ph : cphase c' = cphase c; mi_sh : cshut c' = cshut c; mi_st : cst c' = cst c \/ (cshut c = true /\ cst c' = Sdi);
  mi_ooo : oook c'; mi_log : exists l, clog c' = clog c ++ l /\ msgs_only l }.
Lemma mild_refl : forall c, oook c -> mild c c.
Proof. intros c O. constructor; auto. exists []. rewrite app_nil_r. split; [reflexivity|constructor]. Qed.
Lemma mild_trans : forall a b c, mild a b -> mild b c -> mild a c.
Proof.
  intros a b c [A1 A2 A3 A4 [l [A5 A6]]] [B1 B2 B3 B4 [m [B5 B6]]]. constructor; auto; try congruence.
  - destruct A3 as [A3|[A3 A7]], B3 as [B3|[B3 B7]]; [left|right; split|right; split|right; split]; congruence.
  - exists (l ++ m). split; [rewrite B5, A5, app_assoc; reflexivity|]. apply Forall_app; auto.
Qed.
Lemma frame_oook : forall c c', frame c c' -> oook c -> oook c'.
Proof. intros c c' F O ch n q H. destruct (fr_rx _ _ F ch) as (_ & _ & E). rewrite E in H. exact (O ch n q H). Qed.
Lemma txonly_msgs : forall l, txonly l -> msgs_only l.
Proof. intros l H. eapply Forall_impl; [|exact H]. intros []; simpl; tauto. Qed.
Lemma frame_mild : forall c c', frame c c' -> oook c -> mild c c'.
Proof.
  intros c c' F O. constructor; [apply F|apply F|left; apply F|eapply frame_oook; eauto|]. destruct (fr_log _ _ F) as (l & L & T). exists l. split; [exact L|now apply txonly_msgs].
Qed.
Lemma close_ooo : forall s n, dget Z.eqb (ooo (sub_close s)) n = None.
Proof. reflexivity. Qed.
Lemma closed_oook : forall c, oook (conn_close c).
Proof. intros c [] n q H; discriminate H. Qed.

(** Only transmissions, without an exception. *)
Definition sent_only (l : list out) : Prop := Forall (fun o => match o with OTx _ _ => True | _ => False end) l.
Definition sends (c c' : conn) : Prop := exists l, clog c' = clog c ++ l /\ sent_only l.
Lemma sends_refl : forall c c', clog c' = clog c -> sends c c'.
Proof. intros c c' E. exists []. rewrite app_nil_r. split; [exact E|constructor]. Qed.
Lemma sends_trans : forall a b c, sends a b -> sends b c -> sends a c.
Proof. intros a b c [l [L1 L2]] [m [M1 M2]]. exists (l ++ m). split; [rewrite M1, L1, app_assoc; reflexivity|apply Forall_app; auto]. Qed.
Lemma sendmsg_sends : forall c p g c', sendmsg c p g = Ok c' -> sends c c'.
Proof. intros c p g c' H. unfold sendmsg in H. destruct (encode p); cbn [bind] in H; [|discriminate]. injection H as <-. eexists. split; [reflexivity|]. repeat constructor. Qed.
Lemma tx_send_sends : forall c ch i c', tx_send c ch i = Ok c' -> sends c c'.
Proof.
  intros c ch i c' H. unfold tx_send in H. destruct (nth_error _ i) as [e|]; [|discriminate].
  destruct (fill_packet c ch e) as [[c1 p1] g] eqn:E. apply sendmsg_sends in H. eapply sends_trans; [|exact H]. apply sends_refl.
  unfold fill_packet in E. destruct (tp e); cbn [is_ackhdr] in E; try (injection E as <- <- <-; destruct ch; reflexivity); apply set_acks_frame in E as (_ & E & _); destruct ch; exact E.
Qed.
Lemma data_send_sends : forall cfg c p c', data_send cfg c p = Ok c' -> sends c c'.
Proof.
  intros cfg c p c' H. unfold data_send in H. destruct (make_entry cfg c p) as [e s1].
  destruct (send_qe _ _ _) as [[c2 sent]|] eqn:E2; cbn [bind] in H; [|discriminate].
  assert (S2 : sends c c2).
  { unfold send_qe in E2. destruct (nth_error _ _) as [e0|]; [|discriminate]. destruct (_ && _) in E2; [injection E2 as <- <-; now apply sends_refl|].
    destruct (tx_send _ CD _) as [c1|] eqn:E; cbn [bind] in E2; [|discriminate]. injection E2 as <- <-. apply tx_send_sends in E. exact E. }
  destruct (sent && is_data (tp e)); [|injection H as <-; exact S2].
  unfold bump in H. destruct (seqmax _ _); cbn [bind] in H; [|discriminate]. injection H as <-. exact S2.
Qed.
Lemma send_segs_sends : forall cfg l c c', send_segs cfg c l = Ok c' -> sends c c'.
Proof.
  induction l as [|[[bo eo] pl] l IH]; intros c c' H; cbn [send_segs] in H; [injection H as <-; now apply sends_refl|].
  destruct (data_send cfg c _) as [c1|] eqn:E; cbn [bind] in H; [|discriminate]. eapply sends_trans; [eapply data_send_sends; exact E|eapply IH; exact H].
Qed.

(** * Reception of data *)
Lemma disc_mild : forall cfg c r x c1, cshut c = true -> disc_rej cfg c r x = Ok c1 -> mild c (set_cst c1 Sdi).
Proof.
  intros cfg c r x c1 SH H. unfold disc_rej in H. destruct (_ || _ || _); [discriminate|]. pose proof (data_send_frame _ _ _ _ H) as F.
  constructor; cbn [cphase cshut cst clog set_cst]; [rewrite (fr_phase _ _ F); reflexivity|rewrite (fr_shut _ _ F); reflexivity|right; auto| |].
  - intros ch n q D. destruct (fr_rx _ _ F ch) as (_ & _ & E). destruct ch; cbn in E, D; rewrite E in D; discriminate D.
  - destruct (fr_log _ _ F) as (l & L & T). exists l. split; [exact L|now apply txonly_msgs].
Qed.
Lemma process_ack_mild : forall cfg c ch a c', oook c -> process_ack cfg c ch a = Ok c' -> mild c c'.
Proof.
  intros cfg c ch a c' O H. destruct ch; cbn [process_ack] in H.
  - unfold data_process_ack in H. destruct (base_process_ack c CD a) as [c1|] eqn:E; cbn [bind] in H; [|discriminate].
    destruct (send_blocked cfg c1) as [c2|] eqn:B; cbn [bind] in H; [|discriminate].
    apply base_process_ack_frame in E. apply send_blocked_frame in B. assert (M : mild c c2) by (apply frame_mild; [eapply frame_trans; eauto|exact O]).
    destruct (cshut c2) eqn:SH; [|injection H as <-; exact M]. destruct (pending (cdata c2)); [|injection H as <-; exact M].
    destruct (disc_rej cfg c2 _ _) as [c3|] eqn:D; cbn [bind] in H; [|discriminate]. injection H as <-. eapply mild_trans; [exact M|]. eapply disc_mild; eauto.
  - apply frame_mild; [|exact O]. eapply base_process_ack_frame. exact H.
Qed.
Lemma emit_mild : forall c o, oook c -> msg_item o -> mild c (emit c o).
Proof. intros c o O M. constructor; [reflexivity|reflexivity|left; reflexivity| |]. - intros []; [apply (O CD)|apply (O CO)]. - exists [o]. split; [reflexivity|]. repeat constructor. exact M. Qed.
Lemma to_sc_mild : forall c p, oook c -> (is_data p || is_int p) = true -> mild c (to_sc c p false).
Proof.
  intros c p O D. destruct p; try discriminate D; cbn [to_sc].
  - assert (A : forall a, mild c (set_casm c a)) by (intros a; constructor; [reflexivity|reflexivity|left; reflexivity|intros []; [apply (O CD)|apply (O CO)]|exists []; rewrite app_nil_r; split; [reflexivity|constructor]]).
    destruct (casm c) as [|x t].
    + destruct (_ =? 0); [apply A|]. apply emit_mild; [exact O|reflexivity].
    + destruct (eom =? 0); [apply A|]. eapply mild_trans; [apply A|]. apply emit_mild; [apply A|reflexivity].
  - apply emit_mild; [exact O|reflexivity].
Qed.
Lemma process_data_mild : forall cfg c ch p c', oook c -> is_seg p = true -> chan_of p = ch -> process_data cfg c ch p = Ok c' -> mild c c'.
Proof.
  intros cfg c ch p c' O SG CH H. unfold process_data in H. eapply mild_trans; [apply (emit_mild c (ODeliver ch p) O); exact I|].
  assert (O1 : oook (emit c (ODeliver ch p))) by (intros []; [apply (O CD)|apply (O CO)]). set (c0 := emit c (ODeliver ch p)) in *. clearbody c0. clear O c.
  destruct p; try discriminate SG; cbn [chan_of] in CH; subst ch.
  - injection H as <-. apply (to_sc_mild c0 (NData d s a1 a2 seg dly bom eom pl)); [exact O1|reflexivity].
  - injection H as <-. apply (to_sc_mild c0 (NInt d s a1 a2 seg pl)); [exact O1|reflexivity].
  - destruct (_ =? 0) in H.
    + unfold data_ls in H. assert (G : forall s2, ooo s2 = ooo (cdata c0) -> send_blocked cfg (set_cdata c0 s2) = Ok c' -> mild c0 c').
      { intros s2 E B. apply send_blocked_frame in B. assert (O2 : oook (set_cdata c0 s2)) by (intros [] n q D; [cbn in D; rewrite E in D; apply (O1 CD n q D)|apply (O1 CO n q D)]).
        eapply mild_trans; [|apply frame_mild; [exact B|exact O2]]. constructor; [reflexivity|reflexivity|left; reflexivity|exact O2|]. exists []. rewrite app_nil_r. split; [reflexivity|constructor]. }
      repeat match type of H with context [if ?x then _ else _] => destruct x end; cbn [negb] in H;
        try (injection H as <-; now apply mild_refl); (eapply G; [|exact H]); reflexivity.
    + injection H as <-. unfold other_ls. destruct (0 <=? fcval); [|now apply mild_refl]. constructor; [reflexivity|reflexivity|left; reflexivity|intros []; [apply (O1 CD)|apply (O1 CO)]|]. exists []. rewrite app_nil_r. split; [reflexivity|constructor].
Qed.
Lemma putc_mild : forall c ch s, oook c -> (forall n q, dget Z.eqb (ooo s) n = Some q -> is_seg q = true /\ chan_of q = ch) -> mild c (putc c ch s).
Proof.
  intros c ch s O H. constructor; try (destruct ch; auto; fail).
  - intros k n q D. destruct ch, k; cbn [putc getc cdata coth set_cdata set_coth] in D; first [apply (H n q D)|apply (O CD n q D)|apply (O CO n q D)].
  - exists []. rewrite app_nil_r. split; [destruct ch; reflexivity|constructor].
Qed.
Lemma accept_loop_mild : forall cfg fuel c ch num p c', oook c -> is_seg p = true -> chan_of p = ch -> accept_loop cfg fuel c ch num p = Ok c' -> mild c c'.
Proof.
  induction fuel as [|f IH]; intros c ch num p c' O SG CH H; cbn [accept_loop] in H; [discriminate|].
  set (c1 := putc c ch (set_rcvd (set_ackpending (set_acknum (getc c ch) num) true) (rcvd (getc c ch) + 1))) in *.
  assert (M1 : mild c c1) by (apply putc_mild; [exact O|exact (O ch)]).
  destruct (process_data cfg c1 ch p) as [c2|] eqn:E; cbn [bind] in H; [|discriminate].
  apply process_data_mild in E; [|apply M1|exact SG|exact CH]. pose proof (mild_trans _ _ _ M1 E) as M2.
  destruct (mod_add 4096 num 1) as [n2|] eqn:M; cbn [bind] in H; [|discriminate].
  destruct (dget Z.eqb (ooo (getc c2 ch)) n2) as [q|] eqn:D; [|injection H as <-; exact M2].
  pose proof (mi_ooo _ _ M2) as O2. destruct (O2 ch n2 q D) as [SG2 CH2].
  assert (M3 : mild c2 (putc c2 ch (set_ooo (getc c2 ch) (ddel Z.eqb (ooo (getc c2 ch)) n2)))).
  { apply putc_mild; [exact O2|]. intros n r X. cbn [ooo set_ooo] in X. rewrite (dget_ddel Z.eqb decides_Z) in X. destruct (n =? n2); [discriminate|]. exact (O2 ch n r X). }
  eapply mild_trans; [exact M2|]. eapply mild_trans; [exact M3|]. eapply IH; [apply M3|exact SG2|exact CH2|exact H].
Qed.
Lemma sub_recv_mild : forall cfg c ch p c', oook c -> chan_of p = ch -> is_ackhdr p = true -> sub_recv cfg c ch p = Ok c' -> mild c c'.
Proof.
  intros cfg c ch p c' O CH AH H. unfold sub_recv in H.
  destruct (process_ack cfg c ch (ack1 p)) as [c1|] eqn:E1; cbn [bind] in H; [|discriminate]. apply process_ack_mild in E1; [|exact O].
  destruct (process_ack cfg c1 ch (ack2 p)) as [c2|] eqn:E2; cbn [bind] in H; [|discriminate]. apply process_ack_mild in E2; [|apply E1].
  pose proof (mild_trans _ _ _ E1 E2) as M. pose proof (mi_ooo _ _ M) as O2. clear E1 E2.
  assert (G : (let s := getc c2 ch in let num := segnum p in
      let* le := mod_le 4096 num (acknum s) in
      if le then send_ack c2 ch
      else
        let* nxt := mod_add 4096 (acknum s) 1 in
        if negb (num =? nxt) then Ok (putc c2 ch (set_ooo s (dset Z.eqb (ooo s) num p)))
        else
          let* c := accept_loop cfg (S (length (ooo s))) c2 ch num p in
          if dly p && (cphase c =? 4) && negb (cshut c) then
            if ackpending (getc c ch) && negb (hold (getc c ch)) then Ok (putc c ch (set_hold (getc c ch) true)) else Ok c
          else if ackpending (getc c ch) then send_ack c ch
          else Ok c) = Ok c' -> is_seg p = true -> mild c2 c').
  { cbv zeta. intros G SG.
    destruct (mod_le 4096 (segnum p) (acknum (getc c2 ch))) as [le|] eqn:L; cbn [bind] in G; [|discriminate]. destruct le.
    { apply frame_mild; [eapply send_ack_frame; exact G|exact O2]. }
    destruct (mod_add 4096 (acknum (getc c2 ch)) 1) as [nxt|] eqn:A; cbn [bind] in G; [|discriminate].
    destruct (negb (segnum p =? nxt)).
    { injection G as <-. apply putc_mild; [exact O2|]. intros n q D. cbn [ooo set_ooo] in D. rewrite (dget_dset Z.eqb decides_Z) in D.
      destruct (n =? segnum p); [injection D as <-; auto|exact (O2 ch n q D)]. }
    destruct (accept_loop cfg _ c2 ch (segnum p) p) as [c3|] eqn:A3; cbn [bind] in G; [|discriminate].
    apply accept_loop_mild in A3; [|exact O2|exact SG|exact CH]. pose proof (mi_ooo _ _ A3) as O3.
    destruct (dly p && (cphase c3 =? 4) && negb (cshut c3)).
    - destruct (ackpending (getc c3 ch) && negb (hold (getc c3 ch))); injection G as <-; [|exact A3].
      eapply mild_trans; [exact A3|]. apply putc_mild; [exact O3|exact (O3 ch)].
    - destruct (ackpending (getc c3 ch)); [|injection G as <-; exact A3]. eapply mild_trans; [exact A3|]. apply frame_mild; [eapply send_ack_frame; exact G|exact O3]. }
  eapply mild_trans; [exact M|]. destruct p; try discriminate AH; try (apply G; [exact H|reflexivity]); injection H as <-; now apply mild_refl.
Qed.

(** * Connections that wait for an answer *)
Definition waiting (s : cstate) : bool := match s with Sci | Scd | Scr => true | _ => false end.
Definition EI (c : conn) : Prop := waiting (cst c) = true -> ctimer c = true /\ forall ch e, In e (pending (getc c ch)) -> is_ci (tp e) = true.
Lemma not_waiting : forall c, waiting (cst c) = false -> EI c.
Proof. intros c W X. congruence. Qed.
Lemma fill_ci : forall c ch e c1 p1 g, fill_packet c ch e = (c1, p1, g) -> ctimer c1 = ctimer c /\ is_ci p1 = is_ci (tp e).
Proof.
  intros c ch e c1 p1 g H. unfold fill_packet in H. destruct (tp e); cbn [is_ackhdr] in H; try (injection H as <- <- <-; split; reflexivity);
    unfold set_acks in H; destruct (cphase c =? 4); destruct ch; cbn [cross getc putc] in H;
    repeat match type of H with context [if ?b then _ else _] => destruct b end; injection H as <- <- <-; split; reflexivity.
Qed.
Lemma in_upd : forall A i (x : A) l y, In y (upd i x l) -> y = x \/ In y l.
Proof. intros A. induction i as [|i IH]; intros x [|z l] y H; cbn [upd] in H; try contradiction; destruct H as [H|H]; auto; [right; right; exact H|right; left; exact H|]. destruct (IH x l y H); [left; assumption|right; right; assumption]. Qed.
Lemma tx_send_EI : forall c ch i c', EI c -> tx_send c ch i = Ok c' -> EI c'.
Proof.
  intros c ch i c' E H W. pose proof (tx_send_frame _ _ _ _ H) as F. rewrite (fr_st _ _ F) in W. destruct (E W) as [T P]. unfold tx_send in H.
  destruct (nth_error _ i) as [e|] eqn:N; [|discriminate]. destruct (fill_packet c ch e) as [[c1 p1] g] eqn:FE. pose proof (fill_ci _ _ _ _ _ _ FE) as [T1 C1].
  assert (P1 : forall k, pending (getc c1 k) = pending (getc c k)).
  { unfold fill_packet in FE. destruct (tp e); cbn [is_ackhdr] in FE; try (injection FE as <- <- <-; reflexivity); apply set_acks_frame in FE as (_ & _ & FE); intros k; apply (FE k). }
  unfold sendmsg in H. destruct (encode p1); cbn [bind] in H; [|discriminate]. injection H as <-. split; [destruct ch; cbn; congruence|].
  intros k x X. assert (NP : is_ci p1 = true) by (rewrite C1; apply (P ch); apply (nth_error_In _ _ N)).
  assert (G : pending (getc (putc c1 ch (set_pending (getc c1 ch) (upd i (mk_txe p1 (tseg e) (tmsg e) (ttries e + 1) true true (fst g) (snd g)) (pending (getc c1 ch))))) k) =
    if (match ch, k with CD, CD | CO, CO => true | _, _ => false end) then upd i (mk_txe p1 (tseg e) (tmsg e) (ttries e + 1) true true (fst g) (snd g)) (pending (getc c k)) else pending (getc c k)).
  { pose proof (P1 CD) as Q1. pose proof (P1 CO) as Q2. cbn [getc] in Q1, Q2. destruct ch, k; cbn [putc getc cdata coth set_cdata set_coth pending set_pending]; rewrite ?Q1, ?Q2; reflexivity. }
  change (In x (pending (getc (putc c1 ch (set_pending (getc c1 ch) (upd i (mk_txe p1 (tseg e) (tmsg e) (ttries e + 1) true true (fst g) (snd g)) (pending (getc c1 ch))))) k))) in X. rewrite G in X.
  destruct (match ch, k with CD, CD | CO, CO => true | _, _ => false end); [|exact (P k x X)]. apply in_upd in X as [-> |X]; [exact NP|exact (P k x X)].
Qed.
Lemma pop_in : forall n s s' e, pop_acked n s = Ok s' -> In e (pending s') -> In e (pending s).
Proof.
  induction n as [|n IH]; intros s s' e H X; cbn [pop_acked] in H; [injection H as <-; exact X|]. destruct (pending s) as [|a t] eqn:P; [discriminate|].
  right. apply (IH _ _ e H X).
Qed.
Lemma ack_in : forall s n s' e, sub_ack s n = Ok s' -> In e (pending s') -> In e (pending s).
Proof.
  intros s n s' e H X. unfold sub_ack in H. destruct (pending s) as [|a t] eqn:P; [injection H as <-; rewrite P in X; exact X|]. rewrite <- P.
  destruct (_ || _) in H; [|eapply pop_in; eauto]. destruct (mod_lt _ _ _) as [[]|]; cbn [bind] in H; try congruence. destruct (mod_gt _ _ _) as [[]|]; cbn [bind] in H; try congruence.
  destruct (mod_sub _ _ _); cbn [bind] in H; [|congruence]. destruct (mod_add _ _ _); cbn [bind] in H; [|congruence]. eapply pop_in; eauto.
Qed.
Lemma EI_same : forall c c', EI c -> cst c' = cst c -> ctimer c' = ctimer c -> (forall k, pending (getc c' k) = pending (getc c k)) -> EI c'.
Proof. intros c c' E S T P W. rewrite S in W. destruct (E W) as [A B]. split; [congruence|]. intros ch e X. rewrite P in X. exact (B ch e X). Qed.
Lemma send_ack_EI : forall c ch c', EI c -> send_ack c ch = Ok c' -> EI c'.
Proof.
  intros c ch c' E H. pose proof (send_ack_frame _ _ _ H) as F. unfold send_ack in H. destruct (set_acks _ ch true _ _) as [[c1 p1] g] eqn:A.
  assert (T : ctimer c1 = ctimer c).
  { unfold set_acks in A. destruct ch; cbn [cross getc putc orb] in A; repeat match type of A with context [if ?b then _ else _] => destruct b end; injection A as <- <- <-; reflexivity. }
  apply set_acks_frame in A as (_ & _ & A). unfold sendmsg in H. destruct (encode p1); cbn [bind] in H; [|discriminate]. injection H as <-.
  apply (EI_same c); [exact E|apply (fr_st _ _ F)|exact T|]. intros k. destruct (A k) as (P & _). change (pending (getc c1 k) = pending (getc c k)). rewrite P. destruct ch, k; reflexivity.
Qed.
Lemma emit_EI : forall c o, EI c -> EI (emit c o).
Proof. intros c o E. apply (EI_same c); [exact E|reflexivity|reflexivity|]. intros []; reflexivity. Qed.
Lemma api_st : forall cfg c r x c', cst c = Sdi -> api_disc cfg c r x = Ok c' -> cst c' = Sdi.
Proof.
  intros cfg c r x c' S H. unfold api_disc in H. destruct (disc_rej cfg c r x) as [c1|[]] eqn:E; try discriminate H; injection H as <-; [|exact S].
  unfold disc_rej in E. destruct (_ || _ || _); [discriminate|]. rewrite (fr_st _ _ (data_send_frame _ _ _ _ E)). exact S.
Qed.
Lemma run_not_waiting : forall cfg c p c', oook c -> cst c = Srun -> run_recv cfg c p = Ok c' -> waiting (cst c') = false.
Proof.
  intros cfg c p c' O R H. unfold run_recv in H. set (c0 := if 2 <? cphase c then set_ctimer c true else c) in *.
  assert (X : oook c0 /\ cst c0 = Srun) by (unfold c0; destruct (2 <? cphase c); [split; [intros []; [apply (O CD)|apply (O CO)]|exact R]|auto]). clearbody c0. destruct X as [O0 R0].
  assert (S : forall ch q, chan_of q = ch -> is_ackhdr q = true -> sub_recv cfg c0 ch q = Ok c' -> waiting (cst c') = false).
  { intros ch q C A HH. apply sub_recv_mild in HH; auto. destruct (mi_st _ _ HH) as [Z|[_ Z]]; rewrite Z, ?R0; reflexivity. }
  destruct p; try (injection H as <-; rewrite ?R0; reflexivity); try (eapply S; [| |exact H]; reflexivity).
  - destruct (2 <? cphase c0); [|injection H as <-; rewrite R0; reflexivity]. rewrite (fr_st _ _ (send_ack_frame _ _ _ H)), R0. reflexivity.
  - destruct (sendmsg _ _ _); cbn [bind] in H; [|discriminate]. injection H as <-. reflexivity.
Qed.
Lemma cd_EI : forall cfg c p c', EI c -> cd_recv cfg c p = Ok c' -> EI c'.
Proof.
  intros cfg c p c' E H. destruct p; cbn [cd_recv] in H; try (injection H as <-; exact E).
  - destruct (chan_ack _ CD 0); cbn [bind] in H; [|discriminate]. destruct (if 2 <? _ then _ else _) in H; cbn [bind] in H; [|discriminate]. injection H as <-. now apply not_waiting.
  - destruct (sendmsg _ _ _); cbn [bind] in H; [|discriminate]. injection H as <-. now apply not_waiting.
  - injection H as <-. now apply not_waiting.
Qed.
Lemma recv_EI : forall cfg c p c', oook c -> EI c -> conn_recv cfg c p = Ok c' -> EI c'.
Proof.
  intros cfg c p c' O E H. unfold conn_recv in H. destruct (cst c) eqn:S.
  - destruct p; cbn [ci_recv] in H; try (eapply cd_EI; eauto; fail).
    + destruct (2 <? phase cfg); [|eapply cd_EI; eauto]. unfold chan_ack in H. destruct (sub_ack _ 0) as [s1|] eqn:A; cbn [bind] in H; [|discriminate]. injection H as <-.
      intros _. destruct (E ltac:(rewrite S; reflexivity)) as [T P]. split; [exact T|]. intros [] x X; [|exact (P CO x X)]. apply (P CD). eapply ack_in; [exact A|exact X].
    + injection H as <-. now apply not_waiting.
  - eapply cd_EI; eauto.
  - destruct p; cbn [cr_recv] in H; try (injection H as <-; exact E). destruct (2 <? cphase c); [|injection H as <-; exact E].
    unfold sendmsg in H. destruct (encode _); cbn [bind] in H; [|discriminate]. injection H as <-. now apply emit_EI.
  - unfold cc_recv in H. destruct (if is_ackhdr p then chan_ack c CD 0 else Ok c) as [c1|] eqn:A; cbn [bind] in H; [|discriminate].
    assert (F : frame c c1) by (destruct (is_ackhdr p); [eapply chan_ack_frame; exact A|injection A as <-; apply frame_refl]). apply (frame_oook _ _ F) in O.
    apply not_waiting. eapply run_not_waiting; [| |exact H]; [intros []; [apply (O CD)|apply (O CO)]|reflexivity].
  - apply not_waiting. eapply run_not_waiting; eauto.
  - destruct p; cbn [di_recv] in H; try (injection H as <-; exact E).
    + destruct (sendmsg _ _ _); cbn [bind] in H; [|discriminate]. injection H as <-. now apply not_waiting.
    + injection H as <-. now apply not_waiting.
  - discriminate.
Qed.
Lemma rej_st : forall cfg k r x c1, cst k = Scr -> conn_reject cfg k r x = Ok c1 -> cst c1 = Sdi.
Proof. intros cfg k r x c1 S R. unfold conn_reject in R. rewrite S in R. cbn [cstate_eqb negb] in R. apply api_st in R; [exact R|reflexivity]. Qed.
Lemma keep_EI : forall k f c', waiting (cst k) = false ->
  (let* n := f in let* (c1, _) := other_send (set_coth k (set_seqnum (coth k) n)) (NLs (cdst k) (csrc k) None None (seqnum (coth k)) 0 0 0) in Ok c1) = Ok c' -> EI c'.
Proof.
  intros k f c' W H. destruct f as [n|]; cbn [bind] in H; [|discriminate]. destruct (other_send _ _) as [[c1 b]|] eqn:F; cbn [bind] in H; [|discriminate]. injection H as <-.
  apply other_send_frame in F. apply not_waiting. rewrite (fr_st _ _ F). exact W.
Qed.
Lemma timeout_EI : forall cfg c c', EI c -> conn_timeout cfg c = Ok c' -> EI c'.
Proof.
  intros cfg c c' E H. unfold conn_timeout in H. destruct (negb (ctimer c)); [injection H as <-; exact E|]. remember (set_ctimer c false) as k. clear Heqk E c. destruct (cst k) eqn:S.
  - injection H as <-. now apply not_waiting.
  - injection H as <-. now apply not_waiting.
  - destruct (conn_reject cfg k OBJ_FAIL []) as [c1|] eqn:R; cbn [bind] in H; [|discriminate]. injection H as <-. apply rej_st in R; [|exact S].
    apply not_waiting. cbn [to_sc cst emit set_clog]. rewrite R. reflexivity.
  - eapply keep_EI; [|exact H]. rewrite S. reflexivity.
  - eapply keep_EI; [|exact H]. rewrite S. reflexivity.
  - injection H as <-. apply not_waiting. now rewrite S.
  - discriminate.
Qed.
Lemma retx_EI : forall cfg c ch i c', EI c -> retransmit cfg c ch i = Ok c' -> EI c'.
Proof.
  intros cfg c ch i c' E H. unfold retransmit in H. destruct (nth_error (pending (getc c ch)) i) as [e|] eqn:N; [|injection H as <-; exact E]. destruct (negb (ttimer e)); [injection H as <-; exact E|].
    assert (P : forall e1, tp e1 = tp e -> EI (putc c ch (set_pending (getc c ch) (upd i e1 (pending (getc c ch)))))).
    { intros e1 T W. assert (W1 : waiting (cst c) = true) by (destruct ch; exact W). destruct (E W1) as [A B]. split; [destruct ch; exact A|].
      intros k x X. destruct ch, k; cbn [putc getc cdata coth set_cdata set_coth pending set_pending] in X;
        try (apply in_upd in X as [-> |X]; [rewrite T; first [apply (B CD e (nth_error_In _ _ N))|apply (B CO e (nth_error_In _ _ N))]|]); first [exact (B CD x X)|exact (B CO x X)]. }
    destruct (_ <=? _); [destruct (is_ci (tp e)); injection H as <-; [apply P; reflexivity|now apply not_waiting]|].
    destruct (_ || _); [eapply tx_send_EI; [|exact H]; apply P; reflexivity|]. injection H as <-. apply P. reflexivity.
Qed.
Lemma step_EI : forall cfg c e c', oook c -> EI c -> cstep cfg c e = Ok c' -> EI c'.
Proof.
  intros cfg c e c' O E H. destruct e; cbn [cstep] in H.
  - eapply recv_EI; eauto.
  - unfold conn_accept in H. destruct (negb _); [injection H as <-; now apply emit_EI|]. apply not_waiting. destruct (cphase c =? 2).
    + rewrite (fr_st _ _ (sendmsg_frame _ _ _ _ H)). reflexivity.
    + rewrite (fr_st _ _ (data_send_frame _ _ _ _ H)). reflexivity.
  - unfold conn_reject in H. destruct (negb _); [injection H as <-; now apply emit_EI|]. apply not_waiting. apply api_st in H; [|reflexivity]. rewrite H. reflexivity.
  - unfold conn_disconnect in H. destruct (cst c) eqn:S; cbn [cstate_eqb negb] in H; try (injection H as <-; now apply emit_EI).
    destruct (pending (cdata c)); [apply not_waiting; apply api_st in H; [|reflexivity]; rewrite H; reflexivity|]. injection H as <-. apply not_waiting. cbn [cst set_cdisc set_cshut]. now rewrite S.
  - unfold conn_abort in H. destruct (negb _); [injection H as <-; now apply emit_EI|]. destruct (disc_rej cfg c r x) as [c1|[]]; try discriminate H; injection H as <-; [now apply not_waiting|now apply emit_EI].
  - unfold conn_send in H. destruct (cst c) eqn:S; cbn [cstate_eqb negb orb] in H; try (injection H as <-; now apply emit_EI). destruct (cshut c); [injection H as <-; now apply emit_EI|].
    destruct (csegsize c =? 0); [discriminate|]. apply not_waiting. rewrite (fr_st _ _ (send_segs_frame _ _ _ _ H)). cbn [cst emit set_clog]. now rewrite S.
  - unfold conn_interrupt in H. destruct (cst c) eqn:S; cbn [cstate_eqb negb orb] in H; try (injection H as <-; now apply emit_EI). destruct (cshut c); [injection H as <-; now apply emit_EI|].
    destruct (16 <? zlen data); [injection H as <-; now apply emit_EI|]. destruct (other_send c _) as [[c1 b]|] eqn:F; cbn [bind] in H; [|discriminate]. apply other_send_frame in F. apply not_waiting.
    destruct b; [destruct (mod_add _ _ _); cbn [bind] in H; [|discriminate]|]; injection H as <-; cbn [cst set_coth]; rewrite (fr_st _ _ F), S; reflexivity.
  - injection H as <-. apply (EI_same c); [exact E|reflexivity|reflexivity|]. intros []; reflexivity.
  - eapply timeout_EI; eauto.
  - unfold holdoff in H. destruct (hold (getc c ch)); [|injection H as <-; exact E]. eapply send_ack_EI; [|exact H]. apply (EI_same c); [exact E|destruct ch; reflexivity|destruct ch; reflexivity|destruct ch; intros []; reflexivity].
  - eapply retx_EI; eauto.
Qed.
