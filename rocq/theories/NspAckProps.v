(** C56: acknowledgments of received NSP data. *)
From Verif Require Import Base Dict ModuloModel ModuloProps NspPktModel NspModel NspFrame NspPrim NspRx NspSend NspSendInv NspFlow NspRetx NspTags NspRxProps NspAck.

(** ** Specification *)
(** The other subchannel of a connection. *)
Definition twin (k : chan) : chan := match k with CD => CO | CO => CD end.
(** What one acknowledgment field of a packet of subchannel [own] says: NSP
    functional specification, ACKNUM/ACKOTH with the QUAL subfield. *)
Definition field (own : chan) (a : ack) : list (chan * Z) :=
  match a with
  | Some (n, q) => if (q =? 0) || (q =? 1) then [(own, n)] else if (q =? 2) || (q =? 3) then [(twin own, n)] else []
  | None => []
  end.
Definition acks (p : npkt) : list (chan * Z) :=
  match p with
  | NData _ _ a b _ _ _ _ _ | NAckData _ _ a b => field CD a ++ field CD b
  | NInt _ _ a b _ _ | NLs _ _ a b _ _ _ _ | NAckOther _ _ a b => field CO a ++ field CO b
  | _ => []
  end.
(** How many packets of subchannel [k] the connection has taken, in sequence. *)
Definition took (k : chan) (log : list out) : Z :=
  zlen (filter (fun o => match o, k with ODeliver CD _, CD | ODeliver CO _, CO => true | _, _ => false end) log).
(** All that was taken has been acknowledged: a packet sent since the last one
    was taken carries its number. *)
Definition acknowledged (k : chan) (log : list out) : Prop :=
  exists before p g after, log = before ++ OTx p g :: after /\ took k after = 0 /\ In (k, took k log mod 4096) (acks p).
(** The sender asks for the acknowledgment to be delayed. *)
Definition may_wait (p : npkt) : Prop := match p with NData _ _ _ _ _ y _ _ _ => y <> 0 | _ => False end.

(** ** Links to the proofs *)
Lemma took_len : forall k l, took k l = zlen (delivered k l).
Proof.
  intros k l. unfold took. induction l as [|o l IH]; [reflexivity|]. cbn [filter delivered flat_map]. fold (delivered k l).
  destruct o; cbn [up1 app]; try exact IH; destruct ch, k; cbn [app]; try exact IH; rewrite !zlen_cons, IH; reflexivity.
Qed.
Lemma took_none : forall k l, took k l = 0 <-> delivered k l = [].
Proof. intros k l. rewrite took_len. split; [|intros ->; reflexivity]. destruct (delivered k l) as [|x t]; [auto|]. rewrite zlen_cons. pose proof (zlen_nonneg _ t). lia. Qed.
Lemma acks_in : forall p k n, (forall q a, (ack1 p = Some (a, q) \/ ack2 p = Some (a, q)) -> 0 <= q <= 3) -> In (k, n) (eacks p) -> In (k, n) (acks p).
Proof.
  intros p k n Q H. unfold eacks in H. destruct (is_ackhdr p) eqn:AH; [|destruct H]. unfold dacks in H.
  assert (G : forall own a, (a = ack1 p \/ a = ack2 p) -> In (k, n) (tgt own a) -> In (k, n) (field own a)).
  { intros own [[m q]|] E IN; [|exact IN]. assert (R : 0 <= q <= 3) by (apply (Q q m); destruct E; auto).
    cbn [tgt field] in *. unfold is_cross in IN. destruct own, (q =? 2) eqn:E2, (q =? 3) eqn:E3; cbn [orb cross twin] in *; destruct ((q =? 0) || (q =? 1)) eqn:E4; auto; lia. }
  destruct p; try discriminate AH; cbn [acks ack1 ack2 chan_of] in *; apply in_app_or in H as [H|H]; apply in_or_app; [left|right|left|right|left|right|left|right|left|right]; apply G; auto.
Qed.
Lemma log_acks : forall c, TI c -> forall p g, In (OTx p g) (clog c) -> forall q a, (ack1 p = Some (a, q) \/ ack2 p = Some (a, q)) -> 0 <= q <= 3.
Proof.
  intros c T p g IN q a E. destruct (is_ackhdr p) eqn:AH.
  - destruct (t_log _ T p g IN AH) as (F1 & F2 & _). destruct E as [E|E]; rewrite E in *.
    + destruct F1 as [F|(m & F & _)]; [discriminate|]. injection F as -> ->. lia.
    + destruct F2 as [F|(m & F & _)]; [discriminate|]. injection F as -> ->. lia.
  - destruct p; try discriminate AH; destruct E; discriminate.
Qed.
Lemma told_acked : forall c k, TI c -> AJ c -> told k (acknum (getc c k)) (clog c) -> acknowledged k (clog c).
Proof.
  intros c k T J (l1 & l2 & L & D & p & g & IN & E). apply in_split in IN as (a & b & ->).
  exists (l1 ++ a), p, g, b. split; [rewrite L, <- app_assoc; reflexivity|]. rewrite delivered_app in D. apply app_eq_nil in D as [_ D].
  split; [apply took_none; exact D|]. rewrite took_len, <- (j_num _ J). apply acks_in; [|exact E].
  apply (log_acks c T p g). rewrite L. apply in_or_app. right. apply in_or_app. right. left. reflexivity.
Qed.
Lemma loop_grow : forall cfg fuel c ch num p c', accept_loop cfg fuel c ch num p = Ok c' ->
  (exists l, clog c' = clog c ++ ODeliver ch p :: l) /\ cphase c' = cphase c /\ cshut c' = cshut c.
Proof.
  intros cfg. induction fuel as [|f IH]; intros c ch num p c' H; cbn [accept_loop] in H; [discriminate|].
  destruct (process_data _ _ _ _) as [c2|] eqn:E in H; cbn [bind] in H; [|discriminate].
  set (c1 := putc c ch _) in *. assert (K1 : clog c1 = clog c /\ cphase c1 = cphase c /\ cshut c1 = cshut c) by (destruct ch; auto). clearbody c1. destruct K1 as (K1 & K2 & K3).
  destruct (process_data_rx _ _ _ _ _ E) as (_ & _ & l & L & _).
  assert (K4 : cphase c2 = cphase c1 /\ cshut c2 = cshut c1).
  { assert (TS : forall q, cphase (to_sc (emit c1 (ODeliver ch p)) q false) = cphase c1 /\ cshut (to_sc (emit c1 (ODeliver ch p)) q false) = cshut c1).
    { intros q. destruct q; cbn [to_sc]; auto. destruct (casm _); repeat match goal with |- context [if ?b then _ else _] => destruct b end; auto. }
    unfold process_data in E. destruct ch; [injection E as <-; apply TS|].
    destruct p; try (match type of E with Ok (to_sc _ ?q _) = _ => specialize (TS q) end; injection E as <-; exact TS).
    destruct (_ =? 0) in E; [|injection E as <-; unfold other_ls; destruct (_ <=? _); auto]. unfold data_ls in E.
    repeat match type of E with context [if ?x then _ else _] => destruct x end; try (injection E as <-; auto; fail);
      (apply send_blocked_frame in E; rewrite (fr_phase _ _ E), (fr_shut _ _ E); auto). }
  destruct K4 as [K4 K5]. destruct (mod_add 4096 num 1) as [n2|]; cbn [bind] in H; [|discriminate].
  destruct (dget Z.eqb (ooo (getc c2 ch)) n2) as [q|].
  - destruct (IH _ _ _ _ _ H) as ((m & M) & P1 & P2).
    assert (G : clog (putc c2 ch (set_ooo (getc c2 ch) (ddel Z.eqb (ooo (getc c2 ch)) n2))) = clog c2 /\ cphase (putc c2 ch (set_ooo (getc c2 ch) (ddel Z.eqb (ooo (getc c2 ch)) n2))) = cphase c2 /\ cshut (putc c2 ch (set_ooo (getc c2 ch) (ddel Z.eqb (ooo (getc c2 ch)) n2))) = cshut c2) by (destruct ch; auto).
    destruct G as (G1 & G2 & G3). split; [|split; congruence]. exists (l ++ ODeliver ch q :: m). rewrite M, G1, L, K1, <- app_assoc. reflexivity.
  - injection H as <-. split; [|split; congruence]. exists l. congruence.
Qed.

(** ** The theorems *)
(** While the connection is up, everything taken has been acknowledged, or the
    timer that makes it acknowledged is running. *)
Theorem nsp_ack_owed : forall cfg c, 1 <= phase cfg -> cexec cfg c -> cst c = Srun -> forall k,
  took k (clog c) = 0 \/ hold (getc c k) = true \/ acknowledged k (clog c).
Proof.
  intros cfg c PH H S k. destruct (cexec_AJ _ _ PH H) as [T J]. pose proof (cexec_HI _ _ PH H) as HI0.
  destruct (ackpending (getc c k)) eqn:P.
  - right; left. apply HI0; [rewrite S; reflexivity|exact P].
  - destruct (j_told _ J k P) as [X|X]; [left; apply took_none; exact X|right; right]. eapply told_acked; eauto.
Qed.
(** When that timer expires, the acknowledgment is sent. *)
Theorem nsp_ack_timely : forall cfg c k c', 1 <= phase cfg -> cexec cfg c -> hold (getc c k) = true -> cstep cfg c (VHold k) = Ok c' ->
  hold (getc c' k) = false /\ acknowledged k (clog c') /\ exists p g new, clog c' = clog c ++ OTx p g :: new /\ In (k, took k (clog c) mod 4096) (acks p).
Proof.
  intros cfg c k c' PH H HD E. destruct (cexec_AJ _ _ PH H) as [T J].
  assert (T' : TI c') by (apply (TI_step cfg c (VHold k)); auto; exact I). assert (J' : AJ c') by (apply (step_AJ cfg c (VHold k)); auto; exact I).
  cbn [cstep] in E. unfold holdoff in E. rewrite HD in E. destruct (send_ack_ah _ _ _ E) as (A & B & N & l & L & D & S & _).
  assert (L0 : clog c' = clog c ++ l) by (rewrite L; destruct k; reflexivity).
  assert (N0 : acknum (getc c' k) = acknum (getc c k)) by (rewrite N, getc_putc; reflexivity). rewrite getc_putc in S. change (acknum (set_hold (getc c k) false)) with (acknum (getc c k)) in S.
  split; [exact B|]. split.
  - apply told_acked; auto. rewrite N0, L0. apply told_ext; auto.
  - unfold send_ack in E. destruct (set_acks _ _ _ _ _) as [[c1 p1] g1] eqn:SA in E. apply sendmsg_log in E. apply set_acks_frame in SA as (_ & SL & _).
    assert (LL : l = [OTx p1 (mk_tag 0 0 (fst g1) (snd g1))]).
    { apply (app_inv_head (clog c)). rewrite <- L0, E. cbn [emit clog set_clog]. rewrite SL. destruct k; reflexivity. }
    exists p1, (mk_tag 0 0 (fst g1) (snd g1)), []. split; [rewrite L0, LL; reflexivity|]. destruct S as (p & g & IN & IE). rewrite LL in IN. destruct IN as [IN|[]]. injection IN as <- <-.
    rewrite took_len, <- (j_num _ J). apply acks_in; [|exact IE]. eapply (log_acks c' T'). rewrite L0, LL. apply in_or_app. right. left. reflexivity.
Qed.
(** A segment that was received before is acknowledged again, with the number
    of the last one taken; the next one is taken, and acknowledged at once
    unless its sender asked for a delay and the connection allows it. *)
Theorem nsp_ack_at_once : forall cfg c p c', 1 <= phase cfg -> cexec cfg c -> cst c = Srun -> is_seg p = true -> cstep cfg c (VRecv p) = Ok c' -> cst c' = Srun ->
  let k := chan_of p in let n := took k (clog c) in
  (forall i, 0 <= i < 2048 -> segnum p = (n - i) mod 4096 ->
     took k (clog c') = n /\ exists old p2 g2 new, clog c' = clog c ++ old ++ OTx p2 g2 :: new /\ In (k, n mod 4096) (acks p2)) /\
  (segnum p = (n + 1) mod 4096 ->
     n < took k (clog c') /\ (~ may_wait p \/ cphase c <> 4 \/ cshut c = true -> acknowledged k (clog c'))).
Proof.
  intros cfg c p c' PH H S SG E S' k n. destruct (cexec_AJ _ _ PH H) as [T J]. assert (EO : ev_ok (VRecv p)) by (destruct p; try discriminate SG; exact I).
  assert (T' : TI c') by (eapply TI_step; [exact PH|exact EO|exact T|exact E]). assert (J' : AJ c') by (eapply step_AJ; [exact PH|exact EO|exact T|exact J|exact E]).
  cbn [cstep] in E. unfold conn_recv in E. rewrite S in E. unfold run_recv in E.
  remember (if 2 <? cphase c then set_ctimer c true else c) as c0 eqn:H0.
  assert (K0 : TI c0 /\ clog c0 = clog c /\ (forall k, getc c0 k = getc c k) /\ cphase c0 = cphase c /\ cshut c0 = cshut c)
    by (subst c0; destruct (2 <? cphase c); (split; [first [exact T|now apply (TI_scal c)]|split; [reflexivity|split; [intros []; reflexivity|auto]]])).
  clear H0. destruct K0 as (T0 & L0 & G0 & P0 & SH0).
  assert (E2 : sub_recv cfg c0 k p = Ok c') by (unfold k; destruct p; try discriminate SG; exact E).
  destruct (sub_recv_split _ _ _ _ _ T0 E2) as [O|(c2 & KA & T2 & FR & G & _)]; [rewrite S' in O; discriminate|]. specialize (G SG). clear E E2.
  destruct (ah_log _ _ KA) as (l & L & D & _). pose proof (ah_num _ _ KA k) as N2. rewrite G0 in N2.
  assert (AN : acknum (getc c2 k) = n mod 4096) by (rewrite N2, (j_num _ J); unfold n; rewrite took_len; reflexivity).
  assert (NN : 0 <= n) by (unfold n; rewrite took_len; apply zlen_nonneg).
  assert (D2 : delivered k (clog c2) = delivered k (clog c)) by (rewrite L, delivered_app, D, app_nil_r, L0; reflexivity).
  unfold tail in G. cbv zeta in G. rewrite AN in G. split.
  - intros i R SN. assert (X : mod_le 4096 (segnum p) (n mod 4096) = Ok true).
    { rewrite SN. destruct (mod_lt_unwrapped 4096 (n - i) n) as (_ & LE & _); [lia|lia|]. rewrite LE. f_equal. lia. }
    rewrite X in G. cbn [bind] in G. destruct (send_ack_ah _ _ _ G) as (_ & _ & _ & m & M & DM & (p2 & g2 & IN & IE) & _).
    split; [rewrite took_len, M, delivered_app, DM, app_nil_r, D2; unfold n; rewrite took_len; reflexivity|].
    apply in_split in IN as (a & b & ->). exists (l ++ a), p2, g2, b. split; [rewrite M, L, L0, <- !app_assoc; reflexivity|].
    rewrite AN in IE. apply acks_in; [|exact IE]. eapply (log_acks c' T'). rewrite M. apply in_or_app. right. apply in_or_app. right. left. reflexivity.
  - intros SN. assert (X : mod_le 4096 (segnum p) (n mod 4096) = Ok false).
    { rewrite SN. destruct (mod_lt_unwrapped 4096 (n + 1) n) as (_ & LE & _); [lia|lia|]. rewrite LE. f_equal. lia. }
    rewrite X in G. cbn [bind] in G. destruct (mod_add 4096 (n mod 4096) 1) as [nxt|] eqn:M; cbn [bind] in G; [|discriminate].
    apply mod_next in M; [|exact NN]. subst nxt. rewrite SN, Z.eqb_refl in G. cbn [negb] in G. rewrite <- SN in G.
    destruct (accept_loop _ _ _ _ _ _) as [c3|] eqn:A in G; cbn [bind] in G; [|discriminate].
    destruct (loop_grow _ _ _ _ _ _ _ A) as ((m & LM) & P3 & SH3).
    assert (GR : forall l', clog c' = clog c3 ++ l' -> n < took k (clog c') /\ delivered k (clog c') <> []).
    { intros l' L'. assert (X1 : delivered k (clog c') = delivered k (clog c) ++ p :: delivered k (m ++ l')).
      { rewrite L', LM, <- app_assoc, delivered_app, D2. f_equal. cbn [app delivered flat_map]. fold (delivered k (m ++ l')). destruct k; reflexivity. }
      split; [|rewrite X1; intros Y; apply app_eq_nil in Y as [_ Y]; discriminate].
      rewrite took_len, X1, zlen_app, zlen_cons. unfold n. rewrite took_len. pose proof (zlen_nonneg _ (delivered k (m ++ l'))). lia. }
    assert (AK : delivered k (clog c') <> [] -> ackpending (getc c' k) = false -> acknowledged k (clog c')).
    { intros X1 X2. destruct (j_told _ J' k X2) as [X3|X3]; [contradiction|]. eapply told_acked; eauto. }
    assert (PS : cphase c3 = cphase c /\ cshut c3 = cshut c) by (split; [rewrite P3, (fr_phase _ _ FR); exact P0|rewrite SH3, (fr_shut _ _ FR); exact SH0]). destruct PS as [P4 S4]. rewrite P4, S4 in G.
    destruct (dly p && (cphase c =? 4) && negb (cshut c)) eqn:W.
    + destruct (GR []) as [R1 R2]; [destruct (_ && _) in G; injection G as <-; rewrite app_nil_r; [destruct k; reflexivity|reflexivity]|]. split; [exact R1|].
      intros NW. exfalso. apply andb_true_iff in W as [W W3]. apply andb_true_iff in W as [W1 W2]. destruct NW as [NW|[NW|NW]]; [|lia|rewrite NW in W3; discriminate].
      apply NW. destruct p; try discriminate W1. cbn [NspModel.dly may_wait] in *. lia.
    + destruct (ackpending (getc c3 k)) eqn:P.
      * destruct (send_ack_ah _ _ _ G) as (X1 & _ & _ & m2 & M2 & _). destruct (GR m2 M2) as [R1 R2]. auto.
      * injection G as <-. destruct (GR []) as [R1 R2]; [rewrite app_nil_r; reflexivity|]. auto.
Qed.
(** Both subchannels are acknowledged in one packet only towards a Phase IV
    partner: a Phase III partner would not understand the second field. *)
Theorem nsp_cross_ack : forall cfg c p g, 1 <= phase cfg -> cexec cfg c -> In (OTx p g) (clog c) -> ack2 p <> None -> cphase c = 4.
Proof. intros cfg c p g PH H IN A. destruct (cexec_XI _ _ PH H) as [[X|[X _]] _]; [exact X|]. exfalso. apply A. eapply X. exact IN. Qed.

(** ** Cases *)
Definition ex_d (n y : Z) : npkt := NData 200 300 None None n y 1 1 [n].
Definition ex_go (c : conn) (l : list cev) : conn := fold_left (fun c e => ex_get (cstep ex_cfg c e)) l c.
(** Accepted, then a segment that may wait, then the timer, then a duplicate,
    then an interrupt that arrives while data may wait. *)
Definition ex_a : conn := ex_go ex_c1 [VRecv (NAckData 200 300 (Some (0, 0)) None); VRecv (ex_d 1 1)].
Example ex_waits : cst ex_a = Srun /\ hold (cdata ex_a) = true /\ took CD (clog ex_a) = 1.
Proof. vm_compute. auto. Qed.
Definition ex_sent (c : conn) : list npkt := flat_map (fun o => match o with OTx p _ => [p] | _ => [] end) (clog c).
Definition ex_b : conn := ex_go ex_a [VHold CD].
Example ex_timer : hold (cdata ex_b) = false /\ ex_sent ex_b = ex_sent ex_a ++ [NAckData 300 200 (Some (1, 0)) None].
Proof. vm_compute. auto. Qed.
Example ex_duplicate : ex_sent (ex_go ex_b [VRecv (ex_d 1 1)]) = ex_sent ex_b ++ [NAckData 300 200 (Some (1, 0)) None].
Proof. vm_compute. reflexivity. Qed.
Example ex_both : ex_sent (ex_go ex_a [VRecv (NInt 200 300 None None 1 [7])]) = ex_sent ex_a ++ [NAckOther 300 200 (Some (1, 0)) (Some (1, 2))].
Proof. vm_compute. reflexivity. Qed.
Example ex_at_once : ex_sent (ex_go ex_b [VRecv (ex_d 2 0)]) = ex_sent ex_b ++ [NAckData 300 200 (Some (2, 0)) None].
Proof. vm_compute. reflexivity. Qed.
(** These are executions. *)
Example ex_a_exec : cexec ex_cfg ex_a /\ cexec ex_cfg ex_b.
Proof.
  assert (A : cexec ex_cfg ex_c0) by (apply (ce_in ex_cfg 200 1025 ex_ci); vm_compute; reflexivity).
  assert (B : cexec ex_cfg ex_c1) by (apply (ce_ev ex_cfg ex_c0 (VAccept [])); [exact A|exact I|vm_compute; reflexivity]).
  assert (C : cexec ex_cfg (ex_go ex_c1 [VRecv (NAckData 200 300 (Some (0, 0)) None)])) by (apply (ce_ev ex_cfg ex_c1 (VRecv (NAckData 200 300 (Some (0, 0)) None))); [exact B|exact I|vm_compute; reflexivity]).
  assert (D : cexec ex_cfg ex_a) by (apply (ce_ev ex_cfg _ (VRecv (ex_d 1 1)) ex_a C); [exact I|vm_compute; reflexivity]).
  split; [exact D|]. apply (ce_ev ex_cfg ex_a (VHold CD)); [exact D|exact I|vm_compute; reflexivity].
Qed.

Print Assumptions nsp_ack_owed.
Print Assumptions nsp_ack_timely.
Print Assumptions nsp_ack_at_once.
Print Assumptions nsp_cross_ack.
