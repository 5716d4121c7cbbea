(** Flow control and the transmit window of NSP (C35): theorems. *)
From Verif Require Import Base Dict ModuloModel NspPktModel NspModel NspFrame NspPrim NspRx NspRxProps NspSend NspSendInv NspFlow.

(** * Specification *)
(** An execution with its events; [o]: the Connect Initiate that started it,
    None for an outgoing connection. *)
Inductive texec (cfg : ncfg) : option npkt -> list cev -> conn -> Prop :=
  | te_out : forall src dest x c, conn_outbound cfg src dest x = Ok c -> texec cfg None [] c
  | te_in : forall src dest p c, conn_inbound cfg src dest p = Ok c -> texec cfg (Some p) [] c
  | te_ev : forall o evs c e c', texec cfg o evs c -> ev_ok e -> cstep cfg c e = Ok c' -> texec cfg o (evs ++ [e]) c'.
(** The data segment numbers acknowledged by a packet: its own acknowledgement
    fields if it belongs to the data subchannel, the cross subchannel ones
    (qualifier 2 or 3) otherwise. *)
Definition own_ack (a : ack) : list Z := match a with Some (n, q) => if (q =? 0) || (q =? 1) then [n] else [] | None => [] end.
Definition cross_ack (a : ack) : list Z := match a with Some (n, q) => if (q =? 2) || (q =? 3) then [n] else [] | None => [] end.
Definition data_acks (p : npkt) : list Z :=
  match p with
  | NData _ _ a1 a2 _ _ _ _ _ | NAckData _ _ a1 a2 => own_ack a1 ++ own_ack a2
  | NInt _ _ a1 a2 _ _ | NLs _ _ a1 a2 _ _ _ _ | NAckOther _ _ a1 a2 => cross_ack a1 ++ cross_ack a2
  | _ => []
  end.
(** [acked w evs A]: by the packets received in [evs] the first [A] segments
    count as acknowledged; each acknowledgement moves forward by at most [w]. *)
Inductive acked (w : Z) : list cev -> Z -> Prop :=
  | acked_0 : acked w [] 0
  | acked_ev : forall evs A e, acked w evs A -> acked w (evs ++ [e]) A
  | acked_ack : forall evs A p n a, acked w (evs ++ [VRecv p]) A -> In n (data_acks p) -> A < a <= A + w -> a mod 4096 = n mod 4096 -> acked w (evs ++ [VRecv p]) a.
(** The flow control mode asked for by the other end. *)
Definition asked (o : option npkt) (evs : list cev) (mode : Z) : Prop :=
  match o with
  | Some (NCI _ _ f _ _ _) => mode = f
  | Some _ => False
  | None => exists d s i z x, In (VRecv (NCC d s mode i z x)) evs
  end.
(** The qualifiers that exist: two bits. *)
Definition quals_ok (e : cev) : Prop :=
  match e with VRecv p => Forall (fun a : ack => match a with Some (_, q) => 0 <= q <= 3 | None => True end) [ack1 p; ack2 p] | _ => True end.

(** * Proofs *)
Lemma FI_mono : forall cfg (K K' G G' : Z -> Prop) F c, (forall a, K a -> K' a) -> (forall f, G f -> G' f) -> FI cfg K G F c -> FI cfg K' G' F c.
Proof.
  intros cfg K K' G G' F c HK HG [A B C D E]. constructor; auto.
  - intros O. destruct (C O) as (X & Y). auto.
  - destruct D as [D|D]; auto.
  - intros pre p g post L IS. destruct (E pre p g post L IS) as (A0 & T & X1 & X2 & X3 & X4). exists A0, T. auto.
Qed.
Lemma FI_fresh : forall cfg (K G : Z -> Prop) c, K 0 -> cst c = Scr \/ cst c = Sci -> xon (cdata c) = true -> maxseg (cdata c) = 0 -> maxmsg (cdata c) = 0 -> maxackseg (cdata c) = 0 ->
  reqs (clog c) = [] -> nodata (clog c) -> (cst c = Scr -> G (flow (cdata c))) -> FI cfg K G 1 c.
Proof.
  intros cfg K G c K0 S X1 X2 X3 X4 R N GF. constructor; rewrite ?X1, ?X2, ?X3, ?X4, ?R; auto 8.
  - intros _. split; [exact K0|]. split; [reflexivity|]. exists 0. split; [constructor|auto].
  - destruct S as [S|S]; auto.
  - change (clog c) with ([] ++ clog c). apply log_flow_ext; [exact N|]. intros pre p g post E. destruct pre; discriminate.
Qed.
Lemma data_acks_in : forall p n, Forall (fun a : ack => match a with Some (_, q) => 0 <= q <= 3 | None => True end) [ack1 p; ack2 p] -> In (CD, n) (eacks p) -> In n (data_acks p).
Proof.
  assert (T1 : forall (a : ack) n, match a with Some (_, q) => 0 <= q <= 3 | None => True end -> In (CD, n) (tgt CD a) -> In n (own_ack a)).
  { intros [[m q]|] n H I; cbn [tgt own_ack] in *; [|exact I]. unfold is_cross in I. destruct I as [I|[]]. destruct ((q =? 2) || (q =? 3)) eqn:C in I; [discriminate|]. injection I as <-.
    replace ((q =? 0) || (q =? 1)) with true by lia. left. reflexivity. }
  assert (T2 : forall (a : ack) n, match a with Some (_, q) => 0 <= q <= 3 | None => True end -> In (CD, n) (tgt CO a) -> In n (cross_ack a)).
  { intros [[m q]|] n H I; cbn [tgt cross_ack cross] in *; [|exact I]. unfold is_cross in I. destruct I as [I|[]]. destruct ((q =? 2) || (q =? 3)) eqn:C; [|discriminate]. injection I as <-. left. reflexivity. }
  intros p n F I. inversion F as [|? ? F1 F2]; subst. inversion F2 as [|? ? F3 F4]; subst. unfold eacks in I. destruct p; cbn [is_ackhdr chan_of data_acks] in *; try destruct I; unfold dacks in I; cbn [ack1 ack2] in *;
    apply in_app_or in I; apply in_or_app; destruct I; auto.
Qed.
Lemma fresh_outbound : forall cfg src dest x c, conn_outbound cfg src dest x = Ok c ->
  cst c = Sci /\ xon (cdata c) = true /\ maxseg (cdata c) = 0 /\ maxmsg (cdata c) = 0 /\ maxackseg (cdata c) = 0 /\ reqs (clog c) = [] /\ nodata (clog c) /\ OI 0 c.
Proof.
  intros cfg src dest x c H. unfold conn_outbound in H. set (c0 := mk_conn Sci _ _ _ _ _ _ _ _ _ _ _ _ _) in *.
  assert (O0 : OI 0 c0) by (constructor; [reflexivity|cbn; lia|reflexivity|exact (Forall_nil _)|exact (Forall_nil _)|intros pre p g post E; destruct pre; discriminate]).
  destruct (data_send cfg c0 _) as [c1|] eqn:E; cbn [bind] in H; [|discriminate]. injection H as <-.
  pose proof (fr_st _ _ (data_send_frame _ _ _ _ E)) as ST. assert (O1 := OI_data_send 0 _ _ (NCI false src 0 (nspver cfg) MSS x) _ O0 eq_refl E).
  unfold data_send in E. cbn [make_entry] in E. set (e := mk_txe (NCI _ _ _ _ _ _) _ _ _ _ _ _ _) in *. set (c2 := set_cdata c0 _) in *. unfold send_qe in E.
  change (nth_error (pending (cdata c2)) (length (pending (cdata c0)))) with (Some e) in E. cbn [is_data tp e andb] in E.
  destruct (tx_send c2 CD _) as [c3|] eqn:T; cbn [bind andb] in E; [|discriminate]. injection E as <-.
  destruct (tx_send_log _ _ _ _ T) as (e0 & p & g & N0 & L & _ & _ & D1 & _ & _ & _ & _ & _ & _ & _ & K). destruct (K CD) as (_ & _ & K3 & _ & K5 & K6 & K7 & K8 & _). cbn [getc] in *.
  cbn [cst cdata clog set_ctimer]. rewrite K3, K5, K6, K7, L. split; [exact ST|]. repeat (split; [reflexivity|]). split; [|apply (OI_scal 0 c3); auto].
  change (clog c2) with (@nil out). apply nodata_one. rewrite D1. change (nth_error (pending (cdata c2)) (length (pending (cdata c0)))) with (Some e) in N0. injection N0 as <-. reflexivity.
Qed.
Lemma fresh_inbound : forall cfg src dest p c, conn_inbound cfg src dest p = Ok c ->
  cst c = Scr /\ xon (cdata c) = true /\ maxseg (cdata c) = 0 /\ maxmsg (cdata c) = 0 /\ maxackseg (cdata c) = 0 /\ reqs (clog c) = [] /\ nodata (clog c) /\ asked (Some p) [] (flow (cdata c)) /\ OI 0 c.
Proof.
  intros cfg src dest p c H. destruct p; try discriminate H. cbn [conn_inbound] in H.
  destruct (if 2 <? _ then _ else _) as [c1|] eqn:E in H; cbn [bind] in H; [|discriminate]. injection H as <-.
  set (c0 := setphase cfg _ info) in *.
  assert (O0 : OI 0 c0) by (constructor; [reflexivity|cbn; lia|reflexivity|exact (Forall_nil _)|exact (Forall_nil _)|intros pre p g post X; destruct pre; discriminate]).
  assert (X : cdata c1 = set_flow new_data fcopt /\ nodata (clog c1) /\ reqs (clog c1) = [] /\ cst c1 = Scr /\ OI 0 c1).
  { destruct (2 <? cphase c0); [apply sendmsg_log in E; subst c1|injection E as <-].
    - split; [reflexivity|]. split; [repeat constructor|]. split; [reflexivity|]. split; [reflexivity|]. apply OI_emit; [exact O0|apply noint_one; reflexivity|reflexivity].
    - split; [reflexivity|]. split; [constructor|]. split; [reflexivity|]. split; [reflexivity|]. exact O0. }
  destruct X as (X1 & X2 & X3 & X4 & X5). cbn [cdata set_ctimer to_sc emit set_clog clog cst asked]. rewrite X1, reqs_app, X3. split; [exact X4|]. repeat (split; [reflexivity|]). split; [apply Forall_app; split; [exact X2|repeat constructor]|].
  split; [reflexivity|]. apply (OI_scal 0 (emit c1 (OSc (SPkt (NCI rci s fcopt info segsize pl)) false))); [apply OI_emit; [exact X5|apply noint_one; exact Logic.I|reflexivity]|reflexivity..].
Qed.
Lemma opening_step : forall cfg c e c', 1 <= phase cfg -> ev_ok e -> cstep cfg c e = Ok c' -> opening (cst c') -> opening (cst c).
Proof.
  intros cfg c e c' PH EO H. assert (SI : forall arr b l x y, star cfg arr b l x y -> opening (cst y) -> opening (cst x)).
  { intros arr b l x y S. induction S as [w|l m x y z S1 S2 IH]; intros O; [exact O|]. eapply opening_prim; [exact S1|auto]. }
  destruct (is_send e) eqn:S; [|eapply SI; eapply (step_star cfg (ev_arr e) false); eauto].
  destruct e; try discriminate S. cbn [cstep] in H. unfold conn_send in H.
  destruct (cst c) eqn:ST; cbn [cstate_eqb negb orb] in H; try (injection H as <-; cbn; rewrite ST; auto).
  destruct (cshut c); [injection H as <-; cbn; rewrite ST; auto|]. destruct (csegsize c =? 0); [discriminate|].
  intros O. rewrite (fr_st _ _ (send_segs_frame _ _ _ _ H)) in O. rewrite <- ST. exact O.
Qed.
Lemma texec_in : forall cfg o evs c, 1 <= phase cfg -> texec cfg o evs c -> o <> None -> ~ opening (cst c).
Proof.
  intros cfg o evs c PH H. induction H as [src dest x c H|src dest p c H|o evs c e c' H IH EO E]; intros NO; [congruence| |].
  - destruct (fresh_inbound _ _ _ _ _ H) as (ST & _). rewrite ST. intros [X|X]; discriminate.
  - intros O. apply IH; [exact NO|]. eapply opening_step; eauto.
Qed.
Lemma texec_inv : forall cfg o evs c, 1 <= qmax cfg <= 2047 -> 1 <= phase cfg -> texec cfg o evs c -> Forall quals_ok evs ->
  (exists F, SI cfg [] F c /\ FI cfg (acked (qmax cfg) evs) (asked o evs) F c) /\ OI 0 c.
Proof.
  intros cfg o evs c QM PH H. induction H as [src dest x c H|src dest p c H|o evs c e c' H IH EO E]; intros QO.
  - destruct (fresh_outbound _ _ _ _ _ H) as (ST & X1 & X2 & X3 & X4 & R & N & O). split; [|exact O]. exists 1. split; [eapply SI_outbound; [lia|exact H]|].
    apply FI_fresh; auto; [constructor|congruence].
  - destruct (fresh_inbound _ _ _ _ _ H) as (ST & X1 & X2 & X3 & X4 & R & N & G & O). split; [|exact O]. exists 1. split; [eapply SI_inbound; [lia|exact H]|].
    apply FI_fresh; auto. constructor.
  - apply Forall_app in QO as [Q1 Q2]. inversion Q2 as [|? ? Q3 _]; subst. destruct (IH Q1) as [(F & I & X) O]. split; [|eapply OI_step; eauto].
    eapply (FI_step cfg _ _ c e c' F QM PH EO); [| |exact I| |exact E].
    + intros n A a IN KA B M. destruct e; cbn [ev_acks] in IN; try destruct IN. eapply (acked_ack _ evs A p n); auto.
      apply data_acks_in; [exact Q3|]. destruct (cst c); auto; destruct IN.
    + intros OP f (d & s & i & z & y & AR). destruct e; try discriminate AR. cbn [ev_arr] in AR. injection AR as CH ->.
      destruct o as [q|]; [|exists d, s, i, z, y; apply in_or_app; right; left; reflexivity].
      exfalso. apply (texec_in _ _ _ _ PH H); [discriminate|exact OP].
    + apply (FI_mono cfg (acked (qmax cfg) evs) _ (asked o evs)); [intros a; apply acked_ev| |exact X].
      intros f. unfold asked. destruct o; [auto|]. intros (d & s & i & z & y & IN). exists d, s, i, z, y. apply in_or_app. auto.
Qed.

(** * Theorems *)
(** C35: at any time, whatever was sent, received and acknowledged, every data
    segment transmitted so far (first or repeated transmission) lies in the
    window of [qmax] segments after the acknowledged ones, within the credit
    granted by the Link Service messages accepted before it, and not while the
    other end has switched sending off.  [g_seg], [g_msg]: the position of the
    segment and of its message in the data handed to send_data. *)
Theorem nsp_flow_control : forall cfg o evs c, 1 <= qmax cfg <= 2047 -> 1 <= phase cfg -> texec cfg o evs c -> Forall quals_ok evs ->
  exists mode, forall pre p g post, clog c = pre ++ OTx p g :: post -> is_data p = true ->
    asked o evs mode /\ segnum p = g_seg g mod 4096 /\
    nth_error (content (clog c)) (Z.to_nat (g_seg g - 1)) = Some (seg_of p) /\ g_msg g = 1 + eoms (firstn (Z.to_nat (g_seg g - 1)) (content (clog c))) /\
    exists A T, acked (qmax cfg) evs A /\ A < g_seg g <= A + qmax cfg /\ honoured mode (reqs pre) A T true /\ within mode T g.
Proof.
  intros cfg o evs c QM PH H QO. destruct (texec_inv _ _ _ _ QM PH H QO) as [(F & I & X) _]. exists (flow (cdata c)). intros pre p g post L D.
  destruct X as [_ _ _ _ X]. destruct (X pre p g post L D) as (A & T & X1 & X2 & X3 & X4 & X5).
  destruct I as [I _ _ _ _ _]. assert (IN : In (OTx p g) (clog c)) by (rewrite L; apply in_or_app; right; left; reflexivity). destruct (I p g IN D) as (Y1 & Y2 & Y3 & Y4).
  split; [exact X1|]. split; [exact Y3|]. split; [exact Y2|]. split; [exact Y4|]. exists A, T. auto.
Qed.
(** Interrupt messages: one, and one more for each unit of credit granted before.
    [g_msg]: the place of the message among those sent on the subchannel. *)
Theorem nsp_interrupt_credit : forall cfg o evs c, 1 <= qmax cfg <= 2047 -> 1 <= phase cfg -> texec cfg o evs c -> Forall quals_ok evs ->
  forall pre p g post, clog c = pre ++ OTx p g :: post -> is_int p = true -> 1 <= g_msg g <= 1 + icredit pre /\ segnum p = g_msg g mod 4096.
Proof.
  intros cfg o evs c QM PH H QO. destruct (texec_inv _ _ _ _ QM PH H QO) as [_ [_ _ _ _ _ X]]. exact X.
Qed.
(** At most [qmax] segments are in flight: the highest segment sent is at most
    [qmax] above those acknowledged. *)
Theorem nsp_in_flight : forall cfg o evs c, 1 <= qmax cfg <= 2047 -> 1 <= phase cfg -> texec cfg o evs c -> Forall quals_ok evs -> over (cst c) = false ->
  exists A, acked (qmax cfg) evs A /\ forall p g, In (OTx p g) (clog c) -> is_data p = true -> g_seg g <= A + qmax cfg.
Proof.
  intros cfg o evs c QM PH H QO OV. destruct (texec_inv _ _ _ _ QM PH H QO) as [(F & I & X) _]. destruct X as [_ _ X _ _]. destruct (X OV) as (X1 & _). exists (F - 1). split; [exact X1|].
  intros p g IN D. pose proof (hi_in _ _ IN) as B. cbn [dseg] in B. rewrite D in B. pose proof (si_hi _ _ _ _ I). lia.
Qed.
Print Assumptions nsp_flow_control.
Print Assumptions nsp_interrupt_credit.
Print Assumptions nsp_in_flight.

(** A concrete case: segment flow control, a window of 2; three segments are
    offered, the credit of 5 arrives, two are sent, and the third only after an
    acknowledgement; then an interrupt. *)
Definition fx_cfg : ncfg := mk_ncfg 4 2 5 2.
Definition fx_ci : npkt := NCI false 300 1 2 2 [].
Definition fx_evs : list cev :=
  [VAccept []; VRecv (NAckData 200 300 (Some (0, 0)) None); VSend [1; 2; 3; 4; 5]; VRecv (NLs 200 300 None None 1 0 0 5); VRecv (NAckData 200 300 (Some (1, 0)) None); VInterrupt [9]].
Fixpoint fx_run (c : conn) (l : list cev) : conn := match l with [] => c | e :: t => fx_run (ex_get (cstep fx_cfg c e)) t end.
Definition fx_c0 : conn := ex_get (conn_inbound fx_cfg 200 1025 fx_ci).
Definition fx_sent (c : conn) : list (bool * Z) := flat_map (fun o => match o with OTx p g => if is_data p then [(true, g_seg g)] else if is_int p then [(false, g_msg g)] else [] | _ => [] end) (clog c).
Example nsp_flow_example : texec fx_cfg (Some fx_ci) fx_evs (fx_run fx_c0 fx_evs) /\ Forall quals_ok fx_evs /\
  fx_sent (fx_run fx_c0 (firstn 3 fx_evs)) = [] /\ fx_sent (fx_run fx_c0 (firstn 4 fx_evs)) = [(true, 1); (true, 2)] /\ fx_sent (fx_run fx_c0 fx_evs) = [(true, 1); (true, 2); (true, 3); (false, 1)].
Proof.
  split; [|split; [repeat constructor; cbn; lia|vm_compute; auto]].
  assert (G : forall l evs c, texec fx_cfg (Some fx_ci) evs c -> Forall ev_ok l -> (forall k e, nth_error l k = Some e -> exists c', cstep fx_cfg (fx_run c (firstn k l)) e = Ok c') -> texec fx_cfg (Some fx_ci) (evs ++ l) (fx_run c l)).
  { induction l as [|e l IH]; intros evs c H F N; [rewrite app_nil_r; exact H|]. inversion F as [|? ? F1 F2]; subst. cbn [fx_run]. change (e :: l) with ([e] ++ l). rewrite app_assoc. destruct (N 0%nat e eq_refl) as (c' & E). cbn [fx_run firstn] in E. rewrite E. cbn [ex_get].
    apply IH; [eapply te_ev; eauto|exact F2|]. intros k e0 K. destruct (N (S k) e0 K) as (c2 & E2). cbn [firstn fx_run] in E2. rewrite E in E2. cbn [ex_get] in E2. eauto. }
  apply (G fx_evs [] fx_c0).
  - apply (te_in fx_cfg 200 1025 fx_ci). vm_compute. reflexivity.
  - repeat constructor.
  - intros k e N. do 6 (destruct k as [|k]; [injection N as <-; eexists; vm_compute; reflexivity|]). destruct k; discriminate.
Qed.
