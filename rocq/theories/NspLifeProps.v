(** C57: the life of a connection as its user sees it. *)
From Verif Require Import Base Dict ModuloModel PacketModel NspPktModel NspModel NspFrame NspPrim NspRx NspRxProps NspNodeProps NspLife.

(** * Specification *)
(** The conversation between NSP and the user of a connection: calls of the API,
    each with the exception that it raised, and the items given to Session
    Control. *)
Inductive obs := Ask (e : cev) (x : option nexc) | Tell (i : scitem) (reject : bool).
Definition is_call (e : cev) : bool :=
  match e with VAccept _ | VReject _ _ | VDisconnect _ _ | VAbort _ _ | VSend _ | VInterrupt _ => true | _ => false end.
Definition tells (l : list out) : list obs := flat_map (fun o => match o with OSc i r => [Tell i r] | _ => [] end) l.
Fixpoint raised (l : list out) : option nexc := match l with [] => None | ORaise x :: _ => Some x | _ :: t => raised t end.
Definition observed (e : cev) (l : list out) : list obs := (if is_call e then [Ask e (raised l)] else []) ++ tells l.
(** What was added to the log. *)
Definition news (c c' : conn) : list out := skipn (length (clog c)) (clog c').
(** Executions with the conversation so far.  [peer]: NSP.dispatch records the
    link address of the peer (nsp.py:213-226). *)
Inductive story (cfg : ncfg) : option npkt -> list obs -> conn -> Prop :=
  | so_out : forall src dest x c, conn_outbound cfg src dest x = Ok c -> story cfg None (tells (clog c)) c
  | so_in : forall src dest p c, conn_inbound cfg src dest p = Ok c -> story cfg (Some p) (tells (clog c)) c
  | so_peer : forall ci tr c a, story cfg ci tr c -> cst c = Sci \/ cst c = Scd -> story cfg ci tr (set_cdst c a)
  | so_ev : forall ci tr c e c', story cfg ci tr c -> cstep cfg c e = Ok c' -> story cfg ci (tr ++ observed e (news c c')) c'.

(** The conversations that are allowed.
    Calling: an outbound connection before the answer.
    Offered: an inbound one, given to Session Control, not answered by the user.
    Accepted: the user accepted, the partner does not know yet.
    Open: data can be sent and received.
    Leaving: after disconnect; data may still arrive.
    Closing: after reject or abort; nothing arrives.
    Expired: the user did not answer in time.
    Ended: the user was told that the connection is gone. *)
Inductive stage := New | Calling | Offered | Accepted | Open | Leaving | Closing | Expired | Ended.
Definition is_end (i : scitem) : bool := match i with SPkt (NDI _ _ _ _) | SPkt (NDC _ _ _) => true | _ => false end.
Definition is_msg (i : scitem) : bool := match i with SData _ | SPkt (NInt _ _ _ _ _ _) => true | _ => false end.
(** Reasons that a user may give. *)
Definition legal (r : Z) : bool := (0 <=? r) && (r <=? 255) && negb (existsb (Z.eqb r) [1; 41; 42]).
Definition on_tell (s : stage) (i : scitem) (r : bool) : option stage :=
  match s, i, r with
  | New, SPkt (NCI _ _ _ _ _ _), false => Some Offered
  | Calling, SPkt (NCC _ _ _ _ _ _), false => Some Open
  | Calling, i, true => if is_end i then Some Ended else None
  | Offered, i, false => if is_end i then Some Expired else None
  | Accepted, SRun, false => Some Open
  | Accepted, i, false => if is_end i then Some Ended else None
  | Open, i, false => if is_msg i then Some Open else if is_end i then Some Ended else None
  | Leaving, i, false => if is_msg i then Some Leaving else if is_end i then Some Ended else None
  | Closing, i, false | Expired, i, false => if is_end i then Some Ended else None
  | _, _, _ => None
  end.
(** [two]: the partner is a Phase II node, which does not confirm the connect
    confirm. *)
Definition on_done (two : bool) (s : stage) (e : cev) : option stage :=
  match s, e with
  | Offered, VAccept _ => Some (if two then Open else Accepted)
  | Offered, VReject r _ => if legal r then Some Closing else None
  | Open, VSend _ => Some Open
  | Open, VInterrupt x => if zlen x <=? 16 then Some Open else None
  | Open, VDisconnect _ _ | Leaving, VDisconnect _ _ => Some Leaving
  | Open, VAbort r _ | Leaving, VAbort r _ => if legal r then Some Closing else None
  | _, _ => None
  end.
Definition on_raise (s : stage) (e : cev) (x : nexc) : option stage :=
  match x with
  | WrongState =>
      match s, e with
      | Offered, VAccept _ | Offered, VReject _ _ => None
      | Open, VSend _ | Open, VInterrupt _ | Open, VDisconnect _ _ | Open, VAbort _ _ => None
      | _, _ => Some s
      end
  | RangeError =>
      match s, e with
      | Offered, VReject r _ => if legal r then None else Some Closing
      | Open, VDisconnect r _ | Leaving, VDisconnect r _ => if legal r then None else Some Leaving
      | Open, VAbort r _ | Leaving, VAbort r _ => if legal r then None else Some s
      | _, _ => None
      end
  | IntLength => match s, e with Open, VInterrupt y => if 16 <? zlen y then Some Open else None | _, _ => None end
  | CantSend => match s, e with Open, VInterrupt y => if 16 <? zlen y then None else Some Open | _, _ => None end
  | _ => None
  end.
Definition dial (two : bool) (s : stage) (o : obs) : option stage :=
  match o with Tell i r => on_tell s i r | Ask e None => on_done two s e | Ask e (Some x) => on_raise s e x end.
Fixpoint dials (two : bool) (s : stage) (tr : list obs) : option stage :=
  match tr with [] => Some s | o :: t => match dial two s o with Some s' => dials two s' t | None => None end end.
(** Where a connection in a state stands. *)
Definition stands (s : stage) (t : cstate) : Prop :=
  match s, t with
  | Calling, Sci | Calling, Scd | Offered, Scr | Accepted, Scc | Open, Srun | Ended, Sclosed => True
  | Leaving, Srun | Leaving, Sdi | Leaving, Sclosed | Closing, Sdi | Closing, Sclosed | Expired, Sdi | Expired, Sclosed => True
  | _, _ => False
  end.
(** The Phase of the link as the Connect Initiate says: Phase II if its sender or
    this node is. *)
Definition is_two (cfg : ncfg) (ci : option npkt) : bool :=
  match ci with Some (NCI _ _ _ info _ _) => (phase cfg =? 2) || (info mod 4 =? 1) | _ => false end.
Definition start (ci : option npkt) : stage := match ci with None => Calling | Some _ => New end.

(** * Proof *)
Lemma news_app : forall c c' l, clog c' = clog c ++ l -> news c c' = l.
Proof. intros c c' l E. unfold news. rewrite E, skipn_app, skipn_all, Nat.sub_diag. reflexivity. Qed.
Lemma tells_app : forall a b, tells (a ++ b) = tells a ++ tells b.
Proof. intros. unfold tells. apply flat_map_app. Qed.
Lemma tells_tx : forall l, txonly l -> tells l = [].
Proof. intros l H. induction H as [|o l H1 H2 IH]; [reflexivity|]. destruct o; try contradiction; exact IH. Qed.
Lemma sent_tx : forall l, sent_only l -> txonly l /\ raised l = None.
Proof. intros l H. split; [eapply Forall_impl; [|exact H]; intros []; simpl; tauto|]. induction H as [|o l H1 H2 IH]; [reflexivity|]. destruct o; try contradiction; exact IH. Qed.
Lemma dials_app : forall two a b s, dials two s (a ++ b) = match dials two s a with Some s' => dials two s' b | None => None end.
Proof. intros two a b. induction a as [|o a IH]; intros s; [reflexivity|]. cbn [dials app]. destruct (dial two s o); auto. Qed.
Lemma dials_msgs : forall two s l, s = Open \/ s = Leaving -> msgs_only l -> dials two s (tells l) = Some s.
Proof.
  intros two s l S H. induction H as [|o l H1 H2 IH]; [reflexivity|]. destruct o as [| i r | | |]; try exact IH. change (tells (OSc i r :: l)) with (Tell i r :: tells l).
  cbn [dials]. assert (X : dial two s (Tell i r) = Some s); [|rewrite X; exact IH].
  destruct i as [pl|p|]; cbn [msg_item] in H1; [subst r| |contradiction]; [destruct S as [-> | -> ]; reflexivity|]. destruct p; try contradiction; subst r; destruct S as [-> | -> ]; reflexivity.
Qed.
Lemma legal_disc : forall r, legal r = negb ((r <? 0) || (255 <? r) || reserved_reason r).
Proof.
  intros r. unfold legal, reserved_reason. cbn [existsb]. lia.
Qed.

(** Where the conversation stands, with what the proof needs. *)
Definition KK (two : bool) (s : stage) (c : conn) : Prop :=
  oook c /\ match s with
  | New => False
  | Calling => (cst c = Sci \/ cst c = Scd) /\ cshut c = false
  | Offered => cst c = Scr /\ cshut c = false /\ (cphase c =? 2) = two
  | Accepted => cst c = Scc /\ cshut c = false
  | Open => cst c = Srun /\ cshut c = false
  | Leaving => cst c = Srun /\ cshut c = true \/ cst c = Sdi \/ cst c = Sclosed
  | Closing | Expired => cst c = Sdi \/ cst c = Sclosed
  | Ended => cst c = Sclosed
  end.
Definition goes (two : bool) (s : stage) (e : cev) (c c' : conn) : Prop :=
  exists l s', clog c' = clog c ++ l /\ dials two s (observed e l) = Some s' /\ KK two s' c'.
Lemma goes_same : forall two s e c c' l, is_call e = false -> KK two s c' -> clog c' = clog c ++ l -> tells l = [] -> goes two s e c c'.
Proof. intros two s e c c' l NC K L T. exists l, s. split; [exact L|]. unfold observed. rewrite NC, T. split; [reflexivity|exact K]. Qed.
Lemma goes_wrong : forall two s e c c', is_call e = true -> on_raise s e WrongState = Some s -> KK two s c -> emit c (ORaise WrongState) = c' -> goes two s e c c'.
Proof.
  intros two s e c c' NC W K E. subst c'. exists [ORaise WrongState], s. split; [reflexivity|]. unfold observed. rewrite NC. cbn [raised tells flat_map app dials dial]. rewrite W. split; [reflexivity|].
  destruct K as [O K]. split; [intros []; [apply (O CD)|apply (O CO)]|exact K].
Qed.
Definition tgoes (two : bool) (s : stage) (c c' : conn) : Prop := exists l s', clog c' = clog c ++ l /\ dials two s (tells l) = Some s' /\ KK two s' c'.
Definition base (s : stage) (c : conn) : Prop := s = Open /\ cshut c = false \/ s = Leaving /\ cshut c = true.
Lemma ctimer_oook : forall c b, oook c -> oook (set_ctimer c b).
Proof. intros c b O []; [apply (O CD)|apply (O CO)]. Qed.
Lemma emit_oook : forall c o, oook c -> oook (emit c o).
Proof. intros c o O []; [apply (O CD)|apply (O CO)]. Qed.
Lemma mild_tgo : forall two s c c', base s c -> cst c = Srun -> mild c c' -> tgoes two s c c'.
Proof.
  intros two s c c' B R [M1 M2 M3 M4 (l & L & M5)]. exists l, s. split; [exact L|]. split; [apply dials_msgs; [destruct B as [[-> _]|[-> _]]; auto|exact M5]|].
  split; [exact M4|]. destruct B as [[-> B]|[-> B]].
  - destruct M3 as [M3|[M3 _]]; [|congruence]. split; congruence.
  - destruct M3 as [M3|[_ M3]]; [left; split; congruence|right; left; exact M3].
Qed.
Lemma end_tgo : forall two s c p c' l, on_tell s (SPkt p) false = Some Ended \/ on_tell s (SPkt p) true = Some Ended /\ s = Calling ->
  clog c' = clog c ++ OSc (SPkt p) (match s with Calling => true | _ => false end) :: l -> tells l = [] -> cst c' = Sclosed -> oook c' -> tgoes two s c c'.
Proof.
  intros two s c p c' l E L T S O. exists (OSc (SPkt p) (match s with Calling => true | _ => false end) :: l), Ended. split; [exact L|].
  change (tells (OSc (SPkt p) (match s with Calling => true | _ => false end) :: l)) with (Tell (SPkt p) (match s with Calling => true | _ => false end) :: tells l). rewrite T.
  split; [|split; assumption]. cbn [dials dial]. destruct E as [E|[E -> ]]; [|rewrite E; reflexivity]. destruct s; try (rewrite E; reflexivity). destruct p; discriminate E.
Qed.
Lemma run_goes : forall cfg two s c p c', base s c -> oook c -> cst c = Srun -> run_recv cfg c p = Ok c' -> tgoes two s c c'.
Proof.
  intros cfg two s c p c' B O R H. unfold run_recv in H. set (c0 := if 2 <? cphase c then set_ctimer c true else c) in *.
  assert (X : base s c0 /\ oook c0 /\ cst c0 = Srun /\ clog c0 = clog c).
  { unfold c0. destruct (2 <? cphase c); [split; [exact B|split; [now apply ctimer_oook|split; [exact R|reflexivity]]]|auto]. }
  clearbody c0. destruct X as (B0 & O0 & R0 & L0). assert (G : tgoes two s c0 c' -> tgoes two s c c') by (intros (l & s' & L & D); exists l, s'; rewrite <- L0; auto).
  apply G. clear G L0 B O R c.
  assert (S : forall ch q, chan_of q = ch -> is_ackhdr q = true -> sub_recv cfg c0 ch q = Ok c' -> tgoes two s c0 c').
  { intros ch q C A HH. apply mild_tgo; auto. eapply sub_recv_mild; eauto. }
  assert (SAME : c' = c0 -> tgoes two s c0 c') by (intros ->; apply mild_tgo; auto; now apply mild_refl).
  destruct p; try (injection H as <-; apply SAME; reflexivity); try (eapply S; [| |exact H]; reflexivity).
  - destruct (2 <? cphase c0); [|injection H as <-; apply SAME; reflexivity]. apply mild_tgo; auto. apply frame_mild; [eapply send_ack_frame; exact H|exact O0].
  - destruct (sendmsg _ _ _) as [c1|] eqn:E; cbn [bind] in H; [|discriminate]. injection H as <-. apply sendmsg_sends in E as (l & L & SO). apply sent_tx in SO as [SO _].
    eapply (end_tgo two s c0 (NDI d s0 reason data) _ l); [| | |reflexivity|apply closed_oook].
    + left. destruct B0 as [[-> _]|[-> _]]; reflexivity.
    + cbn [conn_close clog set_cst set_coth set_cdata set_ctimer]. rewrite L. cbn [to_sc emit clog set_clog]. rewrite <- app_assoc. destruct B0 as [[-> _]|[-> _]]; reflexivity.
    + now apply tells_tx.
  - injection H as <-. eapply (end_tgo two s c0 (NDC d s0 reason) _ []); [| |reflexivity|reflexivity|apply closed_oook].
    + left. destruct B0 as [[-> _]|[-> _]]; reflexivity.
    + destruct B0 as [[-> _]|[-> _]]; reflexivity.
Qed.
Lemma cd_goes : forall cfg two c p c', oook c -> cshut c = false -> cst c = Sci \/ cst c = Scd -> cd_recv cfg c p = Ok c' -> tgoes two Calling c c'.
Proof.
  intros cfg two c p c' O SH S H. assert (SAME : c' = c -> tgoes two Calling c c').
  { intros ->. exists [], Calling. rewrite app_nil_r. split; [reflexivity|]. split; [reflexivity|]. split; [exact O|split; assumption]. }
  destruct p; cbn [cd_recv] in H; try (injection H as <-; apply SAME; reflexivity).
  - set (c1 := set_csegsize _ _) in H. assert (O1 : oook c1) by (intros []; [apply (O CD)|apply (O CO)]). assert (SH1 : cshut c1 = false) by exact SH.
    assert (L1 : clog c1 = clog c) by reflexivity. clearbody c1.
    destruct (chan_ack c1 CD 0) as [c2|] eqn:E; cbn [bind] in H; [|discriminate]. apply chan_ack_frame in E.
    destruct (if 2 <? cphase c2 then _ else Ok c2) as [c3|] eqn:E3; cbn [bind] in H; [|discriminate]. injection H as <-.
    assert (F : frame c1 c3).
    { eapply frame_trans; [exact E|]. destruct (2 <? cphase c2); [|injection E3 as <-; apply frame_refl].
      destruct (send_ack c2 CD) as [c4|] eqn:E4; cbn [bind] in E3; [|discriminate]. injection E3 as <-. eapply frame_trans; [eapply send_ack_frame; exact E4|apply ctimer_frame]. }
    destruct (fr_log _ _ F) as (l & L & T). exists (l ++ [OSc (SPkt (NCC d s fcopt info segsize data)) false]), Open.
    split; [cbn [to_sc emit clog set_clog set_cst]; rewrite L, L1, app_assoc; reflexivity|]. split; [rewrite tells_app, (tells_tx l T); reflexivity|].
    split; [apply (frame_oook _ _ F) in O1; intros []; [apply (O1 CD)|apply (O1 CO)]|]. split; [reflexivity|]. cbn [to_sc emit cshut set_clog set_cst]. rewrite (fr_shut _ _ F). exact SH1.
  - destruct (sendmsg _ _ _) as [c1|] eqn:E; cbn [bind] in H; [|discriminate]. injection H as <-. apply sendmsg_sends in E as (l & L & SO). apply sent_tx in SO as [SO _].
    eapply (end_tgo two Calling c (NDI d s reason data) _ l); [right; split; reflexivity| |now apply tells_tx|reflexivity|apply closed_oook].
    cbn [conn_close clog set_cst set_coth set_cdata set_ctimer]. rewrite L. cbn [to_sc emit clog set_clog]. rewrite <- app_assoc. reflexivity.
  - injection H as <-. eapply (end_tgo two Calling c (NDC d s reason) _ []); [right; split; reflexivity|reflexivity|reflexivity|reflexivity|apply closed_oook].
Qed.
Lemma stay_tgo : forall two s c c' l, clog c' = clog c ++ l -> txonly l -> KK two s c' -> tgoes two s c c'.
Proof. intros two s c c' l L T K. exists l, s. split; [exact L|]. rewrite (tells_tx l T). split; [reflexivity|exact K]. Qed.
Lemma nil_tgo : forall two s c, KK two s c -> tgoes two s c c.
Proof. intros two s c K. eapply (stay_tgo two s c c []); [now rewrite app_nil_r|constructor|exact K]. Qed.
Lemma frame_tgo : forall two s c c', frame c c' -> KK two s c -> tgoes two s c c'.
Proof.
  intros two s c c' F [O K]. destruct (fr_log _ _ F) as (l & L & T). eapply stay_tgo; eauto. split; [eapply frame_oook; eauto|]. rewrite (fr_st _ _ F), (fr_shut _ _ F), (fr_phase _ _ F). exact K.
Qed.
Lemma recv_goes : forall cfg two s c p c', KK two s c -> conn_recv cfg c p = Ok c' -> tgoes two s c c'.
Proof.
  intros cfg two s c p c' K H. pose proof K as [O K2]. unfold conn_recv in H. destruct (cst c) eqn:S.
  - assert (X : s = Calling /\ cshut c = false) by (destruct s; rewrite ?S in K2; intuition discriminate). destruct X as [-> SH].
    destruct p; cbn [ci_recv] in H; try (eapply cd_goes; eauto; fail).
    + destruct (2 <? phase cfg); [|eapply cd_goes; eauto]. destruct (chan_ack c CD 0) as [c1|] eqn:E; cbn [bind] in H; [|discriminate]. injection H as <-.
      apply chan_ack_frame in E. destruct (fr_log _ _ E) as (l & L & T). eapply stay_tgo; [exact L|exact T|]. apply (frame_oook _ _ E) in O.
      split; [intros []; [apply (O CD)|apply (O CO)]|]. split; [right; reflexivity|]. cbn [cshut set_cst]. rewrite (fr_shut _ _ E). exact SH.
    + injection H as <-. eapply (end_tgo two Calling c (NDI 0 0 UNREACH []) _ []); [right; split; reflexivity|reflexivity|reflexivity|reflexivity|apply closed_oook].
  - assert (X : s = Calling /\ cshut c = false) by (destruct s; rewrite ?S in K2; intuition discriminate). destruct X as [-> SH]. eapply cd_goes; eauto.
  - assert (SAME : c' = c -> tgoes two s c c') by (intros ->; now apply nil_tgo).
    destruct p; cbn [cr_recv] in H; try (injection H as <-; apply SAME; reflexivity).
    destruct (2 <? cphase c); [|injection H as <-; apply SAME; reflexivity]. apply frame_tgo; [|exact K]. eapply sendmsg_frame. exact H.
  - assert (X : s = Accepted /\ cshut c = false) by (destruct s; rewrite ?S in K2; intuition discriminate). destruct X as [-> SH].
    unfold cc_recv in H. destruct (if is_ackhdr p then chan_ack c CD 0 else Ok c) as [c1|] eqn:E; cbn [bind] in H; [|discriminate].
    assert (F : frame c c1) by (destruct (is_ackhdr p); [eapply chan_ack_frame; exact E|injection E as <-; apply frame_refl]).
    apply (frame_oook _ _ F) in O. destruct (fr_log _ _ F) as (l & L & T).
    apply (run_goes cfg two Open) in H; [| |intros []; [apply (O CD)|apply (O CO)]|reflexivity].
    + destruct H as (m & s' & M & D & K'). exists (l ++ OSc SRun false :: m), s'. split; [rewrite M; cbn [emit clog set_clog set_cst]; rewrite L, <- !app_assoc; reflexivity|].
      split; [|exact K']. rewrite tells_app, (tells_tx l T). exact D.
    + left. split; [reflexivity|]. cbn [emit cshut set_clog set_cst]. rewrite (fr_shut _ _ F). exact SH.
  - eapply run_goes; eauto. destruct s; rewrite ?S in K2; unfold base; intuition discriminate.
  - assert (SAME : c' = c -> tgoes two s c c') by (intros ->; now apply nil_tgo).
    assert (X : forall k, cst k = Sclosed -> oook k -> KK two s k) by (intros k Z1 Z2; split; [exact Z2|]; destruct s; rewrite ?S in K2; intuition discriminate).
    destruct p; cbn [di_recv] in H; try (injection H as <-; apply SAME; reflexivity).
    + destruct (sendmsg _ _ _) as [c1|] eqn:E; cbn [bind] in H; [|discriminate]. injection H as <-. apply sendmsg_sends in E as (l & L & SO). apply sent_tx in SO as [SO _].
      eapply stay_tgo; [exact L|exact SO|]. apply X; [reflexivity|apply closed_oook].
    + injection H as <-. eapply (stay_tgo two s c _ []); [now rewrite app_nil_r|constructor|]. apply X; [reflexivity|apply closed_oook].
  - discriminate.
Qed.
Lemma goes_call : forall two s s' e c c' l x, is_call e = true -> clog c' = clog c ++ l -> tells l = [] -> raised l = x -> dial two s (Ask e x) = Some s' -> KK two s' c' -> goes two s e c c'.
Proof.
  intros two s s' e c c' l x NC L T R D K. exists l, s'. split; [exact L|]. split; [|exact K]. unfold observed. rewrite NC, T, R. cbn [app dials]. rewrite D. reflexivity.
Qed.
Lemma disc_sends : forall cfg c r y c1, disc_rej cfg c r y = Ok c1 -> sends c c1 /\ legal r = true /\ oook c1 /\ cst c1 = cst c /\ cshut c1 = cshut c.
Proof.
  intros cfg c r y c1 H. unfold disc_rej in H. destruct ((r <? 0) || (255 <? r) || reserved_reason r) eqn:E; [discriminate|]. pose proof (data_send_frame _ _ _ _ H) as F.
  split; [apply data_send_sends in H; exact H|]. split; [rewrite legal_disc, E; reflexivity|]. split; [|split; [rewrite (fr_st _ _ F); reflexivity|rewrite (fr_shut _ _ F); reflexivity]].
  intros ch n q D. destruct (fr_rx _ _ F ch) as (_ & _ & X). destruct ch; cbn in X, D; rewrite X in D; discriminate D.
Qed.
Lemma enc_di : forall d s r x, encode (NDI d s r x) <> Err ERange.
Proof.
  intros d s r x H. cbn [encode] in H. change (flag_enc 2 3 0 0 0 0) with (Ok (A := list Z) [56]) in H. cbn [bind] in H.
  assert (T : forall v, to_bytes 2 v <> Err ERange) by (intros v; unfold to_bytes; destruct (_ && _); discriminate).
  destruct (to_bytes 2 d) as [|y] eqn:E1; cbn [bind] in H; [|destruct (T d); congruence].
  destruct (to_bytes 2 s) as [|y] eqn:E2; cbn [bind] in H; [|destruct (T s); congruence].
  destruct (to_bytes 2 r) as [|y] eqn:E3; cbn [bind] in H; [|destruct (T r); congruence].
  unfold image_enc in H. destruct (16 <? zlen x); [discriminate H|]. destruct (255 <? zlen x); discriminate H.
Qed.
Lemma disc_range : forall cfg c r y, disc_rej cfg c r y = Err ERange -> legal r = false.
Proof.
  intros cfg c r y H. unfold disc_rej in H. destruct ((r <? 0) || (255 <? r) || reserved_reason r) eqn:E; [rewrite legal_disc, E; reflexivity|]. exfalso.
  unfold data_send in H. cbn [make_entry] in H. unfold send_qe in H.
  destruct (nth_error _ _) as [e|] eqn:N; cbn [bind] in H; [|discriminate].
  assert (X : tp e = NDI (cdst c) (csrc c) r y).
  { cbn in N. injection N as <-. reflexivity. }
  rewrite X in H. cbn [is_data andb] in H. unfold tx_send in H. cbn [getc] in H. rewrite N in H. unfold fill_packet in H. rewrite X in H. cbn [is_ackhdr] in H.
  unfold sendmsg in H. destruct (encode (NDI (cdst c) (csrc c) r y)) as [b|er] eqn:EE; cbn [bind is_data tp] in H; [discriminate|]. 
  injection H as ->. exact (enc_di _ _ _ _ EE).
Qed.
Ltac wrong := match goal with H : Ok (emit ?c (ORaise WrongState)) = Ok _ |- _ => injection H as H; eapply goes_wrong; [reflexivity| |eassumption|exact H] end.
Lemma accept_goes : forall cfg two s c x c', KK two s c -> conn_accept cfg c x = Ok c' -> goes two s (VAccept x) c c'.
Proof.
  intros cfg two s c x c' K H. pose proof K as [O K2]. unfold conn_accept in H. destruct (cst c) eqn:S; cbn [cstate_eqb negb] in H;
    try (wrong; destruct s; try reflexivity; rewrite ?S in K2; intuition discriminate).
  assert (X : s = Offered /\ cshut c = false /\ (cphase c =? 2) = two) by (destruct s; rewrite ?S in K2; intuition discriminate). destruct X as (-> & SH & TW).
  rewrite TW in H. destruct two.
  - pose proof (sendmsg_frame _ _ _ _ H) as F. apply sendmsg_sends in H as (l & L & SO). apply sent_tx in SO as [SO R].
    eapply goes_call; [reflexivity|exact L|now apply tells_tx|exact R|reflexivity|]. split; [eapply frame_oook; [exact F|]; intros []; [apply (O CD)|apply (O CO)]|].
    rewrite (fr_st _ _ F), (fr_shut _ _ F). split; [reflexivity|exact SH].
  - pose proof (data_send_frame _ _ _ _ H) as F. apply data_send_sends in H as (l & L & SO). apply sent_tx in SO as [SO R].
    eapply goes_call; [reflexivity|exact L|now apply tells_tx|exact R|reflexivity|]. split; [eapply frame_oook; [exact F|]; intros []; [apply (O CD)|apply (O CO)]|].
    rewrite (fr_st _ _ F), (fr_shut _ _ F). split; [reflexivity|exact SH].
Qed.
(** A call that sends a Disconnect Initiate in state DI. *)
Lemma api_goes : forall cfg two s s' e c k r x c', is_call e = true -> oook k -> clog k = clog c -> cst k = Sdi -> api_disc cfg k r x = Ok c' ->
  (legal r = true -> dial two s (Ask e None) = Some s') -> (legal r = false -> dial two s (Ask e (Some RangeError)) = Some s') ->
  s' = Leaving \/ s' = Closing -> goes two s e c c'.
Proof.
  intros cfg two s s' e c k r x c' NC O LK S H D1 D2 S'. unfold api_disc in H. destruct (disc_rej cfg k r x) as [c1|er] eqn:E.
  - injection H as <-. apply disc_sends in E as ((l & L & SO) & LG & O1 & S1 & _). apply sent_tx in SO as [SO R].
    eapply goes_call; [exact NC|rewrite L, LK; reflexivity|now apply tells_tx|exact R|auto|]. split; [exact O1|]. rewrite S1, S. destruct S' as [-> | -> ]; tauto.
  - destruct er; try discriminate H. injection H as <-. apply disc_range in E.
    eapply (goes_call two s s' e c _ [ORaise RangeError] (Some RangeError)); [exact NC|cbn [emit clog set_clog]; rewrite LK; reflexivity|reflexivity|reflexivity|auto|].
    split; [now apply emit_oook|]. cbn [emit cst set_clog]. rewrite S. destruct S' as [-> | -> ]; tauto.
Qed.
Lemma reject_goes : forall cfg two s c r x c', KK two s c -> conn_reject cfg c r x = Ok c' -> goes two s (VReject r x) c c'.
Proof.
  intros cfg two s c r x c' K H. pose proof K as [O K2]. unfold conn_reject in H. destruct (cst c) eqn:S; cbn [cstate_eqb negb] in H;
    try (wrong; destruct s; try reflexivity; rewrite ?S in K2; intuition discriminate).
  assert (X : s = Offered) by (destruct s; rewrite ?S in K2; intuition discriminate). subst s.
  eapply (api_goes cfg two Offered Closing); [reflexivity| | | |exact H| | |].
  - intros []; [apply (O CD)|apply (O CO)].
  - reflexivity.
  - reflexivity.
  - intros LG. cbn [dial on_done]. now rewrite LG.
  - intros LG. cbn [dial on_raise]. now rewrite LG.
  - auto.
Qed.
Lemma disconnect_goes : forall cfg two s c r x c', KK two s c -> conn_disconnect cfg c r x = Ok c' -> goes two s (VDisconnect r x) c c'.
Proof.
  intros cfg two s c r x c' K H. pose proof K as [O K2]. unfold conn_disconnect in H. destruct (cst c) eqn:S; cbn [cstate_eqb negb] in H;
    try (wrong; destruct s; try reflexivity; rewrite ?S in K2; intuition discriminate).
  assert (B : base s c) by (unfold base; destruct s; rewrite ?S in K2; intuition discriminate).
  destruct (pending (cdata c)).
  - eapply (api_goes cfg two s Leaving); [reflexivity| | | |exact H| | |].
    + intros []; [apply (O CD)|apply (O CO)].
    + reflexivity.
    + reflexivity.
    + intros LG. destruct B as [[-> _]|[-> _]]; reflexivity.
    + intros LG. destruct B as [[-> _]|[-> _]]; cbn [dial on_raise]; now rewrite LG.
    + auto.
  - injection H as <-. eapply (goes_call two s Leaving _ c _ [] None); [reflexivity|now rewrite app_nil_r|reflexivity|reflexivity| |].
    + destruct B as [[-> _]|[-> _]]; reflexivity.
    + split; [intros []; [apply (O CD)|apply (O CO)]|]. left. split; [exact S|reflexivity].
Qed.
Lemma abort_goes : forall cfg two s c r x c', KK two s c -> conn_abort cfg c r x = Ok c' -> goes two s (VAbort r x) c c'.
Proof.
  intros cfg two s c r x c' K H. pose proof K as [O K2]. unfold conn_abort in H. destruct (cst c) eqn:S; cbn [cstate_eqb negb] in H;
    try (wrong; destruct s; try reflexivity; rewrite ?S in K2; intuition discriminate).
  assert (B : base s c) by (unfold base; destruct s; rewrite ?S in K2; intuition discriminate).
  destruct (disc_rej cfg c r x) as [c1|er] eqn:E.
  - injection H as <-. apply disc_sends in E as ((l & L & SO) & LG & O1 & S1 & _). apply sent_tx in SO as [SO R].
    eapply (goes_call two s Closing _ c _ l None); [reflexivity|exact L|now apply tells_tx|exact R| |].
    + destruct B as [[-> _]|[-> _]]; cbn [dial on_done]; now rewrite LG.
    + split; [intros []; [apply (O1 CD)|apply (O1 CO)]|left; reflexivity].
  - destruct er; try discriminate H. injection H as <-. apply disc_range in E.
    eapply (goes_call two s s _ c _ [ORaise RangeError] (Some RangeError)); [reflexivity|reflexivity|reflexivity|reflexivity| |].
    + destruct B as [[-> _]|[-> _]]; cbn [dial on_raise]; now rewrite E.
    + split; [now apply emit_oook|exact (proj2 K)].
Qed.
Lemma send_goes : forall cfg two s c x c', KK two s c -> conn_send cfg c x = Ok c' -> goes two s (VSend x) c c'.
Proof.
  intros cfg two s c x c' K H. pose proof K as [O K2]. unfold conn_send in H.
  destruct (cst c) eqn:S; cbn [cstate_eqb negb orb] in H; try (wrong; destruct s; try reflexivity; rewrite ?S in K2; intuition discriminate).
  destruct (cshut c) eqn:SH; [wrong; destruct s; try reflexivity; rewrite ?S, ?SH in K2; intuition discriminate|].
  assert (X : s = Open) by (destruct s; rewrite ?S, ?SH in K2; intuition discriminate). subst s.
  destruct (csegsize c =? 0); [discriminate|]. set (k := emit c (OAccepted (csegsize c) x)) in H. pose proof (send_segs_frame _ _ _ _ H) as F. apply send_segs_sends in H as (l & L & SO). apply sent_tx in SO as [SO R].
  eapply (goes_call two Open Open _ c _ (OAccepted (csegsize c) x :: l) None); [reflexivity|rewrite L; unfold k; cbn [emit clog set_clog]; rewrite <- app_assoc; reflexivity|apply (tells_tx l SO)|exact R|reflexivity|].
  split; [eapply frame_oook; [exact F|]; now apply emit_oook|]. rewrite (fr_st _ _ F), (fr_shut _ _ F). auto.
Qed.
Lemma other_log : forall c p c' b, other_send c p = Ok (c', b) -> (b = true /\ sends c c') \/ (b = false /\ c' = emit c (ORaise CantSend)).
Proof.
  intros c p c' b H. unfold other_send in H. destruct (negb (is_ls p) && _); [injection H as <- <-; auto|]. left.
  destruct (tx_send _ CO _) as [c2|] eqn:E; cbn [bind] in H; [|discriminate]. apply tx_send_sends in E.
  unfold bump in H. destruct (seqmax _ _); cbn [bind] in H; [|discriminate]. injection H as <- <-. split; [reflexivity|exact E].
Qed.
Lemma interrupt_goes : forall cfg two s c x c', KK two s c -> conn_interrupt cfg c x = Ok c' -> goes two s (VInterrupt x) c c'.
Proof.
  intros cfg two s c x c' K H. pose proof K as [O K2]. unfold conn_interrupt in H.
  destruct (cst c) eqn:S; cbn [cstate_eqb negb orb] in H; try (wrong; destruct s; try reflexivity; rewrite ?S in K2; intuition discriminate).
  destruct (cshut c) eqn:SH; [wrong; destruct s; try reflexivity; rewrite ?S, ?SH in K2; intuition discriminate|].
  assert (X : s = Open) by (destruct s; rewrite ?S, ?SH in K2; intuition discriminate). subst s.
  assert (E0 : forall y, KK two Open (emit c (ORaise y))) by (intros y; split; [now apply emit_oook|split; assumption]).
  destruct (16 <? zlen x) eqn:LN.
  { injection H as <-. eapply (goes_call two Open Open _ c _ [ORaise IntLength] (Some IntLength)); [reflexivity|reflexivity|reflexivity|reflexivity|cbn [dial on_raise]; now rewrite LN|apply E0]. }
  destruct (other_send c _) as [[c1 b]|] eqn:E; cbn [bind] in H; [|discriminate]. pose proof (other_send_frame _ _ _ _ E) as F.
  apply other_log in E as [[-> (l & L & SO)]|[-> -> ]].
  - destruct (mod_add 4096 _ 1); cbn [bind] in H; [|discriminate]. injection H as <-. apply sent_tx in SO as [SO R].
    eapply (goes_call two Open Open _ c _ l None); [reflexivity|exact L|now apply tells_tx|exact R| |].
    + cbn [dial on_done]. assert (zlen x <=? 16 = true) as -> by lia. reflexivity.
    + apply (frame_oook _ _ F) in O. split; [intros []; [apply (O CD)|apply (O CO)]|]. cbn [cst cshut set_coth]. rewrite (fr_st _ _ F), (fr_shut _ _ F). auto.
  - injection H as <-. eapply (goes_call two Open Open _ c _ [ORaise CantSend] (Some CantSend)); [reflexivity|reflexivity|reflexivity|reflexivity|cbn [dial on_raise]; now rewrite LN|apply E0].
Qed.
Lemma expire_goes : forall cfg two k r x c1 p, KK two Offered k -> legal r = true -> is_end (SPkt p) = true -> is_data p = false -> conn_reject cfg k r x = Ok c1 -> tgoes two Offered k (to_sc c1 p false).
Proof.
  intros cfg two k r x c1 p [O (S & _)] LG EP ND E. unfold conn_reject in E. rewrite S in E. cbn [cstate_eqb negb] in E. unfold api_disc in E. destruct (disc_rej cfg _ r x) as [c2|er] eqn:D.
  - injection E as <-. apply disc_sends in D as ((l & L & SO) & _ & O1 & S1 & _). apply sent_tx in SO as [SO R].
    assert (TS : to_sc c2 p false = emit c2 (OSc (SPkt p) false)) by (destruct p; try reflexivity; discriminate ND). rewrite TS.
    exists (l ++ [OSc (SPkt p) false]), Expired. split; [cbn [emit clog set_clog]; rewrite L, <- app_assoc; reflexivity|].
    split; [rewrite tells_app, (tells_tx l SO); cbn [tells flat_map app dials dial]; destruct p; try discriminate EP; reflexivity|]. split; [now apply emit_oook|]. left. cbn [emit cst set_clog]. rewrite S1. reflexivity.
  - destruct er; try discriminate E. apply disc_range in D. congruence.
Qed.
Lemma keep_goes : forall two s k f c', KK two s k ->
  (let* n := f in let* (c1, _) := other_send (set_coth k (set_seqnum (coth k) n)) (NLs (cdst k) (csrc k) None None (seqnum (coth k)) 0 0 0) in Ok c1) = Ok c' -> tgoes two s k c'.
Proof.
  intros two s k f c' K H. destruct f as [n|]; cbn [bind] in H; [|discriminate]. destruct (other_send _ _) as [[c1 b]|] eqn:F; cbn [bind] in H; [|discriminate]. injection H as <-.
  apply other_send_frame in F. apply (frame_tgo two s) in F; [exact F|]. destruct K as [O K]. split; [intros []; [apply (O CD)|apply (O CO)]|exact K].
Qed.
Lemma timer_goes : forall cfg two s c c', KK two s c -> conn_timeout cfg c = Ok c' -> tgoes two s c c'.
Proof.
  intros cfg two s c c' K H. unfold conn_timeout in H. destruct (negb (ctimer c)); [injection H as <-; now apply nil_tgo|].
  assert (K0 : KK two s (set_ctimer c false)) by (destruct K as [O K]; split; [now apply ctimer_oook|exact K]).
  assert (G : tgoes two s (set_ctimer c false) c' -> tgoes two s c c') by (intros G; exact G). apply G. clear G K. remember (set_ctimer c false) as k. clear Heqk c.
  pose proof K0 as [O K]. destruct (cst k) eqn:S.
  - assert (X : s = Calling) by (destruct s; rewrite ?S in K; intuition discriminate). subst s.
    injection H as <-. eapply (end_tgo two Calling k (NDI 0 0 OBJ_FAIL []) _ []); [right; split; reflexivity|reflexivity|reflexivity|reflexivity|apply closed_oook].
  - assert (X : s = Calling) by (destruct s; rewrite ?S in K; intuition discriminate). subst s.
    injection H as <-. eapply (end_tgo two Calling k (NDI 0 0 OBJ_FAIL []) _ []); [right; split; reflexivity|reflexivity|reflexivity|reflexivity|apply closed_oook].
  - assert (X : s = Offered) by (destruct s; rewrite ?S in K; intuition discriminate). subst s.
    destruct (conn_reject cfg k OBJ_FAIL []) as [c1|] eqn:E; cbn [bind] in H; [|discriminate]. injection H as <-.
    apply (expire_goes cfg two k OBJ_FAIL [] c1 (NDI 0 0 OBJ_FAIL [])); [exact K0|reflexivity|reflexivity|reflexivity|exact E].
  - eapply keep_goes; [exact K0|exact H].
  - eapply keep_goes; [exact K0|exact H].
  - injection H as <-. now apply nil_tgo.
  - discriminate.
Qed.
Lemma retx_goes : forall cfg two s c ch i c', KK two s c -> EI c -> (cst c = Sclosed -> pending (getc c ch) = []) -> retransmit cfg c ch i = Ok c' -> tgoes two s c c'.
Proof.
  intros cfg two s c ch i c' K E CL H. unfold retransmit in H. destruct (nth_error (pending (getc c ch)) i) as [e|] eqn:N; [|injection H as <-; now apply nil_tgo].
  destruct (ttimer e); cbn [negb] in H; [|injection H as <-; now apply nil_tgo].
  assert (P : forall e1, frame c (putc c ch (set_pending (getc c ch) (upd i e1 (pending (getc c ch)))))) by (intros e1; apply putc_same_frame; repeat split).
  destruct (retransmits cfg <=? ttries e).
  - destruct (is_ci (tp e)) eqn:IC; [injection H as <-; apply frame_tgo; [apply P|exact K]|]. injection H as <-.
    pose proof K as [O K2]. assert (NW : waiting (cst c) = false) by (destruct (waiting (cst c)) eqn:W; [|reflexivity]; rewrite (proj2 (E W) ch e (nth_error_In _ _ N)) in IC; discriminate).
    assert (NS : cst c <> Sclosed) by (intros X; rewrite (CL X) in N; destruct i; discriminate N).
    assert (X : s = Accepted \/ s = Open \/ s = Leaving \/ s = Closing \/ s = Expired) by (destruct s; auto; exfalso; destruct (cst c); try discriminate NW; intuition discriminate).
    eapply (end_tgo two s c (NDI 0 0 UNREACH []) _ []); [| |reflexivity|reflexivity|apply closed_oook].
    + left. destruct X as [-> |[-> |[-> |[-> | -> ]]]]; reflexivity.
    + destruct X as [-> |[-> |[-> |[-> | -> ]]]]; destruct ch; reflexivity.
  - destruct (_ || _); [|injection H as <-; apply frame_tgo; [apply P|exact K]]. apply frame_tgo; [|exact K]. eapply frame_trans; [apply P|eapply tx_send_frame; exact H].
Qed.
Lemma tgo_goes : forall two s e c c', is_call e = false -> tgoes two s c c' -> goes two s e c c'.
Proof. intros two s e c c' NC (l & s' & L & D & K). exists l, s'. split; [exact L|]. unfold observed. rewrite NC. auto. Qed.
Lemma step_goes : forall cfg two s c e c', KK two s c -> EI c -> (cst c = Sclosed -> quiet c) -> cstep cfg c e = Ok c' -> goes two s e c c'.
Proof.
  intros cfg two s c e c' K E Q H. destruct e; cbn [cstep] in H.
  - apply tgo_goes; [reflexivity|]. exact (recv_goes _ _ _ _ _ _ K H).
  - exact (accept_goes _ _ _ _ _ _ K H).
  - exact (reject_goes _ _ _ _ _ _ _ K H).
  - exact (disconnect_goes _ _ _ _ _ _ _ K H).
  - exact (abort_goes _ _ _ _ _ _ _ K H).
  - exact (send_goes _ _ _ _ _ _ K H).
  - exact (interrupt_goes _ _ _ _ _ _ K H).
  - apply tgo_goes; [reflexivity|]. injection H as <-. eapply (stay_tgo two s c _ []); [now rewrite app_nil_r|constructor|]. destruct K as [O K]. split; [intros []; [apply (O CD)|apply (O CO)]|exact K].
  - apply tgo_goes; [reflexivity|]. exact (timer_goes _ _ _ _ _ K H).
  - apply tgo_goes; [reflexivity|]. unfold holdoff in H. destruct (hold (getc c ch)); [|injection H as <-; now apply nil_tgo].
    apply frame_tgo; [|exact K]. eapply frame_trans; [|eapply send_ack_frame; exact H]. apply putc_same_frame. repeat split.
  - apply tgo_goes; [reflexivity|]. eapply retx_goes; [exact K|exact E| |exact H]. intros X. apply (Q X).
Qed.
Lemma step_closed : forall cfg c e c', (cst c = Sclosed -> quiet c) -> cstep cfg c e = Ok c' -> cst c' = Sclosed -> quiet c'.
Proof.
  intros cfg c e c' Q H X. destruct (cstate_eqb (cst c) Sclosed) eqn:S.
  - apply st_eqb in S. assert (NR : forall p, e <> VRecv p). { intros p ->. cbn [cstep] in H. unfold conn_recv in H. rewrite S in H. discriminate. }
    destruct (closed_step _ _ _ _ S (Q S) NR H) as (_ & A & _). exact A.
  - assert (N : cst c <> Sclosed) by (intros Y; rewrite Y in S; discriminate). exact (step_quiet _ _ _ _ N H X).
Qed.
Lemma is_two_ok : forall cfg r s f info z x, 2 <= phase cfg -> (Z.min (nspphase info) (phase cfg) =? 2) = is_two cfg (Some (NCI r s f info z x)).
Proof.
  intros cfg r s f info z x P. unfold is_two, nspphase. cbv zeta. replace (Z.land info 3) with (info mod 4) by (symmetry; apply (Z.land_ones info 2); lia).
  destruct (info mod 4 =? 1) eqn:A; [lia|]. destruct (info mod 4 =? 0); lia.
Qed.
Lemma inbound_start : forall cfg src dest p c, 2 <= phase cfg -> conn_inbound cfg src dest p = Ok c ->
  tells (clog c) = [Tell (SPkt p) false] /\ KK (is_two cfg (Some p)) Offered c /\ EI c /\ is_ci p = true.
Proof.
  intros cfg src dest p c P H. unfold conn_inbound in H. destruct p; try discriminate H. set (c0 := setphase _ _ _) in H.
  assert (X : cst c0 = Scr /\ cshut c0 = false /\ (cphase c0 =? 2) = is_two cfg (Some (NCI rci s fcopt info segsize pl)) /\ oook c0 /\ clog c0 = [] /\ forall k, pending (getc c0 k) = []).
  { split; [reflexivity|]. split; [reflexivity|]. split; [now apply is_two_ok|]. split; [intros [] n q D; discriminate D|]. split; [reflexivity|]. intros []; reflexivity. }
  clearbody c0. destruct X as (S & SH & PH & O & L & PE).
  assert (Y : exists c1, (if 2 <? cphase c0 then sendmsg c0 (NAckConn (cdst c0)) no_tag else Ok c0) = Ok c1 /\ frame c0 c1 /\ forall k, getc c1 k = getc c0 k).
  { destruct (2 <? cphase c0); [|exists c0; split; [reflexivity|split; [apply frame_refl|reflexivity]]]. destruct (sendmsg c0 _ no_tag) as [c1|] eqn:E; cbn [bind] in H; [|discriminate].
    exists c1. split; [reflexivity|]. split; [eapply sendmsg_frame; exact E|]. unfold sendmsg in E. destruct (encode _); cbn [bind] in E; [|discriminate]. injection E as <-. intros []; reflexivity. }
  destruct Y as (c1 & Y & F & G). rewrite Y in H. cbn [bind] in H. injection H as <-. destruct (fr_log _ _ F) as (l & LL & T).
  split; [|split; [|split; [|reflexivity]]].
  - cbn [to_sc emit clog set_clog set_ctimer]. rewrite LL, L. cbn [app]. rewrite tells_app, (tells_tx l T). reflexivity.
  - apply (frame_oook _ _ F) in O. split; [intros []; [apply (O CD)|apply (O CO)]|]. cbn [to_sc emit cst cshut cphase set_clog set_ctimer]. rewrite (fr_st _ _ F), (fr_shut _ _ F), (fr_phase _ _ F). auto.
  - intros _. split; [reflexivity|]. intros k e X. change (In e (pending (getc c1 k))) in X || (destruct k; [change (In e (pending (getc c1 CD))) in X|change (In e (pending (getc c1 CO))) in X]); rewrite G, PE in X; contradiction.
Qed.
Lemma outbound_start : forall cfg src dest x c, conn_outbound cfg src dest x = Ok c -> tells (clog c) = [] /\ KK false Calling c /\ EI c.
Proof.
  intros cfg src dest x c H. unfold conn_outbound in H. set (c0 := mk_conn _ _ _ _ _ _ _ _ _ _ _ _ _ _) in H.
  destruct (data_send cfg c0 _) as [c1|] eqn:E; cbn [bind] in H; [|discriminate]. injection H as <-. pose proof (data_send_frame _ _ _ _ E) as F. destruct (fr_log _ _ F) as (l & L & T).
  assert (O : oook c0) by (intros [] n q D; discriminate D). split; [cbn [clog set_ctimer]; rewrite L; apply (tells_tx l T)|]. split.
  - apply (frame_oook _ _ F) in O. split; [intros []; [apply (O CD)|apply (O CO)]|]. cbn [cst cshut set_ctimer]. rewrite (fr_st _ _ F), (fr_shut _ _ F). split; [left; reflexivity|reflexivity].
  - intros _. split; [reflexivity|]. clear F L T O. unfold data_send, send_qe, tx_send, sendmsg, c0 in E. cbn -[encode] in E.
    destruct (encode _) in E; cbn [bind] in E; [|discriminate]. injection E as <-.
    intros [] e X; cbn in X; [destruct X as [<- |[]]; reflexivity|contradiction].
Qed.
Lemma story_inv : forall cfg ci tr c, 2 <= phase cfg -> story cfg ci tr c ->
  exists s, dials (is_two cfg ci) (start ci) tr = Some s /\ KK (is_two cfg ci) s c /\ EI c /\ (cst c = Sclosed -> quiet c).
Proof.
  intros cfg ci tr c P H. induction H as [src dest x c H|src dest p c H|ci tr c a H IH W|ci tr c e c' H IH E].
  - apply outbound_start in H as (A & B & C). exists Calling. rewrite A. split; [reflexivity|]. split; [exact B|]. split; [exact C|]. intros X. destruct B as [_ [[B|B] _]]; congruence.
  - apply inbound_start in H as (A & B & C & D); [|exact P]. exists Offered. rewrite A. split; [destruct p; try discriminate D; reflexivity|]. split; [exact B|]. split; [exact C|]. intros X. destruct B as [_ [B _]]. congruence.
  - destruct IH as (s & A & B & C & D). exists s. split; [exact A|]. split; [destruct B as [O B]; split; [intros []; [apply (O CD)|apply (O CO)]|exact B]|].
    split; [apply (EI_same c); [exact C|reflexivity|reflexivity|intros []; reflexivity]|]. intros X. destruct (D X) as [Q1 Q2]. split; [exact Q1|]. intros []; [apply (Q2 CD)|apply (Q2 CO)].
  - destruct IH as (s & A & B & C & D). destruct (step_goes _ _ _ _ _ _ B C D E) as (l & s' & L & D' & K'). exists s'. rewrite (news_app _ _ _ L), dials_app, A. split; [exact D'|]. split; [exact K'|].
    split; [eapply step_EI; [apply B|exact C|exact E]|]. eapply step_closed; eauto.
Qed.

(** * Theorems *)
Lemma KK_stands : forall two s c, KK two s c -> stands s (cst c).
Proof. intros two s c [_ K]. destruct s; cbn in K; [contradiction|..]; repeat match type of K with _ /\ _ => destruct K as [K _] | _ \/ _ => destruct K as [K|K] end; rewrite K; exact I. Qed.
(** Whatever packets arrive and whatever its user and the timers do, the
    conversation of a connection is one of those allowed, and its state is where
    the conversation stands. *)
Theorem nsp_dialogue : forall cfg ci tr c, 2 <= phase cfg -> story cfg ci tr c ->
  exists s, dials (is_two cfg ci) (start ci) tr = Some s /\ stands s (cst c).
Proof. intros cfg ci tr c P H. destruct (story_inv _ _ _ _ P H) as (s & A & B & _). exists s. split; [exact A|]. eapply KK_stands. exact B. Qed.

Definition gives_up (o : obs) : bool :=
  match o with
  | Ask (VReject _ _) x | Ask (VDisconnect _ _) x | Ask (VAbort _ _) x => match x with Some WrongState => false | _ => true end
  | _ => false
  end.
Definition ends (o : obs) : bool := match o with Tell i _ => is_end i | _ => false end.
Definition upright (s : stage) : bool := match s with New | Calling | Offered | Accepted | Open => true | _ => false end.
Lemma dials_up : forall two tr s s', dials two s tr = Some s' -> upright s = true -> upright s' = false -> exists o, In o tr /\ (ends o = true \/ gives_up o = true).
Proof.
  induction tr as [|o tr IH]; intros s s' D U V; cbn [dials] in D; [injection D as <-; congruence|]. destruct (dial two s o) as [s1|] eqn:E; [|discriminate].
  destruct (upright s1) eqn:U1; [destruct (IH _ _ D U1 V) as (x & X & Y); exists x; split; [right; exact X|exact Y]|].
  exists o. split; [left; reflexivity|]. destruct o as [e [x|]|i r]; cbn [dial] in E.
  - right. destruct x; cbn [on_raise] in E; destruct s; try discriminate U; destruct e; try discriminate E; try (destruct (legal _) in E; try discriminate E); try (destruct (_ <? _) in E; try discriminate E); try (injection E as <-; discriminate U1); reflexivity.
  - right. destruct s; try discriminate U; destruct e; cbn [on_done] in E; try discriminate E; try (destruct (legal _) in E; try discriminate E); try (destruct two in E); try (destruct (_ <=? _) in E; try discriminate E); try (injection E as <-; discriminate U1); reflexivity.
  - left. cbn [ends]. destruct s; try discriminate U; destruct i as [pl|p|]; try (destruct p); destruct r; cbn [on_tell is_end is_msg] in E; try discriminate E; try (injection E as <-; discriminate U1); reflexivity.
Qed.
(** A connection is not closed behind the back of its user. *)
Theorem nsp_end_told : forall cfg ci tr c, 2 <= phase cfg -> story cfg ci tr c -> cst c = Sclosed \/ cst c = Sdi ->
  exists o, In o tr /\ (ends o = true \/ gives_up o = true).
Proof.
  intros cfg ci tr c P H S. destruct (nsp_dialogue _ _ _ _ P H) as (s & D & T). eapply dials_up; [exact D|destruct ci; reflexivity|].
  destruct s; try reflexivity; destruct S as [S|S]; rewrite S in T; contradiction.
Qed.
Lemma ended_only : forall two tr s s', dials two s tr = Some s' -> s = Ended \/ s = Expired ->
  Forall (fun o => match o with Ask _ x => x = Some WrongState | Tell i _ => is_end i = true end) tr /\ (s = Ended -> Forall (fun o => match o with Tell _ _ => False | _ => True end) tr).
Proof.
  induction tr as [|o tr IH]; intros s s' D S; [split; [constructor|intros _; constructor]|]. cbn [dials] in D. destruct (dial two s o) as [s1|] eqn:E; [|discriminate].
  assert (G : (s1 = Ended \/ s1 = Expired) /\ (match o with Ask _ x => x = Some WrongState | Tell i _ => is_end i = true end) /\ (s = Ended -> s1 = Ended /\ match o with Tell _ _ => False | _ => True end)).
  { destruct o as [e [x|]|i r]; cbn [dial] in E; destruct S as [-> | -> ].
    - destruct x; cbn [on_raise] in E; destruct e; try discriminate E; injection E as <-; auto.
    - destruct x; cbn [on_raise] in E; destruct e; try discriminate E; injection E as <-; (split; [auto|split; [reflexivity|discriminate]]).
    - destruct e; discriminate E.
    - destruct e; discriminate E.
    - destruct i as [pl|p|]; [|destruct p|]; destruct r; discriminate E.
    - destruct i as [pl|p|]; [|destruct p|]; destruct r; try discriminate E; injection E as <-; (split; [auto|split; [reflexivity|discriminate]]). }
  destruct G as (G1 & G2 & G3). destruct (IH _ _ D G1) as [I1 I2]. split; [constructor; assumption|]. intros Z. destruct (G3 Z) as [-> G4]. constructor; auto.
Qed.
Lemma dials_split : forall two s a o b s', dials two s (a ++ o :: b) = Some s' -> exists s1 s2, dials two s a = Some s1 /\ dial two s1 o = Some s2 /\ dials two s2 b = Some s'.
Proof. intros two s a o b s' D. rewrite dials_app in D. destruct (dials two s a) as [s1|]; [|discriminate]. cbn [dials] in D. destruct (dial two s1 o) as [s2|] eqn:E; [|discriminate]. eauto. Qed.
Lemma tell_end : forall s i r s', on_tell s i r = Some s' -> is_end i = true -> s' = Ended \/ s' = Expired /\ s = Offered.
Proof. intros s i r s' E X. destruct i as [pl|p|]; [|destruct p|]; try discriminate X; destruct s, r; try discriminate E; injection E as <-; auto. Qed.
(** After the end of a connection was told, the user hears nothing more of it, and
    every call fails.  The exception: after the time to answer an inbound
    connection has passed, it may be told once more that the partner does not
    answer. *)
Definition unanswered (o : obs) : Prop := match o with Tell (SPkt (NCI _ _ _ _ _ _)) r => r = false | Tell _ _ => False | Ask _ x => x = Some WrongState end.
Lemma offered_only : forall two tr s s', dials two s tr = Some s' -> s' = Offered -> (s = New \/ s = Offered) /\ Forall unanswered tr.
Proof.
  induction tr as [|o tr IH]; intros s s' D S; cbn [dials] in D; [injection D as <-; split; [right; exact S|constructor]|]. destruct (dial two s o) as [s1|] eqn:E; [|discriminate].
  destruct (IH _ _ D S) as [I1 I2]. assert (G : (s = New \/ s = Offered) /\ unanswered o); [|destruct G; split; [assumption|constructor; assumption]].
  destruct o as [e [x|]|i r]; cbn [dial] in E.
  - destruct x; cbn [on_raise] in E; destruct s; destruct e; try discriminate E; try (destruct (legal _) in E; try discriminate E); try (destruct (_ <? _) in E; try discriminate E);
      injection E as <-; try (destruct I1; discriminate); (split; [auto|reflexivity]).
  - exfalso. destruct s; destruct e; cbn [on_done] in E; try discriminate E; try (destruct (legal _) in E; try discriminate E); try (destruct two in E); try (destruct (_ <=? _) in E; try discriminate E); injection E as <-; destruct I1; discriminate.
  - destruct s; destruct i as [pl|p|]; try (destruct p); destruct r; cbn [on_tell is_end is_msg] in E; try discriminate E; injection E as <-; try (destruct I1; discriminate); (split; [auto|reflexivity]).
Qed.
Theorem nsp_end_final : forall cfg ci a i r b c, 2 <= phase cfg -> story cfg ci (a ++ Tell i r :: b) c -> is_end i = true ->
  Forall (fun o => match o with Ask _ x => x = Some WrongState | Tell j _ => is_end j = true end) b /\
  (filter ends b = [] \/ length (filter ends b) = 1%nat /\ ci <> None /\ Forall unanswered a).
Proof.
  intros cfg ci a i r b c P H X. destruct (nsp_dialogue _ _ _ _ P H) as (s & D & _). apply dials_split in D as (s1 & s2 & D1 & D2 & D3). cbn [dial] in D2.
  assert (Q : s2 = Ended \/ s2 = Expired) by (destruct (tell_end _ _ _ _ D2 X) as [Y|[Y _]]; auto).
  destruct (ended_only _ _ _ _ D3 Q) as [A B]. split; [exact A|].
  assert (NE : forall l, Forall (fun o => match o with Tell _ _ => False | _ => True end) l -> filter ends l = []).
  { intros l F. induction F as [|o l F1 F2 IH]; [reflexivity|]. destruct o; [exact IH|contradiction]. }
  destruct (tell_end _ _ _ _ D2 X) as [Y|[Y Z]]; [left; apply NE; apply B; exact Y|]. destruct (offered_only _ _ _ _ D1 Z) as [Z1 Z2].
  assert (W : filter ends b = [] \/ length (filter ends b) = 1%nat).
  { subst s2. clear - D3 NE. revert D3. induction b as [|o b IH]; intros D; [left; reflexivity|]. cbn [dials] in D. destruct (dial (is_two cfg ci) Expired o) as [s3|] eqn:E; [|discriminate].
    destruct o as [e [x|]|j q]; cbn [dial] in E.
    - destruct x; cbn [on_raise] in E; destruct e; try discriminate E; injection E as <-; exact (IH D).
    - destruct e; discriminate E.
    - destruct j as [pl|p|]; [|destruct p|]; destruct q; try discriminate E; injection E as <-; right; cbn [filter ends is_end length]; rewrite (NE b); try reflexivity; apply (ended_only _ _ _ _ D (or_introl eq_refl)); reflexivity. }
  destruct W as [W|W]; [left; exact W|]. right. split; [exact W|]. split; [|exact Z2]. destruct ci; [discriminate|]. destruct Z1; discriminate.
Qed.
(** A refusal is reported as such exactly if it ends a connect request that was
    not confirmed. *)
Lemma never_calling : forall two tr s s', dials two s tr = Some s' -> s <> Calling -> s' <> Calling.
Proof.
  induction tr as [|o tr IH]; intros s s' D N; cbn [dials] in D; [injection D as <-; exact N|]. destruct (dial two s o) as [s1|] eqn:E; [|discriminate]. apply (IH _ _ D).
  destruct o as [e [x|]|i r]; cbn [dial] in E.
  - destruct x; cbn [on_raise] in E; destruct s; destruct e; try discriminate E; try (destruct (legal _) in E; try discriminate E); try (destruct (_ <? _) in E; try discriminate E); injection E as <-; (exact N || discriminate).
  - destruct s; destruct e; cbn [on_done] in E; try discriminate E; try (destruct (legal _) in E; try discriminate E); try (destruct two in E); try (destruct (_ <=? _) in E; try discriminate E); injection E as <-; discriminate.
  - destruct s; try (elim N; reflexivity); destruct i as [pl|p|]; try (destruct p); destruct r; cbn [on_tell is_end is_msg] in E; try discriminate E; injection E as <-; discriminate.
Qed.
Definition silent_user (o : obs) : Prop := match o with Tell _ _ => False | Ask _ _ => True end.
Lemma still_calling : forall two tr s', dials two Calling tr = Some s' -> (s' = Calling <-> Forall silent_user tr).
Proof.
  induction tr as [|o tr IH]; intros s' D; cbn [dials] in D; [injection D as <-; split; [constructor|reflexivity]|]. destruct (dial two Calling o) as [s1|] eqn:E; [|discriminate].
  destruct o as [e [x|]|i r]; cbn [dial] in E.
  - assert (X : s1 = Calling) by (destruct x; cbn [on_raise] in E; destruct e; try discriminate E; injection E as <-; reflexivity). subst s1. rewrite (IH _ D). split; [intros F; constructor; [exact I|exact F]|intros F; now inversion F].
  - destruct e; discriminate E.
  - assert (X : s1 <> Calling) by (destruct i as [pl|p|]; try (destruct p); destruct r; cbn [on_tell is_end] in E; try discriminate E; injection E as <-; discriminate).
    split; [intros F; elim (never_calling _ _ _ _ D X F)|intros F; inversion F; contradiction].
Qed.
Theorem nsp_refusal : forall cfg ci a i r b c, 2 <= phase cfg -> story cfg ci (a ++ Tell i r :: b) c ->
  (r = true -> is_end i = true) /\
  (is_end i = true -> (r = true <-> ci = None /\ Forall silent_user a)).
Proof.
  intros cfg ci a i r b c P H. destruct (nsp_dialogue _ _ _ _ P H) as (s & D & _). apply dials_split in D as (s1 & s2 & D1 & D2 & D3). cbn [dial] in D2.
  assert (X : r = true -> is_end i = true /\ s1 = Calling) by (intros ->; destruct s1; destruct i as [pl|p|]; try (destruct p); cbn [on_tell is_end] in D2; try discriminate D2; auto).
  split; [intros R; apply (X R)|]. intros EN. split.
  - intros R. destruct (X R) as [_ Y]. subst s1. destruct ci; cbn [start] in D1; [elim (never_calling _ _ _ _ D1); [discriminate|reflexivity]|]. split; [reflexivity|]. now apply (still_calling _ _ _ D1).
  - intros [-> F]. cbn [start] in D1. apply (still_calling _ _ _ D1) in F. subst s1. destruct r; [reflexivity|]. destruct i as [pl|p|]; [|destruct p|]; try discriminate EN; discriminate D2.
Qed.

(** * Examples *)
Fixpoint play (cfg : ncfg) (tr : list obs) (c : conn) (l : list cev) : option (list obs * conn) :=
  match l with
  | [] => Some (tr, c)
  | e :: t => match cstep cfg c e with Ok c' => play cfg (tr ++ observed e (news c c')) c' t | Err _ => None end
  end.
Lemma play_story : forall cfg ci l tr c tr' c', story cfg ci tr c -> play cfg tr c l = Some (tr', c') -> story cfg ci tr' c'.
Proof.
  induction l as [|e l IH]; intros tr c tr' c' H P; cbn [play] in P; [injection P as <- <-; exact H|]. destruct (cstep cfg c e) as [c1|] eqn:E; [|discriminate]. eapply IH; [|exact P]. eapply so_ev; eauto.
Qed.
Lemma ex_c0_story : story ex_cfg (Some ex_ci) [Tell (SPkt ex_ci) false] ex_c0.
Proof.
  assert (E : conn_inbound ex_cfg 200 1025 ex_ci = Ok ex_c0) by (vm_compute; reflexivity).
  change [Tell (SPkt ex_ci) false] with (tells (clog ex_c0)). exact (so_in ex_cfg _ _ _ _ E).
Qed.
Definition seen (r : option (list obs * conn)) : option (list obs * cstate) := match r with Some (tr, c) => Some (tr, cst c) | None => None end.
(** An inbound connection, accepted: data, a call that is not allowed, the
    disconnect of the partner, a call after the end. *)
Example nsp_dialogue_witness :
  2 <= phase ex_cfg /\
  exists c, story ex_cfg (Some ex_ci) [Tell (SPkt ex_ci) false; Ask (VAbort 0 []) (Some WrongState); Ask (VAccept []) None; Tell SRun false; Tell (SData [7]) false; Ask (VSend [1; 2]) None; Tell (SPkt (NDI 200 300 3 [4])) false; Ask (VSend [1]) (Some WrongState)] c /\ cst c = Sclosed.
Proof.
  split; [vm_compute; discriminate|].
  destruct (play ex_cfg [Tell (SPkt ex_ci) false] ex_c0 [VAbort 0 []; VAccept []; VRecv (NData 200 300 None None 1 0 1 1 [7]); VSend [1; 2]; VRecv (NDI 200 300 3 [4]); VSend [1]]) as [[tr c]|] eqn:E; [|vm_compute in E; discriminate E].
  pose proof (play_story _ _ _ _ _ _ _ ex_c0_story E) as S. exists c. assert (X : seen (Some (tr, c)) = Some ([Tell (SPkt ex_ci) false; Ask (VAbort 0 []) (Some WrongState); Ask (VAccept []) None; Tell SRun false; Tell (SData [7]) false; Ask (VSend [1; 2]) None; Tell (SPkt (NDI 200 300 3 [4])) false; Ask (VSend [1]) (Some WrongState)], Sclosed)) by (rewrite <- E; vm_compute; reflexivity).
  injection X as -> ->. auto.
Qed.
(** An inbound connection that is not answered: its user is told twice. *)
Example nsp_end_final_witness :
  exists c, story ex_cfg (Some ex_ci) ([Tell (SPkt ex_ci) false] ++ Tell (SPkt (NDI 0 0 38 [])) false :: [Tell (SPkt (NDI 0 0 39 [])) false]) c.
Proof.
  destruct (play ex_cfg [Tell (SPkt ex_ci) false] ex_c0 [VTimer; VRetx CD 0; VRetx CD 0; VRetx CD 0; VRetx CD 0; VRetx CD 0]) as [[tr c]|] eqn:E; [|vm_compute in E; discriminate E].
  pose proof (play_story _ _ _ _ _ _ _ ex_c0_story E) as S. exists c. assert (X : seen (Some (tr, c)) = Some ([Tell (SPkt ex_ci) false] ++ Tell (SPkt (NDI 0 0 38 [])) false :: [Tell (SPkt (NDI 0 0 39 [])) false], Sclosed)) by (rewrite <- E; vm_compute; reflexivity).
  injection X as -> _. exact S.
Qed.
(** An outbound connection that is refused. *)
Example nsp_refusal_witness :
  exists c, story ex_cfg None ([] ++ Tell (SPkt (NDI 200 300 4 [])) true :: []) c.
Proof.
  destruct (conn_outbound ex_cfg 200 1025 [1]) as [c0|] eqn:O; [|vm_compute in O; discriminate O]. pose proof (so_out ex_cfg _ _ _ _ O) as S0.
  destruct (play ex_cfg (tells (clog c0)) c0 [VRecv (NDI 200 300 4 [])]) as [[tr c]|] eqn:E; [|vm_compute in O; injection O as <-; vm_compute in E; discriminate E].
  pose proof (play_story _ _ _ _ _ _ _ S0 E) as S. exists c. assert (X : seen (Some (tr, c)) = Some ([Tell (SPkt (NDI 200 300 4 [])) true], Sclosed)) by (rewrite <- E; vm_compute in O; injection O as <-; vm_compute; reflexivity).
  injection X as -> _. exact S.
Qed.
Print Assumptions nsp_dialogue.
Print Assumptions nsp_end_told.
Print Assumptions nsp_end_final.
Print Assumptions nsp_refusal.
