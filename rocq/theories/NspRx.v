(** Receive side of the subchannels of a connection: invariants. *)
From Verif Require Import Base Dict ModuloModel ModuloProps NspPktModel NspModel NspFrame NspPrim.

(** What the log says was passed up on a subchannel, and given to the user. *)
Definition up1 (ch : chan) (o : out) : list npkt :=
  match o with ODeliver k p => match ch, k with CD, CD | CO, CO => [p] | _, _ => [] end | _ => [] end.
Definition delivered (ch : chan) (l : list out) : list npkt := flat_map (up1 ch) l.
Definition sc1 (o : out) : list (list Z) := match o with OSc (SData x) _ => [x] | _ => [] end.
Definition sc_msgs (l : list out) : list (list Z) := flat_map sc1 l.

Definition silent (l : list out) : Prop := (forall ch, delivered ch l = []) /\ sc_msgs l = [].
Lemma delivered_app : forall ch a b, delivered ch (a ++ b) = delivered ch a ++ delivered ch b.
Proof. intros. apply flat_map_app. Qed.
Lemma sc_msgs_app : forall a b, sc_msgs (a ++ b) = sc_msgs a ++ sc_msgs b.
Proof. intros. apply flat_map_app. Qed.
Lemma silent_nil : silent [].
Proof. split; [intros []|]; reflexivity. Qed.
Lemma silent_app : forall a b, silent a -> silent b -> silent (a ++ b).
Proof. intros a b [A1 A2] [B1 B2]. split; [intros ch; now rewrite delivered_app, A1, B1|now rewrite sc_msgs_app, A2, B2]. Qed.
Lemma txonly_silent : forall l, txonly l -> silent l.
Proof.
  induction l as [|o l IH]; intros H; [apply silent_nil|]. inversion H as [|? ? H1 H2]; subst.
  change (o :: l) with ([o] ++ l). apply silent_app; [|now apply IH]. destruct o; try destruct H1; (split; [intros []|]; reflexivity).
Qed.

(** Steps that pass nothing up. *)
Record rxq (c c' : conn) : Prop := mk_rxq {
  rq_ack : forall ch, acknum (getc c' ch) = acknum (getc c ch); rq_rcvd : forall ch, rcvd (getc c' ch) = rcvd (getc c ch);
  rq_ooo : forall ch, ooo (getc c' ch) = ooo (getc c ch) \/ (ooo (getc c' ch) = [] /\ over (cst c') = true);
  rq_asm : casm c' = casm c; rq_over : over (cst c) = true -> over (cst c') = true;
  rq_log : exists l, clog c' = clog c ++ l /\ silent l }.
Lemma rxq_refl : forall c, rxq c c.
Proof. intros c. constructor; auto. exists []. rewrite app_nil_r. split; [auto|apply silent_nil]. Qed.
Lemma rxq_trans : forall a b c, rxq a b -> rxq b c -> rxq a c.
Proof.
  intros a b c [A1 A2 A3 A4 A5 [l [AL AS]]] [B1 B2 B3 B4 B5 [m [BL BS]]]. constructor; auto.
  - intros ch. now rewrite B1.
  - intros ch. now rewrite B2.
  - intros ch. destruct (B3 ch) as [-> |]; [|now right]. destruct (A3 ch) as [->|[X Y]]; [now left|right; auto].
  - congruence.
  - exists (l ++ m). split; [rewrite BL, AL, app_assoc; auto|now apply silent_app].
Qed.
Lemma frame_rxq : forall c c', frame c c' -> rxq c c'.
Proof.
  intros c c' F. constructor.
  - intros ch. apply (fr_rx _ _ F ch).
  - intros ch. apply (fr_rx _ _ F ch).
  - intros ch. left. apply (fr_rx _ _ F ch).
  - apply (fr_asm _ _ F).
  - now rewrite (fr_st _ _ F).
  - destruct (fr_log _ _ F) as (l & L & T). exists l. split; [exact L|now apply txonly_silent].
Qed.
(** Changes outside the receive fields, with one more output. *)
Lemma rxq_same : forall c c' l, (forall ch, rx_same (getc c ch) (getc c' ch)) -> casm c' = casm c -> (over (cst c) = true -> over (cst c') = true) ->
  clog c' = clog c ++ l -> silent l -> rxq c c'.
Proof.
  intros c c' l R A O L S. constructor; auto; try (intros ch; destruct (R ch) as (R1 & R2 & R3); auto; fail). exists l. auto.
Qed.
Ltac silent1 := first [apply silent_nil | split; [intros []|]; reflexivity].
Ltac same0 := apply rxq_same with (l := []); [intros [] ; repeat split|reflexivity|auto|rewrite app_nil_r; reflexivity|apply silent_nil].
Lemma cst_over_close : forall c, rxq c (conn_close c).
Proof.
  intros c. constructor; try reflexivity.
  - intros []; reflexivity.
  - intros []; reflexivity.
  - intros []; right; split; reflexivity.
  - exists []. rewrite app_nil_r. split; [reflexivity|apply silent_nil].
Qed.
Lemma disc_rxq : forall cfg c r x c1, disc_rej cfg c r x = Ok c1 -> rxq c (set_cst c1 Sdi).
Proof.
  intros cfg c r x c1 H. unfold disc_rej in H. destruct (_ || _ || _); [discriminate|]. apply data_send_frame in H.
  assert (K : forall ch, ooo (getc c1 ch) = [] /\ acknum (getc c1 ch) = acknum (getc c ch) /\ rcvd (getc c1 ch) = rcvd (getc c ch)).
  { intros ch. destruct (fr_rx _ _ H ch) as (A & B & C). destruct ch; cbn in A, B, C |- *; auto. }
  constructor.
  - intros ch. destruct (K ch) as (_ & K1 & _). destruct ch; exact K1.
  - intros ch. destruct (K ch) as (_ & _ & K1). destruct ch; exact K1.
  - intros ch. right. destruct (K ch) as (K1 & _ & _). split; [destruct ch; exact K1|reflexivity].
  - cbn. rewrite (fr_asm _ _ H). reflexivity.
  - reflexivity.
  - destruct (fr_log _ _ H) as (l & L & T). exists l. split; [exact L|now apply txonly_silent].
Qed.
Lemma put_entry_rxq : forall c ch i e, rxq c (put_entry c ch i e).
Proof. intros c ch i e. apply frame_rxq. apply putc_same_frame. repeat split. Qed.
Lemma other_send_rxq : forall c p c' b, other_send c p = Ok (c', b) -> rxq c c'.
Proof. intros. apply frame_rxq. eapply other_send_frame. eassumption. Qed.
Lemma grant_rx : forall s m v s1, grant s m v = Some s1 -> rx_same s s1.
Proof.
  intros s m v s1 H. unfold grant in H. destruct (flow s =? 2); [|destruct (flow s =? 1)];
    repeat match type of H with context [if ?b then _ else _] => destruct b end; try discriminate H; injection H as <-; repeat split.
Qed.

Lemma credit_rxq : forall c p, rxq c (credit c p).
Proof.
  intros c p. destruct p; try apply rxq_refl. cbn [credit]. destruct (_ =? 0).
  - destruct (grant _ _ _) as [s1|] eqn:G; [|apply rxq_refl]. apply frame_rxq. apply (putc_same_frame c CD). eapply grant_rx. exact G.
  - unfold other_ls. destruct (0 <=? fcval); [|apply rxq_refl]. same0.
Qed.
Definition no_seg (a : option (chan * npkt)) : Prop := match a with Some (_, p) => is_seg p = false | None => True end.
Lemma prim_rxq : forall cfg a b l c c', no_seg a -> prim cfg a b l c c' -> rxq c c'.
Proof.
  intros cfg a b l c c' NS H. destruct H.
  - destruct H. apply rxq_same with (l := []); try congruence; [|rewrite app_nil_r; congruence|apply silent_nil].
    intros []; cbn [getc]; [rewrite sc_data|rewrite sc_oth]; apply rx_same_refl.
  - apply rxq_same with (l := []); [intros []; repeat split|reflexivity| |rewrite app_nil_r; reflexivity|apply silent_nil].
    destruct H as [-> | [-> | -> ]]; discriminate.
  - apply rxq_same with (l := []); [intros []; repeat split|reflexivity| |rewrite app_nil_r; reflexivity|apply silent_nil]. rewrite H. discriminate.
  - apply data_send_frame in H0. apply rxq_trans with (set_cst c Scc); [|now apply frame_rxq].
    apply rxq_same with (l := []); [intros []; repeat split|reflexivity| |rewrite app_nil_r; reflexivity|apply silent_nil]. rewrite H. discriminate.
  - same0.
  - eapply disc_rxq. exact H0.
  - apply cst_over_close.
  - eapply rxq_same; [intros []; repeat split|reflexivity|auto|reflexivity|]. split; [intros []; reflexivity|]. destruct i; [destruct H|reflexivity|reflexivity].
  - apply frame_rxq. apply raise_frame.
  - apply frame_rxq. eapply sendmsg_frame. exact H2.
  - apply frame_rxq. eapply send_ack_frame. exact H.
  - apply frame_rxq. apply putc_same_frame. repeat split.
  - same0.
  - apply frame_rxq. eapply frame_trans; [eapply tx_send_frame; exact H3|eapply bump_frame; exact H4].
  - apply frame_rxq. eapply tx_send_frame. exact H2.
  - apply frame_rxq. eapply bump_frame. exact H2.
  - apply frame_rxq. apply (putc_same_frame c CD). destruct p; try discriminate H0. injection H2 as <- <-. repeat split.
  - apply other_send_rxq in H. apply (rxq_trans _ _ _ H). same0.
  - apply other_send_rxq in H1. eapply rxq_trans; [|exact H1]. same0.
  - apply frame_rxq. eapply chan_ack_frame. exact H.
  - apply frame_rxq. eapply chan_ack_frame. exact H0.
  - rewrite H0 in NS. cbn in NS. congruence.
  - rewrite H0 in NS. cbn in NS. congruence.
  - destruct H0 as (y & H0 & H3). rewrite H0 in NS. cbn in NS. congruence.
  - eapply rxq_trans; [apply put_entry_rxq|]. apply frame_rxq. eapply tx_send_frame. exact H3.
  - apply put_entry_rxq.
  - apply put_entry_rxq.
  - eapply rxq_trans; [apply put_entry_rxq|]. eapply rxq_trans; [|apply cst_over_close].
    eapply rxq_same; [intros []; repeat split|reflexivity|auto|reflexivity|]. split; [intros []; reflexivity|reflexivity].
Qed.
Lemma star_rxq : forall cfg a b l c c', no_seg a -> star cfg a b l c c' -> rxq c c'.
Proof. intros cfg a b l c c' NS H. induction H as [w|l m x y c H1 H2 IH]; [apply rxq_refl|]. eapply rxq_trans; [eapply prim_rxq; eauto|exact IH]. Qed.
(** Any step except the reception of a segment. *)
Lemma step_rxq : forall cfg c e c', ev_ok e -> 1 <= phase cfg -> no_seg (ev_arr e) -> cstep cfg c e = Ok c' -> rxq c c'.
Proof.
  intros cfg c e c' EO PH NS H. destruct (is_send e) eqn:S.
  - destruct e; try discriminate S. cbn [cstep] in H. unfold conn_send in H.
    destruct (cst c) eqn:ST; cbn [cstate_eqb negb orb] in H; try (injection H as <-; apply frame_rxq; apply raise_frame).
    destruct (cshut c); [injection H as <-; apply frame_rxq; apply raise_frame|]. destruct (csegsize c =? 0); [discriminate|].
    eapply rxq_trans; [|apply frame_rxq; eapply send_segs_frame; exact H].
    eapply rxq_same; [intros []; repeat split|reflexivity|auto|reflexivity|]. split; [intros []; reflexivity|reflexivity].
  - eapply star_rxq; [exact NS|]. eapply (step_star cfg (ev_arr e) false); eauto.
Qed.

(** * The receive invariant *)
(** The contents of a packet, without addresses, acknowledgements and numbers. *)
Definition body (p : npkt) : npkt :=
  match p with
  | NData _ _ _ _ _ _ bo eo pl => NData 0 0 None None 0 0 bo eo pl
  | NInt _ _ _ _ _ pl => NInt 0 0 None None 0 pl
  | NLs _ _ _ _ _ m i v => NLs 0 0 None None 0 m i v
  | _ => NEmpty
  end.
Definition nat_seq (n : Z) : list Z := map Z.of_nat (seq 1 (Z.to_nat n)).
Lemma nat_seq_snoc : forall n, 0 <= n -> nat_seq (n + 1) = nat_seq n ++ [n + 1].
Proof.
  intros n H. unfold nat_seq. replace (Z.to_nat (n + 1)) with (S (Z.to_nat n)) by lia. rewrite seq_S, map_app. cbn [map]. do 2 f_equal. lia.
Qed.

Section R.
Variable f : chan -> Z -> npkt.
(** The subchannels about which something is claimed. *)
Variable on : chan -> bool.
(** [strict] in the middle of a step the next packet may be in the cache. *)
Record rxi (slack : Z) (ch : chan) (s : sub) (log : list out) : Prop := mk_rxi {
  ri_pos : 0 <= rcvd s; ri_ack : acknum s = rcvd s mod 4096;
  ri_del : map body (delivered ch log) = map (f ch) (nat_seq (rcvd s));
  ri_ooo : forall k q, dget Z.eqb (ooo s) k = Some q -> exists n, rcvd s + slack < n < rcvd s + 2048 /\ k = n mod 4096 /\ body q = f ch n }.
Definition R (c : conn) : Prop := forall ch, on ch = true -> rxi 1 ch (getc c ch) (clog c).
Lemma rxi_weaken : forall ch s l, rxi 1 ch s l -> rxi 0 ch s l.
Proof. intros ch s l [P A D O]. constructor; auto. intros k q H. destruct (O k q H) as (n & ? & ?). exists n. split; [lia|auto]. Qed.
Lemma rxi_quiet : forall x ch s s' l l', acknum s' = acknum s -> rcvd s' = rcvd s -> (ooo s' = ooo s \/ ooo s' = []) -> delivered ch l' = delivered ch l ->
  rxi x ch s l -> rxi x ch s' l'.
Proof.
  intros x ch s s' l l' A B C D [P Q E O]. constructor; rewrite ?B; auto; try congruence.
  destruct C as [-> | -> ]; [exact O|]. intros k q H. discriminate.
Qed.
Lemma rxq_rxi : forall x c c' ch, rxq c c' -> rxi x ch (getc c ch) (clog c) -> rxi x ch (getc c' ch) (clog c').
Proof.
  intros x c c' ch [Q1 Q2 Q3 Q4 Q5 [l [L [S1 S2]]]] H. eapply rxi_quiet; [apply Q1|apply Q2| | |exact H].
  - destruct (Q3 ch) as [->|[-> _]]; auto.
  - rewrite L, delivered_app, S1, app_nil_r. reflexivity.
Qed.
Lemma rxq_R : forall c c', rxq c c' -> R c -> R c'.
Proof. intros c c' Q H ch O. eapply rxq_rxi; eauto. Qed.

(** Accepting the next packet. *)
Definition put_num (c : conn) (ch : chan) (num : Z) : conn :=
  putc c ch (set_rcvd (set_ackpending (set_acknum (getc c ch) num) true) (rcvd (getc c ch) + 1)).
Lemma delivered_one : forall ch k p, delivered ch [ODeliver k p] = match ch, k with CD, CD | CO, CO => [p] | _, _ => [] end.
Proof. intros [] [] p; reflexivity. Qed.
Lemma to_sc_log : forall c p r, exists l, clog (to_sc c p r) = clog c ++ l /\ (forall ch, delivered ch l = []) /\
   (forall ch, getc (to_sc c p r) ch = getc c ch) /\ cst (to_sc c p r) = cst c.
Proof.
  intros c p r. destruct p; cbn [to_sc]; try (eexists; split; [reflexivity|split; [intros []; reflexivity|split; [intros []; reflexivity|reflexivity]]]).
  destruct (casm c); repeat match goal with |- context [if ?b then _ else _] => destruct b end;
    try (eexists; split; [reflexivity|split; [intros []; reflexivity|split; [intros []; reflexivity|reflexivity]]]);
    (exists []; rewrite app_nil_r; split; [reflexivity|split; [intros []; reflexivity|split; [intros []; reflexivity|reflexivity]]]).
Qed.
Lemma process_data_rx : forall cfg c ch p c', process_data cfg c ch p = Ok c' ->
  (forall k, rx_same (getc c k) (getc c' k)) /\ cst c' = cst c /\ exists l, clog c' = clog c ++ ODeliver ch p :: l /\ forall k, delivered k l = [].
Proof.
  intros cfg c ch p c' H. pose proof (process_data_keep _ _ _ _ _ H) as (S & K).
  split; [intros k; destruct (K k) as (A & B & C); repeat split; assumption|]. split; [exact S|].
  assert (G : forall c1, clog c1 = clog c ++ [ODeliver ch p] -> frame c1 c' -> exists l, clog c' = clog c ++ ODeliver ch p :: l /\ forall k, delivered k l = []).
  { intros c1 L F. destruct (fr_log _ _ F) as (l & L2 & T). apply txonly_silent in T as [T _]. exists l. split; [rewrite L2, L, <- app_assoc; reflexivity|exact T]. }
  assert (T : forall q, c' = to_sc (emit c (ODeliver ch p)) q false -> exists l, clog c' = clog c ++ ODeliver ch p :: l /\ forall k, delivered k l = []).
  { intros q ->. destruct (to_sc_log (emit c (ODeliver ch p)) q false) as (l & L & D & _). exists l. split; [rewrite L; cbn [emit clog set_clog]; rewrite <- app_assoc; reflexivity|exact D]. }
  unfold process_data in H. destruct ch.
  - injection H as H. eapply T. symmetry. exact H.
  - destruct p; try (match type of H with Ok (to_sc _ ?q _) = _ => apply (T q) end; injection H as H; symmetry; exact H).
    destruct (_ =? 0) in H.
    + unfold data_ls in H. repeat match type of H with context [if ?x then _ else _] => destruct x end; cbn [negb] in H;
        try (injection H as <-; exists []; split; [reflexivity|intros []; reflexivity]);
        (eapply G; [|eapply send_blocked_frame; exact H]; reflexivity).
    + injection H as <-. exists []. split; [|intros []; reflexivity]. unfold other_ls. destruct (0 <=? fcval); reflexivity.
Qed.
Lemma mod_next : forall n m, 0 <= n -> mod_add 4096 (n mod 4096) 1 = Ok m -> m = (n + 1) mod 4096.
Proof. intros n m H E. unfold mod_add, mod_new in E. cbn in E. destruct (_ && _) in E; [|discriminate]. injection E as <-. rewrite Zplus_mod_idemp_l. reflexivity. Qed.

Lemma accept_loop_R : forall cfg fuel c ch p c', accept_loop cfg fuel c ch ((rcvd (getc c ch) + 1) mod 4096) p = Ok c' ->
  (forall k q, dget Z.eqb (ooo (getc c ch)) k = Some q -> exists n, rcvd (getc c ch) + 1 < n < rcvd (getc c ch) + 2048 /\ k = n mod 4096 /\ body q = f ch n) ->
  rxi 0 ch (getc c ch) (clog c) -> (on (cross ch) = true -> rxi 1 (cross ch) (getc c (cross ch)) (clog c)) -> body p = f ch (rcvd (getc c ch) + 1) ->
  R c' /\ cst c' = cst c /\ rcvd (getc c ch) + 1 <= rcvd (getc c' ch) /\ rcvd (getc c' (cross ch)) = rcvd (getc c (cross ch)) /\
  ooo (getc c' (cross ch)) = ooo (getc c (cross ch)) /\
  forall k q, dget Z.eqb (ooo (getc c ch)) k = Some q -> dget Z.eqb (ooo (getc c' ch)) k = Some q \/ exists n, k = n mod 4096 /\ rcvd (getc c ch) + 1 < n <= rcvd (getc c' ch) /\ n < rcvd (getc c ch) + 2048.
Proof.
  intros cfg. induction fuel as [|fu IH]; intros c ch p c' H OO I0 IX B; cbn [accept_loop] in H; [discriminate|].
  fold (put_num c ch ((rcvd (getc c ch) + 1) mod 4096)) in H. set (r := rcvd (getc c ch)) in *. set (c1 := put_num c ch ((r + 1) mod 4096)) in *.
  destruct (process_data cfg c1 ch p) as [c2|] eqn:E; cbn [bind] in H; [|discriminate].
  apply process_data_rx in E as (RX & ST & l & L & DL).
  assert (C1 : getc c1 ch = set_rcvd (set_ackpending (set_acknum (getc c ch) ((r + 1) mod 4096)) true) (r + 1)) by (unfold c1, put_num; apply getc_putc).
  assert (C1x : getc c1 (cross ch) = getc c (cross ch)) by (unfold c1, put_num; apply getc_putc_cross).
  assert (C1l : clog c1 = clog c) by (unfold c1, put_num; destruct ch; reflexivity).
  assert (C1s : cst c1 = cst c) by (unfold c1, put_num; destruct ch; reflexivity).
  destruct (RX ch) as (A2 & R2 & O2). rewrite C1 in A2, R2, O2. cbn [acknum rcvd ooo set_rcvd set_ackpending set_acknum] in A2, R2, O2.
  destruct (RX (cross ch)) as (A2x & R2x & O2x). rewrite C1x in A2x, R2x, O2x.
  destruct I0 as [P A D _].
  assert (I2 : rxi 0 ch (getc c2 ch) (clog c2)).
  { constructor; rewrite ?R2, ?A2, ?O2; auto; [fold r in P; lia| |].
    - rewrite L, C1l, delivered_app, map_app, D, nat_seq_snoc, map_app by exact P. fold r. f_equal.
      change (ODeliver ch p :: l) with ([ODeliver ch p] ++ l). rewrite delivered_app, DL, app_nil_r, delivered_one. destruct ch; cbn [map]; rewrite B; reflexivity.
    - intros k q K. destruct (OO k q K) as (n & Hn & Hk & Hb). exists n. split; [lia|auto]. }
  assert (IX2 : on (cross ch) = true -> rxi 1 (cross ch) (getc c2 (cross ch)) (clog c2)).
  { intros ON. specialize (IX ON). eapply rxi_quiet; [exact A2x|exact R2x|left; exact O2x| |exact IX]. rewrite L, C1l, delivered_app.
    change (ODeliver ch p :: l) with ([ODeliver ch p] ++ l). rewrite delivered_app, DL, app_nil_r, delivered_one. destruct ch; cbn [cross]; now rewrite app_nil_r. }
  destruct (mod_add 4096 ((r + 1) mod 4096) 1) as [n2|] eqn:M; cbn [bind] in H; [|discriminate].
  apply mod_next in M; [|lia].
  destruct (dget Z.eqb (ooo (getc c2 ch)) n2) as [q|] eqn:Q.
  - set (c3 := putc c2 ch (set_ooo (getc c2 ch) (ddel Z.eqb (ooo (getc c2 ch)) n2))) in *.
    assert (C3 : getc c3 ch = set_ooo (getc c2 ch) (ddel Z.eqb (ooo (getc c2 ch)) n2)) by (unfold c3; apply getc_putc).
    assert (C3x : getc c3 (cross ch) = getc c2 (cross ch)) by (unfold c3; apply getc_putc_cross).
    assert (C3l : clog c3 = clog c2) by (unfold c3; destruct ch; reflexivity).
    assert (C3s : cst c3 = cst c2) by (unfold c3; destruct ch; reflexivity).
    assert (R3 : rcvd (getc c3 ch) = r + 1) by (rewrite C3; exact R2).
    assert (BQ : body q = f ch (r + 2)).
    { destruct (ri_ooo _ _ _ _ I2 n2 q Q) as (n & Hn & Hk & Hb). rewrite R2 in Hn.
      assert (n = r + 2); [|congruence]. rewrite M in Hk. replace (r + 1 + 1) with (r + 2) in Hk by lia.
      assert (E1 : (n - (r + 2)) mod 4096 = 0) by (rewrite Zminus_mod, <- Hk, Z.sub_diag; reflexivity). lia. }
    assert (OO3 : forall k q0, dget Z.eqb (ooo (getc c3 ch)) k = Some q0 -> exists n, r + 2 < n < r + 1 + 2048 /\ k = n mod 4096 /\ body q0 = f ch n).
    { intros k q0 K. rewrite C3 in K. cbn [ooo set_ooo] in K. rewrite (dget_ddel Z.eqb decides_Z) in K.
      destruct (Z.eqb k n2) eqn:KN; [discriminate|]. destruct (ri_ooo _ _ _ _ I2 k q0 K) as (n & Hn & Hk & Hb). rewrite R2 in Hn.
      exists n. split; [|auto]. assert (n <> r + 2); [|lia]. intros ->. apply Z.eqb_neq in KN. apply KN. rewrite Hk, M. f_equal. lia. }
    assert (I3 : rxi 0 ch (getc c3 ch) (clog c3)).
    { destruct I2 as [P2 AA2 D2 OO2]. constructor; rewrite ?R3; auto; [fold r in P; lia| | |].
      - rewrite C3. cbn [acknum set_ooo]. rewrite <- R2. exact AA2.
      - rewrite C3l, <- R2. exact D2.
      - intros k q0 K. destruct (OO3 k q0 K) as (n & Hn & Hk). exists n. split; [lia|auto]. }
    assert (IX3 : on (cross ch) = true -> rxi 1 (cross ch) (getc c3 (cross ch)) (clog c3)) by (rewrite C3x, C3l; exact IX2).
    destruct (IH c3 ch q c') as (RR & SS & RC & RX1 & RX2 & KK); auto.
    { rewrite R3, <- M. exact H. }
    { rewrite R3. replace (r + 1 + 1) with (r + 2) by lia. exact OO3. }
    { rewrite R3. replace (r + 1 + 1) with (r + 2) by lia. exact BQ. }
    rewrite R3 in RC, KK. split; [exact RR|]. split; [congruence|]. split; [lia|]. split; [rewrite RX1, C3x, R2x; reflexivity|]. split; [rewrite RX2, C3x; exact O2x|].
    intros k q0 K. destruct (Z.eqb k n2) eqn:KN.
    + right. exists (r + 2). apply Z.eqb_eq in KN. split; [rewrite KN, M; f_equal; lia|lia].
    + destruct (KK k q0) as [K1|(n & K1 & K2 & K3)]; [|left; exact K1|].
      2:{ right. destruct (OO k q0 K) as (n' & Hn' & Hk' & _). assert (n' = n) by lia. exists n. split; [exact K1|lia]. }
      rewrite C3. cbn [ooo set_ooo]. rewrite (dget_ddel Z.eqb decides_Z). rewrite KN, O2. exact K.
  - injection H as <-. split; [|split; [congruence|split; [lia|split; [congruence|split; [congruence|intros k q K; left; congruence]]]]].
    intros k ON. assert (KC : k = ch \/ k = cross ch) by (destruct k, ch; auto). destruct KC as [-> | -> ]; [|exact (IX2 ON)].
    destruct I2 as [P2 AA2 D2 OO2]. constructor; auto. intros k q K. destruct (OO2 k q K) as (n & Hn & Hk & Hb). exists n. split; [|auto].
    assert (n <> rcvd (getc c2 ch) + 1); [|lia]. intros ->. rewrite R2 in Hk. rewrite <- M in Hk. congruence.
Qed.

(** The part of Subchannel.dispatch after the acknowledgements. *)
Definition tail (cfg : ncfg) (c2 : conn) (ch : chan) (p : npkt) : res conn :=
  let s := getc c2 ch in let num := segnum p in
  let* le := mod_le 4096 num (acknum s) in
  if le then send_ack c2 ch
  else
    let* nxt := mod_add 4096 (acknum s) 1 in
    if negb (num =? nxt) then Ok (putc c2 ch (set_ooo s (dset Z.eqb (ooo s) num p)))
    else
      let* c := accept_loop cfg (S (length (ooo s))) c2 ch num p in
      if dly p && (cphase c =? 4) && negb (cshut c) then
        if ackpending (getc c ch) && negb (hold (getc c ch)) then Ok (putc c ch (set_hold (getc c ch) true)) else Ok c
      else if ackpending (getc c ch) then send_ack c ch
      else Ok c.
Lemma accept_loop_st : forall cfg fuel c ch num p c', accept_loop cfg fuel c ch num p = Ok c' -> cst c' = cst c.
Proof.
  intros cfg. induction fuel as [|fu IH]; intros c ch num p c' A; cbn [accept_loop] in A; [discriminate|].
  destruct (process_data _ _ _ _) as [c4|] eqn:E in A; cbn [bind] in A; [|discriminate].
  apply process_data_keep in E as [E _]. destruct (mod_add 4096 num 1); cbn [bind] in A; [|discriminate].
  assert (O4 : cst c4 = cst c) by (rewrite E; destruct ch; reflexivity).
  destruct (dget _ _ _); [|injection A as <-; exact O4]. apply IH in A. rewrite A. destruct ch; exact O4.
Qed.
Lemma tail_st : forall cfg c ch p c', tail cfg c ch p = Ok c' -> cst c' = cst c.
Proof.
  intros cfg c ch p c' H. unfold tail in H. cbv zeta in H.
  destruct (mod_le _ _ _) as [le|]; cbn [bind] in H; [|discriminate]. destruct le; [exact (fr_st _ _ (send_ack_frame _ _ _ H))|].
  destruct (mod_add _ _ _) as [nxt|]; cbn [bind] in H; [|discriminate]. destruct (negb _); [injection H as <-; destruct ch; reflexivity|].
  destruct (accept_loop _ _ _ _ _ _) as [c3|] eqn:A; cbn [bind] in H; [|discriminate]. apply accept_loop_st in A. rewrite <- A.
  destruct (_ && _ && _); [destruct (_ && _); injection H as <-; [destruct ch; reflexivity|reflexivity]|].
  destruct (ackpending _); [|injection H as <-; reflexivity]. exact (fr_st _ _ (send_ack_frame _ _ _ H)).
Qed.
Definition kept (c c' : conn) (k : chan) : Prop :=
  rcvd (getc c k) <= rcvd (getc c' k) /\
  forall m, rcvd (getc c k) < m < rcvd (getc c k) + 2048 -> dget Z.eqb (ooo (getc c k)) (m mod 4096) <> None ->
        m <= rcvd (getc c' k) \/ dget Z.eqb (ooo (getc c' k)) (m mod 4096) <> None.
Definition got (c' : conn) (ch : chan) (n : Z) : Prop := n <= rcvd (getc c' ch) \/ dget Z.eqb (ooo (getc c' ch)) (n mod 4096) <> None.

Lemma rxq_kept : forall c c', rxq c c' -> over (cst c') = true \/ forall k, kept c c' k.
Proof.
  intros c c' Q. destruct (over (cst c')) eqn:O; [left; reflexivity|right]. intros k. split; [rewrite (rq_rcvd _ _ Q); lia|].
  intros m M1 M2. right. destruct (rq_ooo _ _ Q k) as [->|[_ X]]; [exact M2|congruence].
Qed.
Lemma tail_R : forall cfg c2 ch p c' n, tail cfg c2 ch p = Ok c' -> on ch = true ->
  R c2 -> segnum p = n mod 4096 -> body p = f ch n -> rcvd (getc c2 ch) - 2048 < n < rcvd (getc c2 ch) + 2048 ->
  R c' /\ (over (cst c') = true \/ (got c' ch n /\ forall k, kept c2 c' k)).
Proof.
  intros cfg c2 ch p c' n H2 ON HR2 SN BD NR. unfold tail in H2. cbv zeta in H2.
  pose proof (HR2 ch ON) as [P A D O]. rewrite SN, A in H2. set (r := rcvd (getc c2 ch)) in *.
  destruct (mod_lt_unwrapped 4096 n r) as (_ & LE & _); [lia|lia|]. rewrite LE in H2. cbn [bind] in H2.
  destruct (n <=? r) eqn:LT.
  { apply send_ack_frame in H2. apply frame_rxq in H2. split; [eapply rxq_R; eauto|].
    destruct (rxq_kept _ _ H2) as [G|G]; [left; exact G|right]. split; [|exact G]. left. rewrite (rq_rcvd _ _ H2). fold r. lia. }
  destruct (mod_add 4096 (r mod 4096) 1) as [nxt|] eqn:M; cbn [bind] in H2; [|discriminate]. apply mod_next in M; [|lia]. subst nxt.
  destruct (n mod 4096 =? (r + 1) mod 4096) eqn:EQ; cbn [negb] in H2.
  2:{ injection H2 as <-. assert (n <> r + 1) by (intros ->; rewrite Z.eqb_refl in EQ; discriminate).
      assert (GO : forall k, getc (putc c2 ch (set_ooo (getc c2 ch) (dset Z.eqb (ooo (getc c2 ch)) (n mod 4096) p))) k = 
         (if match k, ch with CD, CD | CO, CO => true | _, _ => false end then set_ooo (getc c2 ch) (dset Z.eqb (ooo (getc c2 ch)) (n mod 4096) p) else getc c2 k)) by (intros k; destruct k, ch; reflexivity).
      split; [|right; split; [|intros k; split]].
      - intros k ONk. rewrite GO. assert (LL : clog (putc c2 ch (set_ooo (getc c2 ch) (dset Z.eqb (ooo (getc c2 ch)) (n mod 4096) p))) = clog c2) by (destruct ch; reflexivity). rewrite LL.
        destruct (match k, ch with CD, CD | CO, CO => true | _, _ => false end) eqn:KC; [|apply HR2; exact ONk].
        assert (k = ch) by (destruct k, ch; try discriminate; reflexivity). subst k. constructor; auto. cbn [ooo set_ooo rcvd].
        intros k q K. rewrite (dget_dset Z.eqb decides_Z) in K. destruct (k =? n mod 4096) eqn:KN; [|apply O; exact K].
        injection K as <-. exists n. fold r. split; [lia|]. split; [lia|exact BD].
      - right. rewrite GO. destruct ch; cbn [getc ooo set_ooo]; rewrite (dget_dset_same Z.eqb decides_Z); discriminate.
      - rewrite GO. destruct k, ch; cbn [rcvd set_ooo getc]; lia.
      - intros m M1 M2. right. rewrite GO. destruct (match k, ch with CD, CD | CO, CO => true | _, _ => false end) eqn:KC; [|exact M2].
        assert (k = ch) by (destruct k, ch; try discriminate; reflexivity). subst k. cbn [ooo set_ooo]. rewrite (dget_dset Z.eqb decides_Z). destruct (m mod 4096 =? n mod 4096); [discriminate|exact M2]. }
  assert (n = r + 1) by (apply Z.eqb_eq in EQ; lia). subst n.
  destruct (accept_loop cfg _ c2 ch ((r + 1) mod 4096) p) as [c3|] eqn:AL; cbn [bind] in H2; [|discriminate].
  apply accept_loop_R in AL as (R3 & S3 & RC & RX & OX & KK); [|exact O|apply rxi_weaken; exact (HR2 ch ON)|exact (HR2 (cross ch))|exact BD].
  fold r in RC, KK.
  assert (G : rxq c3 c').
  { destruct (dly p && (cphase c3 =? 4) && negb (cshut c3)).
    - destruct (ackpending (getc c3 ch) && negb (hold (getc c3 ch))); injection H2 as <-; [|apply rxq_refl]. apply frame_rxq. apply putc_same_frame. repeat split.
    - destruct (ackpending (getc c3 ch)); [|injection H2 as <-; apply rxq_refl]. apply frame_rxq. eapply send_ack_frame. exact H2. }
  split; [eapply rxq_R; eauto|]. destruct (over (cst c')) eqn:OV; [left; reflexivity|right].
  assert (OE : forall k, ooo (getc c' k) = ooo (getc c3 k)) by (intros k; destruct (rq_ooo _ _ G k) as [->|[_ X]]; [reflexivity|congruence]).
  assert (RE : forall k, rcvd (getc c' k) = rcvd (getc c3 k)) by (intros k; apply (rq_rcvd _ _ G)).
  assert (KC : forall k, k = ch \/ k = cross ch) by (intros k; destruct k, ch; auto).
  split; [left; rewrite RE; lia|]. intros k.
  split; [rewrite RE; destruct (KC k) as [-> | -> ]; [fold r; lia|lia]|].
  intros m M1 M2. rewrite RE, OE. destruct (KC k) as [-> | -> ].
  - fold r in M1. destruct (dget Z.eqb (ooo (getc c2 ch)) (m mod 4096)) as [q|] eqn:Q; [|congruence].
    destruct (KK _ _ Q) as [K1|(x & X1 & X2 & X3)]; [right; congruence|left]. assert (x = m); [|lia]. lia.
  - right. rewrite OX. exact M2.
Qed.
Lemma kept_trans : forall a b c k, kept a b k -> kept b c k -> kept a c k.
Proof.
  intros a b c k [A1 A2] [B1 B2]. split; [lia|]. intros m M1 M2. destruct (A2 m M1 M2) as [X|X]; [left; lia|].
  destruct (Z.le_gt_cases m (rcvd (getc b k))); [left; lia|]. apply B2; [lia|exact X].
Qed.
(** The reception of a segment numbered [n]. *)
Lemma sub_recv_R : forall cfg c ch p c' n, sub_recv cfg c ch p = Ok c' -> runs (cst c) -> is_seg p = true -> on ch = true ->
  R c -> segnum p = n mod 4096 -> body p = f ch n -> rcvd (getc c ch) - 2048 < n < rcvd (getc c ch) + 2048 ->
  R c' /\ (over (cst c') = true \/ (got c' ch n /\ forall k, kept c c' k)).
Proof.
  intros cfg c ch p c' n H RU SG ON HR SN BD NR. unfold sub_recv in H.
  destruct (process_ack cfg c ch (ack1 p)) as [c1|] eqn:E1; cbn [bind] in H; [|discriminate].
  destruct (process_ack cfg c1 ch (ack2 p)) as [c2|] eqn:E2; cbn [bind] in H; [|discriminate].
  destruct (process_ack_star cfg None false _ _ _ _ RU E1) as [K1 R1]. destruct (process_ack_star cfg None false _ _ _ _ R1 E2) as [K2 R2].
  assert (Q : rxq c c2) by (eapply rxq_trans; eapply star_rxq; try eassumption; exact I). clear K1 K2 E1 E2 R1.
  assert (HR2 : R c2) by (eapply rxq_R; eauto).
  rewrite <- (rq_rcvd _ _ Q) in NR.
  assert (H2 : tail cfg c2 ch p = Ok c') by (destruct p; try discriminate SG; exact H). clear H.
  destruct (tail_R _ _ _ _ _ _ H2 ON HR2 SN BD NR) as [G1 G2]. split; [exact G1|]. destruct G2 as [G2|[G2 G3]]; [left; exact G2|].
  destruct (rxq_kept _ _ Q) as [O|K]; [left; rewrite (tail_st _ _ _ _ _ H2); exact O|right]. split; [exact G2|]. intros k. eapply kept_trans; eauto.
Qed.

(** A segment received by a connection that takes data. *)
Definition takes (s : cstate) : bool := match s with Srun | Scc => true | _ => false end.
Lemma recv_R : forall cfg c p c' n, conn_recv cfg c p = Ok c' -> takes (cst c) = true -> is_seg p = true -> on (chan_of p) = true ->
  R c -> segnum p = n mod 4096 -> body p = f (chan_of p) n -> rcvd (getc c (chan_of p)) - 2048 < n < rcvd (getc c (chan_of p)) + 2048 ->
  R c' /\ (over (cst c') = true \/ (got c' (chan_of p) n /\ forall k, kept c c' k)).
Proof.
  intros cfg c p c' n H T SG ON HR SN BD NR.
  assert (G : forall c0, cst c0 = Srun -> rxq c c0 -> run_recv cfg c0 p = Ok c' -> R c' /\ (over (cst c') = true \/ (got c' (chan_of p) n /\ forall k, kept c c' k))).
  { intros c0 S0 Q X. unfold run_recv in X. set (c1 := if 2 <? cphase c0 then set_ctimer c0 true else c0) in *.
    assert (Q1 : rxq c c1). { eapply rxq_trans; [exact Q|]. unfold c1. destruct (2 <? cphase c0); [apply frame_rxq; apply ctimer_frame|apply rxq_refl]. }
    assert (S1 : cst c1 = Srun) by (unfold c1; destruct (2 <? cphase c0); exact S0). clearbody c1.
    assert (X2 : sub_recv cfg c1 (chan_of p) p = Ok c') by (destruct p; try discriminate SG; exact X).
    apply (sub_recv_R _ _ _ _ _ n) in X2; auto; [|left; exact S1|eapply rxq_R; eauto|rewrite (rq_rcvd _ _ Q1); exact NR].
    destruct X2 as [G1 G2]. split; [exact G1|]. destruct G2 as [G2|[G2 G3]]; [left; exact G2|right]. split; [exact G2|].
    intros k. eapply kept_trans; [|apply G3]. destruct (rxq_kept _ _ Q1) as [O|K]; [rewrite S1 in O; discriminate|apply K]. }
  unfold conn_recv in H. destruct (cst c) eqn:S; try discriminate T.
  - unfold cc_recv in H. assert (AH : is_ackhdr p = true) by (destruct p; try discriminate SG; reflexivity). rewrite AH in H.
    destruct (chan_ack c CD 0) as [c1|] eqn:E; cbn [bind] in H; [|discriminate]. apply chan_ack_frame in E.
    eapply G; [|  |exact H]; [reflexivity|]. eapply rxq_trans; [apply frame_rxq; exact E|].
    eapply rxq_same; [intros []; repeat split|reflexivity| |reflexivity|split; [intros []; reflexivity|reflexivity]].
    rewrite (fr_st _ _ E), S. discriminate.
  - eapply G; [exact S|apply rxq_refl|exact H].
Qed.
End R.
