(** The timer of a DDCMP station (C66): it runs exactly while the station
    waits for an answer, and expires after at most two minutes if nothing
    arrives; but messages from the other side put it off, without limit. *)
From Verif Require Import Base AddrModel DdcmpModel DdcmpProofs DdcmpProps DdcmpLiveProps DdcmpTimerModel.

Lemma ok_inj : forall X (u v : X), Ok u = Ok v -> u = v. Proof. intros X u v E. injection E as E. exact E. Qed.

(** ** On or off *)
Definition on (t : timer) : bool := match due t with Some _ => true | None => false end.
Definition onop (b : bool) (x : top) : bool := match x with TStop => false | TAck | TStack => true | _ => b end.
Lemma on_fold : forall l t, on (fold_left tdo l t) = fold_left onop l (on t).
Proof. induction l as [|x l IH]; intros t; [reflexivity|]. cbn [fold_left]. rewrite IH. f_equal. destruct x; reflexivity. Qed.
Definition asks (o : list out) : bool := match txtops o with [] => false | _ => true end.
Lemma txtops_app : forall a b, txtops (a ++ b) = txtops a ++ txtops b.
Proof. induction a as [|x a IH]; intros b; [reflexivity|]. cbn [txtops app]. destruct x; rewrite ?IH, ?app_assoc; reflexivity. Qed.
Lemma asks_app : forall a b, asks (a ++ b) = asks a || asks b.
Proof. intros. unfold asks. rewrite txtops_app. destruct (txtops a); reflexivity. Qed.
Lemma on_tx : forall o b, fold_left onop (txtops o) b = b || asks o.
Proof.
  assert (K : forall o b, b = true -> fold_left onop (txtops o) b = true).
  { induction o as [|x o IH]; intros b Hb; [exact Hb|]. cbn [txtops]. destruct x as [m| | |]; auto. rewrite fold_left_app. apply IH. destruct m; auto. }
  induction o as [|x o IH]; intros b; [rewrite Bool.orb_false_r; reflexivity|]. unfold asks. cbn [txtops]. destruct x as [m| | |]; try apply IH.
  destruct m; cbn [tx_top app fold_left onop]; try apply IH; rewrite K, Bool.orb_true_r by reflexivity; reflexivity.
Qed.

(** ** The window *)
Lemma ack_loop_same : forall c s s', ack_loop c s = Ok s' -> n s' = n s /\ st s' = st s /\ is_up s' = is_up s /\ notsent s' = notsent s /\ r s' = r s /\ ackflag s' = ackflag s.
Proof.
  induction c as [|c IH]; intros s s' E; cbn [ack_loop] in E; [injection E as <-; auto 10|]. destruct (unack s (sadd (a s) 1)); [|discriminate E]. apply IH in E. exact E.
Qed.
Lemma drain_tm : forall q nak fuel s s' o, q <= 255 -> st s = Running -> drain fuel q s nak = Ok (s', o) ->
  st s' = Running /\ a s' = a s /\ (nak = true -> asks o = false) /\
  ((n s' = n s /\ asks o = false) \/ (0 < ssub (n s') (a s') /\ (nak = false -> asks o = true))).
Proof.
  induction fuel as [|f IH]; intros s s' o Hq Hs E; cbn [drain] in E; [injection E as <- <-; auto 10|].
  destruct (cansend q s) eqn:CS; [|injection E as <- <-; auto 10]. destruct (notsent s) as [|d l]; [injection E as <- <-; auto 10|].
  unfold send in E. unfold is_running, cansend in *. cbn [set_tx st n a unack] in E. rewrite Hs, CS in E. cbn [negb] in E.
  destruct (unack s (sadd (n s) 1)); [discriminate E|].
  assert (Up : 0 < ssub (sadd (n s) 1) (a s)).
  { apply Z.ltb_lt in CS. unfold ssub, sadd in *. rewrite Zminus_mod_idemp_l. replace (n s + 1 - a s) with (n s - a s + 1) by lia. rewrite <- Zplus_mod_idemp_l. pose proof (Z.mod_pos_bound (n s - a s) 256 ltac:(lia)). rewrite Z.mod_small; lia. }
  destruct nak; cbn [bind] in E.
  - match type of E with context [drain f q ?s1 true] => destruct (drain f q s1 true) as [(s2, o2)|] eqn:D; [|discriminate E]; apply IH in D; [|exact Hq|exact Hs] end.
    cbn [bind] in E. injection E as <- <-. destruct D as (D1 & D2 & D3 & D4). cbn [set_tx a n] in D2, D4. split; [exact D1|]. split; [exact D2|]. split; [exact D3|]. right. split; [|discriminate].
    destruct D4 as [(D4 & _)|(D4 & _)]; [rewrite D4, D2; exact Up|exact D4].
  - unfold tx_data in E. cbn [bind] in E.
    match type of E with context [drain f q ?s1 false] => destruct (drain f q s1 false) as [(s2, o2)|] eqn:D; [|discriminate E]; apply IH in D; [|exact Hq|exact Hs] end.
    cbn [bind] in E. injection E as <- <-. destruct D as (D1 & D2 & D3 & D4). cbn [set_tx set_ack a n] in D2, D4. split; [exact D1|]. split; [exact D2|]. split; [discriminate|]. right. split; [|reflexivity].
    destruct D4 as [(D4 & _)|(D4 & _)]; [rewrite D4, D2; exact Up|exact D4].
Qed.
Definition behind (s : stn) : bool := negb (a s =? n s).
Lemma behind_pos : forall s, 0 < ssub (n s) (a s) -> behind s = true.
Proof. intros s H. unfold behind. destruct (Z.eqb_spec (a s) (n s)) as [E|E]; [|reflexivity]. rewrite E in H. unfold ssub in H. rewrite Z.sub_diag in H. cbn in H. lia. Qed.
Lemma ack_tm : forall q nak s resp s' o g b, q <= 255 -> st s = Running -> b = behind s -> process_ack q s resp nak = Ok (s', o, g) ->
  st s' = Running /\
  (nak = false -> fold_left onop (ack_tops s resp ++ txtops o) b = behind s') /\
  (nak = true -> asks o = false /\ (0 < ssub (n s') (a s') \/ fold_left onop (ack_tops s resp) b = behind s') /\ (g = false -> s' = s /\ fold_left onop (ack_tops s resp) b = b)).
Proof.
  intros q nak s resp s' o g b Hq Hs Hb E. unfold process_ack in E. unfold ack_tops. destruct (ssub (n s) (a s) <? ssub resp (a s)).
  - injection E as <- <- <-. split; [exact Hs|]. split; intros _; [exact Hb|]. split; [reflexivity|]. split; [right; exact Hb|auto].
  - destruct (ack_loop (Z.to_nat (ssub resp (a s))) s) as [s1|] eqn:AL; [|discriminate E]. cbn [bind] in E. destruct (ack_loop_same _ _ _ AL) as (N1 & S1 & _).
    destruct (drain (length (notsent s1)) q s1 nak) as [(s2, o2)|] eqn:D; [|discriminate E]. cbn [bind] in E. injection E as <- <- <-.
    destruct (drain_tm q nak _ _ _ _ Hq (eq_trans S1 Hs) D) as (D1 & D2 & D3 & D4). split; [exact D1|].
    assert (Pre : fold_left onop (if negb (a s1 =? n s1) then [TAck] else [TStop; TAckReset]) b = behind s1) by (unfold behind; destruct (a s1 =? n s1); reflexivity).
    split; intros ->.
    + rewrite fold_left_app, Pre, on_tx. destruct D4 as [(D4 & D5)|(D4 & D5)].
      * rewrite D5, Bool.orb_false_r. unfold behind. rewrite D2, D4. reflexivity.
      * rewrite (D5 eq_refl), Bool.orb_true_r, (behind_pos _ D4). reflexivity.
    + split; [apply D3; reflexivity|]. split; [|discriminate]. rewrite Pre. destruct D4 as [(D4 & D5)|(D4 & D5)]; [right; unfold behind; rewrite D2, D4; reflexivity|left; exact D4].
Qed.
Lemma resend_tm : forall c t s s' o, retransmit_loop c t s = Ok (s', o) -> st s' = st s /\ a s' = a s /\ n s' = n s /\ asks o = match c with O => false | _ => true end.
Proof.
  induction c as [|c IH]; intros t s s' o E; cbn [retransmit_loop] in E; [injection E as <- <-; auto|]. destruct (unack s (sadd t 1)) as [d|]; [|discriminate E]. unfold tx_data in E.
  destruct (retransmit_loop c (sadd t 1) (set_ack s false)) as [(s2, o2)|] eqn:L; [|discriminate E]. cbn [bind] in E. injection E as <- <-. apply IH in L. destruct L as (L1 & L2 & L3 & _). cbn [set_ack st a n] in *. auto.
Qed.
Lemma finish_tm : forall s o s' o', then_finish s o = (s', o') -> st s' = st s /\ a s' = a s /\ n s' = n s /\ asks o' = asks o.
Proof.
  intros s o s' o' E. unfold then_finish, finish, send_ack in E. destruct (ackflag s); injection E as <- <-; cbn [set_ack st a n]; rewrite asks_app; cbn; rewrite Bool.orb_false_r; auto.
Qed.
Lemma behind_same : forall s s', a s' = a s -> n s' = n s -> behind s' = behind s.
Proof. intros s s' E1 E2. unfold behind. rewrite E1, E2. reflexivity. Qed.

(** ** One event *)
(** The timer as it should be. *)
Definition right_timer (s : stn) (b : bool) : Prop :=
  match st s with
  | Istart | Astart => b = true /\ n s = a s
  | Running => b = behind s
  | Maint => b = false
  | Off => True
  end.
Lemma right_restart : forall s s' o b, st s <> Istart -> do_restart s = (s', o) -> right_timer s' (fold_left onop (conn_tops ++ txtops o) b).
Proof.
  intros s s' o b H E. unfold do_restart, report_down in E. destruct (is_running s) eqn:R.
  - assert (Hs : st s = Running) by (unfold is_running in R; destruct (st s); auto; discriminate R). destruct (is_up s); cbn [set_up st] in E; rewrite Hs in E; unfold connected in E; injection E as <- <-; split; reflexivity.
  - destruct (st s); try contradiction; unfold connected in E; injection E as <- <-; split; reflexivity.
Qed.
Lemma right_recv : forall q s m s' o b, 1 <= q <= 255 -> inv q s -> st s = Running -> b = behind s -> running_recv q s m = Ok (s', o) ->
  right_timer s' (fold_left onop (pre_tops s (Recv m) ++ txtops o) b).
Proof.
  intros q s m s' o b Hq HI Hs Hb E. cbn [pre_tops]. rewrite Hs. destruct m as [resp num d|resp|code resp|num| | |d]; cbn [running_recv] in E.
  - destruct (process_ack q s resp false) as [((s1, o1), g)|] eqn:P; [|discriminate E]. cbn [bind] in E. cbv beta iota in E. destruct (ack_tm q false s resp s1 o1 g b ltac:(lia) Hs Hb P) as (S1 & H1 & _). specialize (H1 eq_refl). rewrite fold_left_app, on_tx in H1. rewrite fold_left_app, on_tx.
    destruct (negb (num =? sadd (r s1) 1)); [injection E as <- <-; unfold right_timer; rewrite S1; exact H1|].
    apply ok_inj in E. apply finish_tm in E. destruct E as (E1 & E2 & E3 & E4). cbn [set_ack set_r st a n] in *. unfold right_timer. rewrite E1, S1, E4, asks_app, (behind_same s1 s') by auto. cbn [asks txtops]. rewrite Bool.orb_false_r. exact H1.
  - destruct (process_ack q s resp false) as [((s1, o1), g)|] eqn:P; [|discriminate E]. cbn [bind] in E. cbv beta iota in E. destruct (ack_tm q false s resp s1 o1 g b ltac:(lia) Hs Hb P) as (S1 & H1 & _). specialize (H1 eq_refl). rewrite fold_left_app, on_tx in H1. rewrite fold_left_app, on_tx.
    apply ok_inj in E. apply finish_tm in E. destruct E as (E1 & E2 & E3 & E4). unfold right_timer. rewrite E1, S1, E4, (behind_same s1 s') by auto. exact H1.
  - destruct (process_ack q s resp true) as [((s1, o1), g)|] eqn:P; [|discriminate E]. cbn [bind] in E. cbv beta iota in E. destruct (ack_tm q true s resp s1 o1 g b ltac:(lia) Hs Hb P) as (S1 & _ & H1). destruct (H1 eq_refl) as (Q1 & Q2 & Q3). rewrite fold_left_app, on_tx.
    assert (I1 : exists N K R S, rel q s1 N K R S). { destruct HI as ((N & K & R & SS & HR) & _). destruct (process_ack_ok q Hq s N K R SS resp true HR ltac:(unfold is_running; rewrite Hs; reflexivity)) as (s2 & o2 & N2 & g2 & E2 & R2 & _). rewrite P in E2. injection E2 as <- _ _. eauto 8. }
    assert (B0 : behind s1 = true -> 0 < ssub (n s1) (a s1)).
    { destruct I1 as (N & K & R & SS & (C & _)). intros B. rewrite (pend_eq q Hq _ _ _ _ _ C). pose proof (rl_kn _ _ _ _ _ _ C) as L. unfold behind in B. rewrite (rl_a _ _ _ _ _ _ C), (rl_n _ _ _ _ _ _ C) in B. destruct (Z.eq_dec K N) as [->|]; [rewrite Z.eqb_refl in B; discriminate B|lia]. }
    destruct g; [|apply ok_inj in E; apply finish_tm in E; destruct E as (E1 & E2 & E3 & E4); destruct (Q3 eq_refl) as (-> & ->); unfold right_timer; rewrite E1, Hs, E4, Q1, Bool.orb_false_r, (behind_same s s') by auto; exact Hb].
    destruct (retransmit s1) as [(s2, o2)|] eqn:RT; [|discriminate E]. cbn [bind] in E. apply ok_inj in E. apply finish_tm in E. destruct E as (E1 & E2 & E3 & E4). apply resend_tm in RT. destruct RT as (R1 & R2 & R3 & R4).
    unfold right_timer. rewrite E1, R1, S1, E4, asks_app, Q1, R4, (behind_same s1 s') by congruence. cbn [orb].
    destruct (Z_lt_dec 0 (ssub (n s1) (a s1))) as [D|D].
    + destruct (Z.to_nat (ssub (n s1) (a s1))) eqn:Z0; [lia|]. rewrite Bool.orb_true_r, behind_pos by exact D. reflexivity.
    + destruct Q2 as [Q2|Q2]; [contradiction|]. replace (Z.to_nat (ssub (n s1) (a s1))) with O by lia. rewrite Bool.orb_false_r. exact Q2.
  - destruct (num =? r s).
    + apply ok_inj in E. apply finish_tm in E. destruct E as (E1 & E2 & E3 & E4). cbn [set_ack st a n] in *. cbn [app]. rewrite on_tx, E4. unfold right_timer. rewrite E1, Hs, (behind_same s s') by auto. cbn. rewrite Bool.orb_false_r. exact Hb.
    + unfold send_nak in E. apply ok_inj in E. apply finish_tm in E. destruct E as (E1 & E2 & E3 & E4). cbn [set_ack st a n] in *. cbn [app]. rewrite on_tx, E4. unfold right_timer. rewrite E1, Hs, (behind_same s s') by auto. cbn. rewrite Bool.orb_false_r. exact Hb.
  - apply ok_inj in E. apply (right_restart s _ _ _ ltac:(rewrite Hs; discriminate) E).
  - apply ok_inj in E. apply finish_tm in E. destruct E as (E1 & E2 & E3 & E4). cbn [set_ack st a n] in *. cbn [app]. rewrite on_tx, E4. unfold right_timer. rewrite E1, Hs, (behind_same s s') by auto. cbn. rewrite Bool.orb_false_r. exact Hb.
  - unfold report_down in E. cbn [init_state is_up] in E. destruct (is_up s); injection E as <- <-; reflexivity.
Qed.
Lemma right_enter : forall q s m s' o s1 o1 b, 1 <= q <= 255 -> inv q s -> st s = Astart -> n s = a s -> (exists resp, m = AckM resp) \/ (exists resp num d, m = DataM resp num d) ->
  running_state s false = (s1, o1) -> running_recv q s1 m = Ok (s', o) -> right_timer s' (fold_left onop (TStop :: pre_tops s1 (Recv m) ++ txtops (o1 ++ o)) b).
Proof.
  intros q s m s' o s1 o1 b Hq HI Hs Hn Hm E1 E2. destruct HI as ((N & K & R & SS & HR) & HA). destruct (running_state_ok q s false N K R SS HR) as (s2 & o2 & E3 & R2 & P2 & D2 & S2 & A2 & _). rewrite E1 in E3. injection E3 as <- <-.
  assert (X : a s1 = a s /\ n s1 = n s /\ txtops o1 = []) by (unfold running_state, report_up in E1; destruct (is_up s); cbn [negb] in E1; injection E1 as <- <-; auto). destruct X as (X1 & X2 & X3).
  rewrite txtops_app, X3. cbn [app fold_left onop]. apply (right_recv q s1 m s' o false Hq); auto; [split; [eauto 8|apply A2; exact HA]|]. unfold behind. rewrite X1, X2, Hn, Z.eqb_refl. reflexivity.
Qed.
Lemma right_step : forall q s e s' o b, 1 <= q <= 255 -> inv q s -> right_timer s b -> e <> Timeout -> step q s e = Ok (s', o) -> right_timer s' (fold_left onop (pre_tops s e ++ txtops o) b).
Proof.
  intros q s e s' o b Hq HI HT NT E.
  assert (Keep : s' = s -> o = [] -> pre_tops s e = [] -> right_timer s' (fold_left onop (pre_tops s e ++ txtops o) b)) by (intros -> -> ->; exact HT).
  assert (Snd : forall d, e = Send d -> right_timer s' (fold_left onop (pre_tops s e ++ txtops o) b)).
  { intros d ->. cbn [step pre_tops app] in *. unfold send in E. destruct (is_running s) eqn:R; [|injection E as <- <-; exact HT].
    assert (Hs : st s = Running) by (unfold is_running in R; destruct (st s); auto; discriminate R). unfold right_timer in *. rewrite Hs in HT.
    destruct (cansend q s) eqn:CS; cbn [negb] in E; [|injection E as <- <-; cbn [set_tx st]; rewrite Hs; exact HT].
    destruct (unack s (sadd (n s) 1)); [discriminate E|]. injection E as <- <-. cbn [set_ack set_tx st]. rewrite Hs. cbn [txtops tx_top app fold_left onop]. symmetry. apply behind_pos. cbn [set_ack set_tx n a].
    unfold cansend in CS. apply Z.ltb_lt in CS. unfold ssub, sadd in *. rewrite Zminus_mod_idemp_l. replace (n s + 1 - a s) with (n s - a s + 1) by lia. rewrite <- Zplus_mod_idemp_l. pose proof (Z.mod_pos_bound (n s - a s) 256 ltac:(lia)). rewrite Z.mod_small; lia. }
  destruct e as [| | | |m|code resp|d]; try contradiction; try (apply (Snd d); reflexivity).
  - cbn [step] in E. destruct (st s) eqn:Hs; try (injection E as <- <-; unfold pre_tops; rewrite Hs; exact HT).
    + injection E as <- <-. cbn [pre_tops]. rewrite Hs. split; reflexivity.
    + apply ok_inj in E. apply finish_tm in E. destruct E as (E1 & E2 & E3 & E4). cbn [pre_tops]. rewrite Hs. cbn [app]. rewrite on_tx, E4. cbn. rewrite Bool.orb_false_r. unfold right_timer in *. rewrite E1. rewrite Hs in *. rewrite (behind_same s s') by auto. exact HT.
  - cbn [step] in E. unfold report_down in E. destruct (is_up s); injection E as <- <-; exact I.
  - cbn [step pre_tops] in *. destruct (st s) eqn:Hs; try (injection E as <- <-; exact HT); apply ok_inj in E; apply (right_restart s); auto; congruence.
  - cbn [step] in E. destruct (st s) eqn:Hs.
    + injection E as <- <-. unfold pre_tops. rewrite Hs. exact HT.
    + unfold right_timer in HT. rewrite Hs in HT. destruct HT as (HB & HN). cbn [pre_tops]. rewrite Hs. destruct m as [resp num d|resp|code resp|num| | |d]; try (injection E as <- <-; cbn [app txtops fold_left]; unfold right_timer; rewrite Hs; auto).
      * injection E as <- <-. split; [reflexivity|exact HN].
      * apply ok_inj in E. unfold running_state, report_up, send_ack in E. destruct (is_up s); cbn [negb set_up set_st] in E; injection E as <- <-; unfold right_timer, behind; cbn [set_ack set_st set_up st a n]; rewrite HN, Z.eqb_refl; reflexivity.
      * injection E as <- <-. reflexivity.
    + unfold right_timer in HT. rewrite Hs in HT. destruct HT as (HB & HN). cbn [pre_tops]. rewrite Hs. destruct m as [resp num d|resp|code resp|num| | |d]; try (injection E as <- <-; cbn [app txtops fold_left]; unfold right_timer; rewrite Hs; auto).
      * destruct (resp =? 0); [|injection E as <- <-; unfold right_timer; rewrite Hs; auto]. destruct (running_state s false) as (s1, o1) eqn:E1. destruct (running_recv q s1 (DataM resp num d)) as [(s2, o2)|] eqn:E2; [|discriminate E]. cbn [bind] in E. injection E as <- <-.
        assert (S1 : st s1 = Running) by (unfold running_state, report_up in E1; destruct (is_up s); cbn [negb] in E1; injection E1 as <- _; reflexivity).
        pose proof (right_enter q s _ s2 o2 s1 o1 b Hq HI Hs HN ltac:(right; eauto) E1 E2) as X. cbn [pre_tops fst] in *. rewrite S1 in X. exact X.
      * destruct (resp =? 0); [|injection E as <- <-; unfold right_timer; rewrite Hs; auto]. destruct (running_state s false) as (s1, o1) eqn:E1. destruct (running_recv q s1 (AckM resp)) as [(s2, o2)|] eqn:E2; [|discriminate E]. cbn [bind] in E. injection E as <- <-.
        assert (S1 : st s1 = Running) by (unfold running_state, report_up in E1; destruct (is_up s); cbn [negb] in E1; injection E1 as <- _; reflexivity).
        pose proof (right_enter q s _ s2 o2 s1 o1 b Hq HI Hs HN ltac:(left; eauto) E1 E2) as X. cbn [pre_tops fst] in *. rewrite S1 in X. exact X.
      * apply ok_inj in E. unfold running_state, report_up, send_ack in E. destruct (is_up s); cbn [negb set_up set_st] in E; injection E as <- <-; unfold right_timer, behind; cbn [set_ack set_st set_up st a n]; rewrite HN, Z.eqb_refl; reflexivity.
      * injection E as <- <-. reflexivity.
    + unfold right_timer in HT. rewrite Hs in HT. apply (right_recv q s m s' o b Hq HI Hs HT E).
    + unfold right_timer in HT. rewrite Hs in HT. cbn [pre_tops]. rewrite Hs. destruct m; try (injection E as <- <-; unfold right_timer; rewrite Hs; exact HT). apply ok_inj in E. apply (right_restart s); auto. congruence.
  - cbn [step pre_tops] in *. destruct (st s) eqn:Hs; try (injection E as <- <-; exact HT). unfold right_timer in HT. rewrite Hs in HT.
    destruct resp as [x|].
    + destruct (process_ack q s x false) as [((s1, o1), g)|] eqn:P; [|discriminate E]. cbn [bind] in E. unfold send_nak in E. apply ok_inj in E. apply finish_tm in E. destruct E as (E1 & E2 & E3 & E4). cbn [set_ack st a n] in *.
      destruct (ack_tm q false s x s1 o1 g b ltac:(lia) Hs HT P) as (S1 & H1 & _). specialize (H1 eq_refl). rewrite fold_left_app, on_tx in *. unfold right_timer. rewrite E1, S1, E4, asks_app, (behind_same s1 s') by auto. cbn. rewrite Bool.orb_false_r. exact H1.
    + cbn [bind] in E. unfold send_nak in E. apply ok_inj in E. apply finish_tm in E. destruct E as (E1 & E2 & E3 & E4). cbn [set_ack st a n] in *. cbn [app]. rewrite on_tx, E4. cbn. rewrite Bool.orb_false_r. unfold right_timer. rewrite E1, Hs, (behind_same s s') by auto. exact HT.
Qed.

(** ** Runs *)
Definition bk_ok (b : backoff) : Prop := 1 <= low b /\ low b <= current b <= high b /\ high b <= 120.
Definition times_ok (t : timer) : Prop := bk_ok (acktmr t) /\ bk_ok (stacktmr t) /\ forall k, due t = Some k -> 1 <= k <= 120.
Lemma times_do : forall t x, times_ok t -> times_ok (tdo t x).
Proof.
  intros t x ((A1 & A2 & A3) & (B1 & B2 & B3) & D). destruct x; unfold times_ok, bk_ok, tdo, backoff_next, backoff_reset; cbn [due acktmr stacktmr low high current].
  - split; [auto|]. split; [auto|]. discriminate.
  - split; [lia|]. split; [lia|]. intros k E. injection E as <-. lia.
  - split; [lia|]. split; [lia|]. intros k E. injection E as <-. lia.
  - split; [lia|]. split; [lia|]. exact D.
  - split; [lia|]. split; [lia|]. exact D.
Qed.
Lemma times_fold : forall l t, times_ok t -> times_ok (fold_left tdo l t).
Proof. induction l as [|x l IH]; intros t H; [exact H|]. cbn [fold_left]. apply IH, times_do, H. Qed.
Definition tinv (q : Z) (x : timed) : Prop := inv q (fst x) /\ right_timer (fst x) (on (snd x)) /\ times_ok (snd x).
Lemma timeout_does : forall q s t s' t' o, 1 <= q <= 255 -> inv q s -> right_timer s true -> st s <> Off -> times_ok t -> do_event q (s, t) Timeout = Ok (s', t', o) ->
  s' = s /\ on t' = true /\ times_ok t' /\ waits s /\ txs o = [match st s with Istart => StartM | Astart => StackM | _ => RepM (n s) end].
Proof.
  intros q s t s' t' o Hq (_ & HA) HT NO Ht E. unfold do_event in E. destruct (step q s Timeout) as [(s1, o1)|] eqn:ES; [|discriminate E]. cbn [bind] in E. injection E as <- <- <-.
  assert (X : s1 = s /\ waits s /\ asks o1 = true /\ txs o1 = [match st s with Istart => StartM | Astart => StackM | _ => RepM (n s) end]).
  { cbn [step] in ES. unfold right_timer, waits in *. destruct (st s) eqn:Hs; try contradiction; try discriminate HT.
    - injection ES as <- <-. auto.
    - injection ES as <- <-. auto.
    - unfold send_rep, then_finish, finish in ES. rewrite HA in ES. injection ES as <- <-. split; [reflexivity|]. split; [|auto]. unfold behind in HT. destruct (Z.eqb_spec (a s) (n s)) as [Q|Q]; [discriminate HT|]. congruence. }
  destruct X as (X1 & X2 & X3 & X4). split; [exact X1|]. split; [rewrite on_fold, fold_left_app, on_tx, X3, Bool.orb_true_r; reflexivity|]. split; [apply times_fold; exact Ht|auto].
Qed.
Lemma tinv_step : forall q x v x' o, 1 <= q <= 255 -> tinv q x -> v <> Ev Timeout -> tstep q x v = Ok (x', o) -> tinv q x'.
Proof.
  intros q (s, t) v (s', t') o Hq (HI & HT & HB) NT E. unfold tinv. cbn [fst snd] in *. destruct v as [e|].
  - cbn [tstep do_event] in E. destruct (step q s e) as [(s1, o1)|] eqn:ES; [|discriminate E]. cbn [bind] in E. injection E as <- <- <-.
    destruct (inv_step q s e Hq HI) as (s2 & o2 & E2 & I2). rewrite ES in E2. injection E2 as <- _. split; [exact I2|]. split; [|apply times_fold; exact HB]. rewrite on_fold. apply (right_step q s e s1 o1 _ Hq HI HT ltac:(congruence) ES).
  - cbn [tstep] in E. destruct (due t) as [k|] eqn:D; [|injection E as <- <- <-; auto]. destruct (1 <? k) eqn:K.
    + injection E as <- <- <-. split; [exact HI|]. split; [unfold on in *; rewrite D in HT; exact HT|]. destruct HB as (B1 & B2 & B3). split; [exact B1|]. split; [exact B2|]. intros j EJ. cbn [due] in EJ. injection EJ as <-. specialize (B3 k D). lia.
    + assert (HT' : right_timer s true) by (unfold on in HT; rewrite D in HT; exact HT). destruct (st s) eqn:Hs.
      * unfold do_event in E. cbn [step] in E. rewrite Hs in E. cbn [bind] in E. injection E as <- <- <-. split; [exact HI|]. split; [unfold right_timer; rewrite Hs; exact I|]. apply times_fold. apply (times_do _ TStop HB).
      * destruct (timeout_does q s _ s' t' o Hq HI HT' ltac:(congruence) (times_do _ TStop HB) E) as (-> & -> & T & _). auto.
      * destruct (timeout_does q s _ s' t' o Hq HI HT' ltac:(congruence) (times_do _ TStop HB) E) as (-> & -> & T & _). auto.
      * destruct (timeout_does q s _ s' t' o Hq HI HT' ltac:(congruence) (times_do _ TStop HB) E) as (-> & -> & T & _). auto.
      * unfold right_timer in HT'. rewrite Hs in HT'. discriminate HT'.
Qed.
Lemma tinv_run : forall q l x x' o, 1 <= q <= 255 -> tinv q x -> ~ In (Ev Timeout) l -> trun q x l = Ok (x', o) -> tinv q x'.
Proof.
  induction l as [|v l IH]; intros x x' o Hq HI NI E; cbn [trun] in E; [injection E as <- _; exact HI|].
  destruct (tstep q x v) as [(x1, o1)|] eqn:E1; [|discriminate E]. cbn [bind] in E. destruct (trun q x1 l) as [(x2, o2)|] eqn:E2; [|discriminate E]. cbn [bind] in E. injection E as <- _.
  apply (IH x1 x2 o2 Hq); auto; [apply (tinv_step q x v x1 o1 Hq HI); auto|]; intros X; apply NI; [left; auto|right; auto].
Qed.
(** What can be reached, the backoffs having limits of at most two minutes;
    timeouts happen only when the timer expires. *)
Definition reached (q : Z) (x : timed) : Prop :=
  exists ab sb l o, bk_ok ab /\ bk_ok sb /\ ~ In (Ev Timeout) l /\ trun q (station, timer0 ab sb) l = Ok (x, o).
Lemma reached_inv : forall q x, 1 <= q <= 255 -> reached q x -> tinv q x.
Proof.
  intros q x Hq (ab & sb & l & o & Ba & Bs & NI & E). apply (tinv_run q l _ _ o Hq) in E; [exact E| |exact NI].
  split; [apply inv_station; exact Hq|]. split; [exact I|]. split; [exact Ba|]. split; [exact Bs|]. discriminate.
Qed.

(** *** The timer runs exactly while the station waits for an answer. *)
Theorem timer_runs : forall q s t, 1 <= q <= 255 -> reached q (s, t) -> st s <> Off ->
  (waits s <-> due t <> None) /\ (forall k, due t = Some k -> 1 <= k <= 120).
Proof.
  intros q s t Hq HR NO. destruct (reached_inv q _ Hq HR) as (HI & HT & (_ & _ & HB)). cbn [fst snd] in *. split; [|exact HB].
  unfold right_timer, waits, on, behind in *. destruct (st s); try contradiction; destruct (due t).
  - split; intros _; [discriminate|exact I].
  - destruct HT as (HT & _). discriminate HT.
  - split; intros _; [discriminate|exact I].
  - destruct HT as (HT & _). discriminate HT.
  - split; intros _; [discriminate|]. intros X. rewrite X, Z.eqb_refl in HT. discriminate HT.
  - split; intros X; [|contradiction]. destruct (Z.eqb_spec (a s) (n s)) as [Q|Q]; [congruence|discriminate HT].
  - discriminate HT.
  - split; [contradiction|intros X; apply X; reflexivity].
Qed.
Print Assumptions timer_runs.

(** *** If nothing else happens, the message that asks for an answer is sent
    after at most two minutes. *)
Lemma seconds : forall q s t k j, due t = Some k -> 0 <= j < k -> trun q (s, t) (repeat Second (Z.to_nat j)) = Ok (s, {| due := Some (k - j); acktmr := acktmr t; stacktmr := stacktmr t |}, []).
Proof.
  intros q s t k j D Hj. remember (Z.to_nat j) as m eqn:Em. revert t k j D Hj Em. induction m as [|m IH]; intros t k j D Hj Em; cbn [repeat trun].
  - replace (k - j) with k by lia. rewrite <- D. destruct t. reflexivity.
  - cbn [tstep]. rewrite D. replace (1 <? k) with true by lia. cbn [bind]. rewrite (IH _ (k - 1) (j - 1)) by (cbn [due]; first [reflexivity|lia]). cbn [bind app acktmr stacktmr]. do 4 f_equal. f_equal. lia.
Qed.
Lemma trun_app : forall q l1 l2 x x1 o1, trun q x l1 = Ok (x1, o1) -> trun q x (l1 ++ l2) = (let* (x2, o2) := trun q x1 l2 in Ok (x2, o1 ++ o2)).
Proof.
  induction l1 as [|v l1 IH]; intros l2 x x1 o1 E; cbn [trun app] in *; [injection E as <- <-; destruct (trun q x l2) as [(x2, o2)|]; reflexivity|].
  destruct (tstep q x v) as [(y, oy)|]; [|discriminate E]. cbn [bind] in *. destruct (trun q y l1) as [(y1, o2)|] eqn:E1; [|discriminate E]. cbn [bind] in E. injection E as <- <-. rewrite (IH l2 y y1 o2 E1).
  destruct (trun q y1 l2) as [(x2, o3)|]; cbn [bind]; rewrite ?app_assoc; reflexivity.
Qed.
Theorem timer_expires : forall q s t, 1 <= q <= 255 -> reached q (s, t) -> waits s ->
  exists k t' o, 1 <= k <= 120 /\ due t = Some k /\ trun q (s, t) (repeat Second (Z.to_nat k)) = Ok (s, t', o) /\
    txs o = [match st s with Istart => StartM | Astart => StackM | _ => RepM (n s) end] /\ exists k', due t' = Some k' /\ 1 <= k' <= 120.
Proof.
  intros q s t Hq HR HW. assert (NO : st s <> Off) by (intros X; unfold waits in HW; rewrite X in HW; exact HW). destruct (timer_runs q s t Hq HR NO) as (R1 & R2). apply R1 in HW.
  destruct (reached_inv q _ Hq HR) as (HI & HT & HB). cbn [fst snd] in *. destruct (due t) as [k|] eqn:D; [|contradiction]. specialize (R2 k eq_refl).
  assert (HT' : right_timer s true) by (unfold on in HT; rewrite D in HT; exact HT).
  set (t1 := {| due := Some (k - (k - 1)); acktmr := acktmr t; stacktmr := stacktmr t |}).
  assert (B1 : times_ok (tdo t1 TStop)) by (destruct HB as (B1 & B2 & _); split; [exact B1|split; [exact B2|discriminate]]).
  assert (ES : exists s' t' o, do_event q (s, tdo t1 TStop) Timeout = Ok (s', t', o)).
  { destruct (inv_step q s Timeout Hq HI) as (s2 & o2 & E2 & _). unfold do_event. rewrite E2. cbn [bind]. eauto. }
  destruct ES as (s' & t' & o & ES). destruct (timeout_does q s _ s' t' o Hq HI HT' NO B1 ES) as (-> & ON & B2 & _ & X).
  exists k, t', o. split; [exact R2|]. split; [reflexivity|]. split.
  - replace (Z.to_nat k) with (Z.to_nat (k - 1) + 1)%nat by lia. rewrite repeat_app, (trun_app _ _ _ _ _ _ (seconds q s t k (k - 1) D ltac:(lia))). cbn [repeat trun tstep]. fold t1. cbn [due t1]. replace (1 <? k - (k - 1)) with false by lia. rewrite ES. cbn [bind app]. rewrite app_nil_r. reflexivity.
  - split; [exact X|]. unfold on in ON. destruct (due t') as [k'|] eqn:D'; [|discriminate ON]. exists k'. split; [reflexivity|]. apply B2. exact D'.
Qed.
Print Assumptions timer_expires.

(** *** But it is put off by whatever the other station sends.  (So what C65
    assumes, a timeout while the station waits, need not come.) *)
(** After [gap] seconds a data message that does not acknowledge anything new. *)
Definition unhelpful (ackd : Z) (x : nat * Z * list Z) : list tev :=
  let '(gap, num, d) := x in repeat Second gap ++ [Ev (Recv (DataM ackd num d))].
Lemma unhelpful_step : forall q s t k num d, 1 <= q <= 255 -> inv q s -> st s = Running -> behind s = true -> bk_ok (acktmr t) -> due t = Some k ->
  exists s' t' o, tstep q (s, t) (Ev (Recv (DataM (a s) num d))) = Ok (s', t', o) /\ inv q s' /\ st s' = Running /\ a s' = a s /\ n s' = n s /\ notsent s' = notsent s /\
    Forall (fun m => m = AckM (r s')) (txs o) /\ due t' = Some (current (acktmr t)) /\ acktmr t' = fst (backoff_next (acktmr t)).
Proof.
  intros q s t k num d Hq HI Hs HB Bk D. pose proof HI as ((N & K & R & SS & HR) & HA). pose proof HR as (C & _ & W). pose proof (rl_kn _ _ _ _ _ _ C) as KN.
  assert (PA : process_ack q s (a s) false = Ok (s, [], true)).
  { unfold process_ack. replace (ssub (a s) (a s)) with 0 by (unfold ssub; rewrite Z.sub_diag; reflexivity). rewrite (pend_eq q Hq _ _ _ _ _ C). replace (N - K <? 0) with false by lia. cbn [Z.to_nat ack_loop bind].
    destruct (notsent s) as [|x l] eqn:EN; [reflexivity|]. cbn [length drain]. unfold cansend. rewrite (pend_eq q Hq _ _ _ _ _ C). specialize (W ltac:(discriminate)). replace (N - K <? q) with false by lia. reflexivity. }
  assert (AT : ack_tops s (a s) = [TAck]).
  { unfold ack_tops. replace (ssub (a s) (a s)) with 0 by (unfold ssub; rewrite Z.sub_diag; reflexivity). rewrite (pend_eq q Hq _ _ _ _ _ C). replace (N - K <? 0) with false by lia. cbn [Z.to_nat ack_loop]. unfold behind in HB. rewrite HB. reflexivity. }
  destruct (inv_step q s (Recv (DataM (a s) num d)) Hq HI) as (s2 & o2 & E2 & I2). cbn [tstep do_event]. rewrite E2. cbn [bind pre_tops]. rewrite Hs, AT. cbn [step] in E2. rewrite Hs in E2. cbn [running_recv] in E2. rewrite PA in E2. cbn [bind] in E2. cbv beta iota in E2.
  destruct (negb (num =? sadd (r s) 1)).
  - injection E2 as <- <-. eexists _, _, _. split; [reflexivity|]. repeat (split; [first [reflexivity|assumption|constructor]|]). reflexivity.
  - unfold then_finish, finish in E2. cbn [set_ack ackflag set_r] in E2. unfold send_ack in E2. injection E2 as <- <-. eexists _, _, _. split; [reflexivity|]. split; [exact I2|]. split; [exact Hs|]. repeat (split; [first [reflexivity|assumption|repeat constructor]|]). reflexivity.
Qed.
Theorem timer_put_off : forall q s t k g l, 1 <= q <= 255 -> reached q (s, t) -> st s = Running -> n s <> a s ->
  due t = Some k -> g < k -> g < current (acktmr t) -> (forall x, In x l -> Z.of_nat (fst (fst x)) <= g) ->
  exists s' t' o, trun q (s, t) (flat_map (unhelpful (a s)) l) = Ok (s', t', o) /\
    a s' = a s /\ n s' = n s /\ forall m, In m (txs o) -> exists i, m = AckM i.
Proof.
  intros q s t k g l Hq HR Hs Hn D H1 H2 H3. destruct (reached_inv q _ Hq HR) as (HI & _ & (Bk & _ & _)). cbn [fst snd] in *.
  assert (HB : behind s = true) by (unfold behind; destruct (Z.eqb_spec (a s) (n s)); [congruence|reflexivity]). clear HR Hn.
  revert s t k HI Hs HB Bk D H1 H2. induction l as [|((gap, num), d) l IH]; intros s t k HI Hs HB Bk D H1 H2.
  - exists s, t, []. split; [reflexivity|]. split; [reflexivity|]. split; [reflexivity|]. intros m [].
  - cbn [flat_map unhelpful]. pose proof (H3 _ (or_introl eq_refl)) as G. cbn [fst] in G.
    pose proof (seconds q s t k (Z.of_nat gap) D ltac:(lia)) as SE. rewrite Nat2Z.id in SE. set (t1 := {| due := Some (k - Z.of_nat gap); acktmr := acktmr t; stacktmr := stacktmr t |}) in *.
    destruct (unhelpful_step q s t1 (k - Z.of_nat gap) num d Hq HI Hs HB Bk eq_refl) as (s1 & t2 & o1 & E1 & I1 & S1 & A1 & N1 & NS1 & F1 & D1 & AK1).
    pose proof Bk as (L1 & L2 & L3). destruct (IH ltac:(intros; apply H3; right; assumption) s1 t2 (current (acktmr t))) as (s' & t' & o & E & A' & N' & F'); auto.
    + rewrite (behind_same s s1); auto.
    + rewrite AK1. unfold bk_ok, backoff_next. cbn [fst low high current t1 acktmr]. lia.
    + rewrite AK1. unfold backoff_next. cbn [fst current t1 acktmr]. lia.
    + exists s', t', (o1 ++ o). rewrite <- app_assoc. rewrite (trun_app _ _ _ _ _ _ SE). cbn [app trun]. rewrite E1. cbn [bind]. rewrite A1 in E. rewrite E. cbn [bind app].
      split; [reflexivity|]. split; [congruence|]. split; [congruence|]. intros m IM. rewrite txs_app in IM. apply in_app_or in IM. destruct IM as [IM|IM]; [|auto]. rewrite Forall_forall in F1. eauto.
Qed.
Print Assumptions timer_put_off.

(** A message is sent and gets lost; five messages arrive soon, from then on
    one every 15 seconds (routing hellos): however long that goes on, the other
    station is not asked about the lost message, nor is it sent again. *)
Definition burst : list tev :=
  [Ev Connected; Ev (Recv StartM); Second; Ev (Recv StackM); Ev (Send [1; 2; 3])] ++ map (fun i => Ev (Recv (DataM 0 i [i]))) [1; 2; 3; 4; 5].
Theorem reply_timer_refuted : exists s t o, trun 7 (station, timer0 {| low := 1; high := 60; current := 1; tries := 0 |} {| low := 3; high := 120; current := 3; tries := 0 |}) burst = Ok (s, t, o) /\
  In (DataM 0 1 [1; 2; 3]) (txs o) /\ n s = 1 /\
  forall hellos, exists s' t' o', trun 7 (s, t) (flat_map (unhelpful 0) (map (fun x => (15%nat, fst x, snd x)) hellos)) = Ok (s', t', o') /\ a s' = 0 /\ n s' = 1 /\ forall m, In m (txs o') -> exists i, m = AckM i.
Proof.
  assert (E : exists s t o, trun 7 (station, timer0 {| low := 1; high := 60; current := 1; tries := 0 |} {| low := 3; high := 120; current := 3; tries := 0 |}) burst = Ok (s, t, o) /\
    In (DataM 0 1 [1; 2; 3]) (txs o) /\ st s = Running /\ n s = 1 /\ a s = 0 /\ due t = Some 32 /\ current (acktmr t) = 60).
  { vm_compute. eexists _, _, _. split; [reflexivity|]. split; [auto 10|]. repeat split. }
  destruct E as (s & t & o & E & IN & Hs & Hn & HA & D & CU). exists s, t, o. split; [exact E|]. split; [exact IN|]. split; [exact Hn|]. intros hellos.
  destruct (timer_put_off 7 s t 32 15 (map (fun x => (15%nat, fst x, snd x)) hellos)) as (s' & t' & o' & E' & A' & N' & F'); try lia; auto.
  - eexists _, _, burst, o. split; [|split; [|split; [|exact E]]]; [unfold bk_ok; cbn; lia|unfold bk_ok; cbn; lia|]. cbn. intros X. repeat (destruct X as [X|X]; [discriminate X|]). exact X.
  - intros x IX. apply in_map_iff in IX. destruct IX as (y & <- & _). cbn. lia.
  - rewrite HA in E', A'. exists s', t', o'. split; [exact E'|]. split; [exact A'|]. split; [congruence|exact F'].
Qed.
