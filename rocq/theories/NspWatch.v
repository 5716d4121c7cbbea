(** A connection that is being disconnected: the Disconnect Initiate waits for its
    answer, and its retransmission timer runs. *)
From Verif Require Import Base Dict ModuloModel PacketModel NspPktModel NspModel NspFrame NspPrim NspRx NspRxProps NspNodeProps NspLife.

Definition dying (c : conn) (e : txe) : Prop :=
  pending (cdata c) = [e] /\ is_di (tp e) = true /\ ttimer e = true /\ tsent e = true /\ 1 <= ttries e /\ exists b, encode (tp e) = Ok b.
Definition watched (c : conn) (q : npkt) : Prop := (exists e, dying c e /\ tp e = q) /\ exists g, In (OTx q g) (clog c).
Lemma watched_same : forall c c' q, incl (clog c) (clog c') -> pending (cdata c') = pending (cdata c) -> watched c q -> watched c' q.
Proof. intros c c' q I E ((e & (P & X) & T) & (g & G)). split; [|exists g; apply I; exact G]. exists e. split; [split; [congruence|exact X]|exact T]. Qed.
Lemma frame_incl : forall c c', frame c c' -> incl (clog c) (clog c').
Proof. intros c c' F. destruct (fr_log _ _ F) as (l & -> & _). apply incl_appl, incl_refl. Qed.
Ltac lg := first [apply incl_refl | apply incl_appl, incl_refl].
Definition kept_ids (c c' : conn) : Prop := cst c' = cst c /\ cdst c' = cdst c /\ csrc c' = csrc c /\ cdisc c' = cdisc c /\ cshut c' = cshut c.
Lemma kept_ids_trans : forall a b c, kept_ids a b -> kept_ids b c -> kept_ids a c.
Proof. intros a b c (A1 & A2 & A3 & A4 & A5) (B1 & B2 & B3 & B4 & B5). repeat split; congruence. Qed.
Lemma frame_ids : forall c c', frame c c' -> kept_ids c c'. Proof. intros c c' F. repeat split; apply F. Qed.
Definition calm (c c' : conn) : Prop := kept_ids c c' /\ (forall q, watched c q -> watched c' q).
Lemma calm_refl : forall c, calm c c. Proof. intros c. split; [repeat split|auto]. Qed.
Lemma calm_trans : forall a b c, calm a b -> calm b c -> calm a c. Proof. intros a b c [A1 A2] [B1 B2]. split; [eapply kept_ids_trans; eauto|auto]. Qed.
Lemma calm_same : forall c c', kept_ids c c' -> incl (clog c) (clog c') -> pending (cdata c') = pending (cdata c) -> calm c c'.
Proof. intros c c' S I P. split; [exact S|]. intros q. now apply watched_same. Qed.
Lemma send_ack_pend : forall c ch c' k, send_ack c ch = Ok c' -> pending (getc c' k) = pending (getc c k).
Proof.
  intros c ch c' k H. unfold send_ack in H. destruct (set_acks _ ch true _ _) as [[c1 p1] g] eqn:A. apply set_acks_frame in A as (_ & _ & A).
  unfold sendmsg in H. destruct (encode p1); cbn [bind] in H; [|discriminate]. injection H as <-. destruct (A k) as (P & _).
  change (pending (getc c1 k) = pending (getc c k)). rewrite P. destruct ch, k; reflexivity.
Qed.
Lemma send_ack_calm : forall c ch c', send_ack c ch = Ok c' -> calm c c'.
Proof. intros c ch c' H. apply calm_same; [apply frame_ids, (send_ack_frame _ _ _ H)|apply frame_incl, (send_ack_frame _ _ _ H)|apply (send_ack_pend c ch c' CD H)]. Qed.
(** The other subchannel does not touch the queue. *)
Lemma tx_send_other : forall c i c', tx_send c CO i = Ok c' -> pending (cdata c') = pending (cdata c).
Proof.
  intros c i c' H. unfold tx_send in H. destruct (nth_error _ i) as [e|]; [|discriminate]. destruct (fill_packet c CO e) as [[c1 p1] g] eqn:FE.
  assert (P1 : pending (getc c1 CD) = pending (getc c CD)).
  { unfold fill_packet in FE. destruct (tp e); cbn [is_ackhdr] in FE; try (injection FE as <- <- <-; reflexivity); apply set_acks_frame in FE as (_ & _ & FE); apply (FE CD). }
  unfold sendmsg in H. destruct (encode p1); cbn [bind] in H; [|discriminate]. injection H as <-. exact P1.
Qed.
(** Transmission of a Disconnect Initiate. *)
Lemma tx_send_di : forall c e c', pending (cdata c) = [e] -> is_di (tp e) = true -> 0 <= ttries e -> tx_send c CD 0 = Ok c' ->
  (exists e', dying c' e' /\ tp e' = tp e /\ ttries e' = ttries e + 1) /\ kept_ids c c' /\ exists g, clog c' = clog c ++ [OTx (tp e) g].
Proof.
  intros c e c' P D T H. unfold tx_send in H. cbn [getc] in H. rewrite P in H. cbn [nth_error] in H. unfold fill_packet in H. destruct (tp e) eqn:TP; try discriminate D.
  cbn [is_ackhdr putc getc] in H. rewrite P in H. cbn [upd] in H. unfold sendmsg in H. destruct (encode _) as [b|] eqn:EN; cbn [bind] in H; [|discriminate]. injection H as <-.
  split; [|split; [repeat split|eexists; reflexivity]]. eexists. split; [split; [reflexivity|]|split; [reflexivity|reflexivity]]. cbn [tp ttimer tsent ttries is_di].
  split; [reflexivity|]. split; [reflexivity|]. split; [reflexivity|]. split; [lia|]. exists b. exact EN.
Qed.
Lemma disc_watched : forall cfg c r x c1, disc_rej cfg c r x = Ok c1 -> watched c1 (NDI (cdst c) (csrc c) r x) /\ kept_ids c c1.
Proof.
  intros cfg c r x c1 H. unfold disc_rej in H. destruct (_ || _ || _); [discriminate|]. split; [|apply data_send_frame, frame_ids in H; exact H]. unfold data_send in H. cbn [make_entry] in H. cbn [cdata set_coth set_cdata set_ctimer sub_close pending set_ooo set_pending app length] in H.
  unfold send_qe in H. cbn [cdata set_cdata pending set_pending nth_error tp is_data andb] in H.
  destruct (tx_send _ CD 0) as [c2|] eqn:E; cbn [bind] in H; [|discriminate]. cbn [andb] in H. injection H as <-.
  eapply tx_send_di in E; [|reflexivity|reflexivity|cbn [ttries]; lia]. destruct E as ((e & W & T & _) & _ & (g & G)). split; [exists e; split; [exact W|exact T]|]. exists g. rewrite G. apply in_or_app. right. left. reflexivity.
Qed.
Lemma blocked_watched : forall cfg c c' q, watched c q -> send_blocked cfg c = Ok c' -> c' = c.
Proof.
  intros cfg c c' q ((e & (P & D & T & S & _) & _) & _) H. unfold send_blocked in H. rewrite P in H. cbn [length blocked_loop] in H. rewrite P in H. cbn [nth_error] in H. rewrite S in H. cbn [bind] in H.
  destruct (is_data (tp e)) eqn:ID; [destruct (tp e); discriminate|]. cbn [bind] in H. now injection H.
Qed.
Lemma blocked_calm : forall cfg c c', send_blocked cfg c = Ok c' -> calm c c'.
Proof. intros cfg c c' H. split; [apply frame_ids, (send_blocked_frame _ _ _ H)|]. intros q W. rewrite (blocked_watched _ _ _ _ W H). exact W. Qed.
Lemma to_sc_calm : forall c p r, calm c (to_sc c p r).
Proof. intros c p r. apply calm_same; destruct p; try reflexivity; try (repeat split; fail); try lg; cbn [to_sc]; destruct (casm c); destruct (_ =? 0); first [reflexivity|lg|repeat split]. Qed.
Lemma to_sc_ok_calm : forall c p r c', Ok (to_sc c p r) = Ok c' -> calm c c'.
Proof. intros c p r c' H. injection H as <-. apply to_sc_calm. Qed.
Lemma process_data_calm : forall cfg c ch p c', process_data cfg c ch p = Ok c' -> calm c c'.
Proof.
  intros cfg c ch p c' H. unfold process_data in H. eapply calm_trans; [apply (calm_same c (emit c (ODeliver ch p))); [repeat split|lg|reflexivity]|]. set (c0 := emit c (ODeliver ch p)) in *. clearbody c0. clear c.
  destruct ch; [exact (to_sc_ok_calm _ _ _ _ H)|]. destruct p; try (exact (to_sc_ok_calm _ _ _ _ H)).
  destruct (_ =? 0) in H.
  - unfold data_ls in H. assert (G : forall s2, pending s2 = pending (cdata c0) -> send_blocked cfg (set_cdata c0 s2) = Ok c' -> calm c0 c').
    { intros s2 E B. eapply calm_trans; [|eapply blocked_calm; exact B]. apply calm_same; [repeat split|lg|exact E]. }
    repeat match type of H with context [if ?x then _ else _] => destruct x end; cbn [negb] in H; try (injection H as <-; apply calm_refl); (eapply G; [|exact H]); reflexivity.
  - injection H as <-. unfold other_ls. destruct (0 <=? fcval); (apply calm_same; [repeat split|lg|reflexivity]).
Qed.
Lemma putc_calm : forall c ch s, pending s = pending (getc c ch) -> calm c (putc c ch s).
Proof. intros c ch s H. apply calm_same; [destruct ch; repeat split|destruct ch; lg|destruct ch; [exact H|reflexivity]]. Qed.
Lemma accept_loop_calm : forall cfg fuel c ch num p c', accept_loop cfg fuel c ch num p = Ok c' -> calm c c'.
Proof.
  induction fuel as [|f IH]; intros c ch num p c' H; cbn [accept_loop] in H; [discriminate|].
  set (c1 := putc c ch _) in H. assert (M1 : calm c c1) by (apply putc_calm; reflexivity). clearbody c1.
  destruct (process_data cfg c1 ch p) as [c2|] eqn:E; cbn [bind] in H; [|discriminate]. apply process_data_calm in E.
  destruct (mod_add 4096 num 1) as [n2|]; cbn [bind] in H; [|discriminate]. pose proof (calm_trans _ _ _ M1 E) as M2.
  destruct (dget Z.eqb (ooo (getc c2 ch)) n2) as [q|]; [|injection H as <-; exact M2].
  eapply calm_trans; [exact M2|]. eapply calm_trans; [|eapply IH; exact H]. apply putc_calm. reflexivity.
Qed.
Definition parting (c : conn) : npkt := NDI (cdst c) (csrc c) (fst (cdisc c)) (snd (cdisc c)).
Definition same_ids (c c' : conn) : Prop := cdst c' = cdst c /\ csrc c' = csrc c /\ cdisc c' = cdisc c /\ cshut c' = cshut c.
Lemma same_ids_of : forall c c', kept_ids c c' -> same_ids c c'. Proof. intros c c' (_ & H). exact H. Qed.
Lemma same_ids_trans : forall a b c, same_ids a b -> same_ids b c -> same_ids a c.
Proof. intros a b c (A2 & A3 & A4 & A5) (B2 & B3 & B4 & B5). repeat split; congruence. Qed.
Lemma parting_same : forall c c', same_ids c c' -> parting c' = parting c.
Proof. intros c c' (A & B & C & _). unfold parting. congruence. Qed.
Lemma process_ack_watched : forall cfg c a c', (cst c = Sdi -> watched c (parting c) /\ cshut c = true) -> process_ack cfg c CD a = Ok c' ->
  same_ids c c' /\ (cst c' = cst c \/ cst c' = Sdi) /\ (cst c' = Sdi -> watched c' (parting c) /\ cshut c' = true).
Proof.
  intros cfg c a c' W H. cbn [process_ack] in H. unfold data_process_ack in H. destruct (base_process_ack c CD a) as [c1|] eqn:E; cbn [bind] in H; [|discriminate].
  destruct (send_blocked cfg c1) as [c2|] eqn:B; cbn [bind] in H; [|discriminate]. pose proof (frame_trans _ _ _ (base_process_ack_frame _ _ _ _ E) (send_blocked_frame _ _ _ B)) as F.
  pose proof (same_ids_of _ _ (frame_ids _ _ F)) as SI.
  assert (D : cshut c2 = true -> pending (cdata c2) = [] -> (let* c3 := disc_rej cfg c2 (fst (cdisc c2)) (snd (cdisc c2)) in Ok (set_cst c3 Sdi)) = Ok c' -> same_ids c c' /\ (cst c' = cst c \/ cst c' = Sdi) /\ (cst c' = Sdi -> watched c' (parting c) /\ cshut c' = true)).
  { intros SH _ X. destruct (disc_rej cfg c2 _ _) as [c3|] eqn:Y; cbn [bind] in X; [|discriminate]. injection X as <-. apply disc_watched in Y as [Y1 Y2].
    split; [eapply same_ids_trans; [exact SI|]; apply same_ids_of in Y2; exact Y2|]. split; [right; reflexivity|]. intros _. rewrite <- (parting_same _ _ SI). split; [exact Y1|]. destruct Y2 as (_ & _ & _ & _ & Y2). cbn [cshut set_cst]. congruence. }
  assert (K : c2 = c' -> pending (cdata c2) <> [] \/ cshut c2 = false -> same_ids c c' /\ (cst c' = cst c \/ cst c' = Sdi) /\ (cst c' = Sdi -> watched c' (parting c) /\ cshut c' = true)).
  { intros <- NE. split; [exact SI|]. split; [left; apply (fr_st _ _ F)|]. intros S. rewrite (fr_st _ _ F) in S. destruct (W S) as [WW SH]. assert (SH2 : cshut c2 = true) by (rewrite (fr_shut _ _ F); exact SH). split; [|exact SH2]. destruct NE as [NE|NE]; [|congruence].
    clear D H. destruct a as [[n q]|]; cbn [base_process_ack] in E; [|injection E as <-; rewrite (blocked_watched _ _ _ _ WW B); exact WW].
    unfold chan_ack in E. destruct (is_cross q); cbn [cross getc putc] in E.
    - destruct (sub_ack (coth c) n) as [s1|]; cbn [bind] in E; [|discriminate]. injection E as <-. assert (W1 : watched (set_coth c s1) (parting c)) by (apply (watched_same c); [lg|reflexivity|exact WW]).
      rewrite (blocked_watched _ _ _ _ W1 B). exact W1.
    - exfalso. apply NE. destruct WW as ((e & (P & DI & _) & _) & _). unfold sub_ack in E. rewrite P in E. destruct (tp e); try discriminate DI. cbn [is_int is_data orb pop_acked] in E. rewrite P in E. cbn [bind] in E. injection E as <-.
      unfold send_blocked in B. cbn in B. injection B as <-. reflexivity. }
  destruct (cshut c2) eqn:SH; [|injection H as H; apply K; auto]. destruct (pending (cdata c2)) eqn:P; [now apply D|]. injection H as H. apply K; [exact H|left; discriminate].
Qed.
Lemma sub_recv_watched : forall cfg c ch p c', cst c = Srun -> sub_recv cfg c ch p = Ok c' -> same_ids c c' /\ (cst c' = cst c \/ cst c' = Sdi) /\ (cst c' = Sdi -> watched c' (parting c) /\ cshut c = true).
Proof.
  intros cfg c ch p c' R H. unfold sub_recv in H.
  destruct (process_ack cfg c ch (ack1 p)) as [c1|] eqn:E1; cbn [bind] in H; [|discriminate].
  destruct (process_ack cfg c1 ch (ack2 p)) as [c2|] eqn:E2; cbn [bind] in H; [|discriminate].
  assert (W : same_ids c c2 /\ (cst c2 = cst c \/ cst c2 = Sdi) /\ (cst c2 = Sdi -> watched c2 (parting c) /\ cshut c = true)).
  { destruct ch.
    - apply process_ack_watched in E1 as (I1 & T1 & W1); [|intros X; congruence]. rewrite <- (parting_same _ _ I1) in W1. apply (process_ack_watched _ _ _ _ W1) in E2 as (I2 & T2 & W2).
      split; [eapply same_ids_trans; eauto|]. split; [destruct T2 as [T2|T2]; [rewrite T2; exact T1|right; exact T2]|]. rewrite <- (parting_same _ _ I1). intros S2. destruct (W2 S2) as [A B]. split; [exact A|]. destruct I1 as (_ & _ & _ & I1). destruct I2 as (_ & _ & _ & I2). congruence.
    - cbn [process_ack] in E1, E2. apply base_process_ack_frame in E1, E2. split; [apply same_ids_of, frame_ids; eapply frame_trans; eauto|]. split; [left; rewrite (fr_st _ _ E2); apply (fr_st _ _ E1)|]. intros S2. rewrite (fr_st _ _ E2), (fr_st _ _ E1) in S2. congruence. }
  destruct W as (SI & T & W).
  assert (G : calm c2 c' -> same_ids c c' /\ (cst c' = cst c \/ cst c' = Sdi) /\ (cst c' = Sdi -> watched c' (parting c) /\ cshut c = true)) by (intros [G1 G2]; split; [eapply same_ids_trans; [exact SI|apply same_ids_of; exact G1]|]; destruct G1 as (G1 & _); split; [rewrite G1; exact T|]; intros S; rewrite G1 in S; destruct (W S); auto). apply G. clear G W T SI E1 E2.
  assert (Z : forall q, (let s := getc c2 ch in let num := segnum q in
      let* le := mod_le 4096 num (acknum s) in
      if le then send_ack c2 ch
      else
        let* nxt := mod_add 4096 (acknum s) 1 in
        if negb (num =? nxt) then Ok (putc c2 ch (set_ooo s (dset Z.eqb (ooo s) num q)))
        else
          let* c := accept_loop cfg (S (length (ooo s))) c2 ch num q in
          if dly q && (cphase c =? 4) && negb (cshut c) then
            if ackpending (getc c ch) && negb (hold (getc c ch)) then Ok (putc c ch (set_hold (getc c ch) true)) else Ok c
          else if ackpending (getc c ch) then send_ack c ch
          else Ok c) = Ok c' -> calm c2 c').
  { cbv zeta. intros q V. destruct (mod_le 4096 (segnum q) (acknum (getc c2 ch))) as [le|]; cbn [bind] in V; [|discriminate]. destruct le; [eapply send_ack_calm; exact V|].
    destruct (mod_add 4096 (acknum (getc c2 ch)) 1) as [nxt|]; cbn [bind] in V; [|discriminate]. destruct (negb (segnum q =? nxt)); [injection V as <-; apply putc_calm; reflexivity|].
    destruct (accept_loop cfg (S (length (ooo (getc c2 ch)))) c2 ch (segnum q) q) as [c3|] eqn:A; cbn [bind] in V; [|discriminate]. apply accept_loop_calm in A. eapply calm_trans; [exact A|].
    destruct (dly q && (cphase c3 =? 4) && negb (cshut c3)).
    - destruct (ackpending (getc c3 ch) && negb (hold (getc c3 ch))); injection V as <-; [apply putc_calm; reflexivity|apply calm_refl].
    - destruct (ackpending (getc c3 ch)); [eapply send_ack_calm; exact V|injection V as <-; apply calm_refl]. }
  destruct p; try (apply (Z _ H)); injection H as <-; apply calm_refl.
Qed.
