(** Two NSP connections joined by a network: invariants for C33. *)
From Verif Require Import Base Dict ModuloModel ModuloProps PacketModel PacketProofs NspPktModel NspPktProps NspModel NspFrame NspPrim NspRx NspRxProps NspSend NspSendInv NspFlow NspRetx NspTags.

(** * What arrives after encoding and decoding *)
Lemma shiftr1 : forall v, negb (Z.shiftr v 1 =? 0) = false -> v = 0 \/ v = 1.
Proof. intros v H. rewrite Z.shiftr_div_pow2 in H by lia. change (2 ^ 1) with 2 in H. lia. Qed.
Lemma word_inv : forall v x, to_bytes 2 v = Ok x -> word v /\ x = w2 v.
Proof.
  intros v x H. assert (W : word v). { unfold to_bytes in H. destruct (_ && _) eqn:E in H; [|discriminate]. unfold word. change (256 ^ Z.of_nat 2) with 65536 in E. lia. }
  split; [exact W|]. rewrite w2_enc in H by exact W. congruence.
Qed.
Lemma norm_acks : forall a1 a2, fld 0 a1 -> fld 2 a2 -> exists b1 b2, ackw b1 ++ ackw b2 = ackw a1 ++ ackw a2 /\ ack_range b1 /\ ack_range b2 /\ two_channels b1 b2 /\
  ack_check b1 b2 = Ok tt /\ forall ch, tgt ch b1 ++ tgt ch b2 = tgt ch a1 ++ tgt ch a2.
Proof.
  intros a1 a2 H1 H2. assert (G : forall b1 b2, ackw b1 ++ ackw b2 = ackw a1 ++ ackw a2 -> ack_range b1 -> ack_range b2 -> two_channels b1 b2 -> (forall ch, tgt ch b1 ++ tgt ch b2 = tgt ch a1 ++ tgt ch a2) ->
     exists b1 b2, ackw b1 ++ ackw b2 = ackw a1 ++ ackw a2 /\ ack_range b1 /\ ack_range b2 /\ two_channels b1 b2 /\ ack_check b1 b2 = Ok tt /\ forall ch, tgt ch b1 ++ tgt ch b2 = tgt ch a1 ++ tgt ch a2).
  { intros b1 b2 A B C D E. exists b1, b2. repeat split; auto. now apply ack_check_ok. }
  destruct H1 as [-> |(n & -> & N)], H2 as [-> |(m & -> & M)].
  - apply (G None None); cbn; auto.
  - apply (G (Some (m, 2)) None); cbn [ackw ack_range two_channels tgt]; auto; lia.
  - apply (G (Some (n, 0)) None); cbn [ackw ack_range two_channels tgt]; auto; lia.
  - apply (G (Some (n, 0)) (Some (m, 2))); cbn [ackw ack_range two_channels tgt]; auto; lia.
Qed.
Lemma hdr_through : forall d s a1 a2 x, fld 0 a1 -> fld 2 a2 -> ackhdr_enc d s a1 a2 = Ok x -> exists b1 b2, (forall r, noack r -> ackhdr_dec (x ++ r) = Ok (d, s, b1, b2, r)) /\
  ack_check b1 b2 = Ok tt /\ forall ch, tgt ch b1 ++ tgt ch b2 = tgt ch a1 ++ tgt ch a2.
Proof.
  intros d s a1 a2 x F1 F2 H. unfold ackhdr_enc in H.
  destruct (to_bytes 2 d) as [x1|] eqn:E1; cbn [bind] in H; [|discriminate]. destruct (to_bytes 2 s) as [x2|] eqn:E2; cbn [bind] in H; [|discriminate].
  apply word_inv in E1 as [W1 ->]. apply word_inv in E2 as [W2 ->].
  assert (AE : forall q a, 0 <= q <= 3 -> fld q a -> ack_enc a = Ok (ackw a)).
  { intros q a Q [-> |(n & -> & N)]; [reflexivity|]. unfold ack_enc. replace ((0 <=? q) && (q <=? 3)) with true by lia. rewrite land12s, Z.shiftl_mul_pow2 by lia. change (2 ^ 12) with 4096.
    rewrite w2_enc by (unfold word; lia). unfold ackw. do 2 f_equal. lia. }
  rewrite (AE 0 a1), (AE 2 a2) in H by (auto; lia). cbn [bind] in H. assert (HX : x = w2 d ++ w2 s ++ ackw a1 ++ ackw a2) by congruence. clear H. subst x.
  destruct (norm_acks a1 a2 F1 F2) as (b1 & b2 & B1 & B2 & B3 & B4 & B5 & B6). exists b1, b2. split; [|auto].
  intros r N. rewrite <- !app_assoc. rewrite (app_assoc (ackw a1)), <- B1, <- app_assoc. apply ackhdr_round; auto.
Qed.
Lemma seq_w2 : forall v y, seq_enc v = Ok y -> y = w2 (v mod 4096).
Proof. intros v y H. unfold seq_enc in H. rewrite land12 in H. now apply word_inv in H. Qed.
Lemma through : forall p m g b q, is_ackhdr p = true -> lab_ok m p g -> encode p = Ok b -> decode b = Ok q ->
  is_ackhdr q = true /\ chan_of q = chan_of p /\ is_seg q = is_seg p /\ is_data q = is_data p /\ eacks q = eacks p /\
  (is_data p = true -> seg_of q = seg_of p /\ segnum q = segnum p mod 4096).
Proof.
  intros p m g b q AH (F1 & F2 & _) E D. destruct p; try discriminate AH; cbn [ack1 ack2] in F1, F2; unfold encode in E.
  - destruct (flag_enc _ _ _ _ _ _) as [h|] eqn:H in E; cbn [bind] in E; [|discriminate]. destruct (ackhdr_enc d s a1 a2) as [x|] eqn:X; cbn [bind] in E; [|discriminate].
    destruct (hdr_through _ _ _ _ _ F1 F2 X) as (b1 & b2 & HD & CK & TG). clear X.
    assert (FL : exists bo eo, (bom = 0 \/ bom = 1) /\ (eom = 0 \/ eom = 1) /\ bom = bo /\ eom = eo /\ h = [32 * bo + 64 * eo]).
    { unfold flag_enc in H. cbn [bits_enc] in H. repeat match type of H with context [negb (Z.shiftr 0 ?n =? 0)] => change (negb (Z.shiftr 0 n =? 0)) with false in H end. cbv iota in H.
      destruct (negb (Z.shiftr bom 1 =? 0)) eqn:B1; [discriminate|]. destruct (negb (Z.shiftr eom 1 =? 0)) eqn:B2; [discriminate|].
      apply shiftr1 in B1, B2. exists bom, eom. do 4 (split; [auto|]). destruct B1 as [-> | -> ], B2 as [-> | -> ]; vm_compute in H; injection H as <-; reflexivity. }
    destruct FL as (bo & eo & B1 & B2 & -> & -> & ->). clear H.
    destruct (bits_enc _ 0) as [f|] eqn:BF in E; cbn [bind] in E; [|discriminate]. destruct (to_bytes 2 f) as [y|] eqn:Y; cbn [bind] in E; [|discriminate].
    apply word_inv in Y as [WF ->]. assert (EX : b = [32 * bo + 64 * eo] ++ x ++ w2 f ++ pl) by congruence. clear E. subst b.
    assert (FV : exists dl, f = seg mod 4096 + 4096 * dl /\ 0 <= dl <= 1).
    { cbn [bits_enc] in BF. destruct (negb (Z.shiftr (Z.land seg 4095) 12 =? 0)); [discriminate|]. destruct (negb (Z.shiftr dly 1 =? 0)) eqn:B3; [discriminate|]. apply shiftr1 in B3. assert (EF : f = Z.lor (Z.lor 0 (Z.shiftl (Z.land seg 4095) 0)) (Z.shiftl dly 12)) by congruence. clear BF. subst f.
      rewrite Z.lor_0_l, Z.shiftl_0_r, land12, lor_high by (change (2 ^ 12) with 4096; lia). exists dly. change (2 ^ 12) with 4096. split; lia. }
    destruct FV as (dl & FV & DL). unfold decode in D. cbn [app] in D.
    assert (HH : (32 * bo + 64 * eo =? 0) || (32 * bo + 64 * eo =? 32) || (32 * bo + 64 * eo =? 64) || (32 * bo + 64 * eo =? 96) = true) by lia. rewrite HH in D.
    rewrite HD in D by (apply noack_w2; lia). cbn [bind] in D. rewrite w2_dec in D by exact WF. cbn [bind] in D. rewrite CK in D. cbn [bind] in D. injection D as <-.
    split; [reflexivity|]. split; [reflexivity|]. split; [reflexivity|]. split; [reflexivity|]. split; [unfold eacks, dacks; cbn [is_ackhdr chan_of ack1 ack2]; apply TG|].
    intros _. cbn [seg_of segnum]. split; [|rewrite land12; lia]. destruct B1 as [-> | -> ], B2 as [-> | -> ]; reflexivity.
  - destruct (flag_enc _ _ _ _ _ _) as [h|] eqn:H in E; cbn [bind] in E; [|discriminate]. vm_compute in H. injection H as <-.
    destruct (ackhdr_enc d s a1 a2) as [x|] eqn:X; cbn [bind] in E; [|discriminate]. destruct (hdr_through _ _ _ _ _ F1 F2 X) as (b1 & b2 & HD & CK & TG). clear X.
    destruct (seq_enc seg) as [y|] eqn:Y; cbn [bind] in E; [|discriminate]. apply seq_w2 in Y. subst y. assert (EX : b = [48] ++ x ++ w2 (seg mod 4096) ++ pl) by congruence. clear E. subst b. change (decode ([48] ++ x ++ w2 (seg mod 4096) ++ pl)) with (let* (d, s, a1, a2, b1) := ackhdr_dec (x ++ w2 (seg mod 4096) ++ pl) in let* (n, b2) := seq_dec b1 in let* _ := ack_check a1 a2 in Ok (NInt d s a1 a2 n b2)) in D. rewrite HD in D by (apply noack_w2; lia). cbn [bind] in D.
    destruct (seq_dec _) as [[n r]|]; cbn [bind] in D; [|discriminate]. rewrite CK in D. cbn [bind] in D. injection D as <-.
    do 4 (split; [reflexivity|]). split; [unfold eacks, dacks; cbn [is_ackhdr chan_of ack1 ack2]; apply TG|discriminate].
  - destruct (flag_enc _ _ _ _ _ _) as [h|] eqn:H in E; cbn [bind] in E; [|discriminate]. vm_compute in H. injection H as <-.
    destruct (ackhdr_enc d s a1 a2) as [x|] eqn:X; cbn [bind] in E; [|discriminate]. destruct (hdr_through _ _ _ _ _ F1 F2 X) as (b1 & b2 & HD & CK & TG). clear X.
    destruct (seq_enc seg) as [y|] eqn:Y; cbn [bind] in E; [|discriminate]. apply seq_w2 in Y. subst y. destruct (bits_enc _ 0) as [f|]; cbn [bind] in E; [|discriminate].
    destruct (to_bytes 1 f) as [z|]; cbn [bind] in E; [|discriminate]. destruct (signed_enc 1 fcval) as [w|]; cbn [bind] in E; [|discriminate]. assert (EX : b = [16] ++ x ++ w2 (seg mod 4096) ++ z ++ w) by congruence. clear E. subst b.
    change ([16] ++ x ++ w2 (seg mod 4096) ++ z ++ w) with (16 :: (x ++ w2 (seg mod 4096) ++ z ++ w)) in D. unfold decode in D. change ((16 =? 0) || (16 =? 32) || (16 =? 64) || (16 =? 96)) with false in D. change (16 =? 48) with false in D. change (16 =? 16) with true in D. cbv iota in D. rewrite HD in D by (apply noack_w2; lia). cbn [bind] in D.
    destruct (seq_dec _) as [[n r]|]; cbn [bind] in D; [|discriminate]. destruct (byte_dec r) as [[f1 r1]|]; cbn [bind] in D; [|discriminate]. destruct (fixed_dec 1 r1) as [[f2 r2]|]; cbn [bind] in D; [|discriminate].
    destruct (_ || _) in D; [discriminate|]. unfold done in D. destruct r2; [|discriminate]. injection D as <-.
    do 4 (split; [reflexivity|]). split; [unfold eacks, dacks; cbn [is_ackhdr chan_of ack1 ack2]; apply TG|discriminate].
  - destruct (flag_enc _ _ _ _ _ _) as [h|] eqn:H in E; cbn [bind] in E; [|discriminate]. vm_compute in H. injection H as <-.
    destruct (ackhdr_enc d s a1 a2) as [x|] eqn:X; cbn [bind] in E; [|discriminate]. destruct (hdr_through _ _ _ _ _ F1 F2 X) as (b1 & b2 & HD & CK & TG). clear X. injection E as <-.
    specialize (HD [] noack_nil). rewrite app_nil_r in HD. unfold decode in D. cbn [app] in D. change ((4 =? 0) || (4 =? 32) || (4 =? 64) || (4 =? 96)) with false in D. change (4 =? 48) with false in D. change (4 =? 16) with false in D. change (4 =? 4) with true in D. cbv iota in D. rewrite HD in D. cbn [bind] in D. destruct (ackdata_check b1 b2); cbn [bind] in D; [|discriminate]. injection D as <-.
    do 4 (split; [reflexivity|]). split; [unfold eacks, dacks; cbn [is_ackhdr chan_of ack1 ack2]; apply TG|discriminate].
  - destruct (flag_enc _ _ _ _ _ _) as [h|] eqn:H in E; cbn [bind] in E; [|discriminate]. vm_compute in H. injection H as <-.
    destruct (ackhdr_enc d s a1 a2) as [x|] eqn:X; cbn [bind] in E; [|discriminate]. destruct (hdr_through _ _ _ _ _ F1 F2 X) as (b1 & b2 & HD & CK & TG). clear X. injection E as <-.
    specialize (HD [] noack_nil). rewrite app_nil_r in HD. unfold decode in D. cbn [app] in D. change ((20 =? 0) || (20 =? 32) || (20 =? 64) || (20 =? 96)) with false in D. change (20 =? 48) with false in D. change (20 =? 16) with false in D. change (20 =? 4) with false in D. change (20 =? 20) with true in D. cbv iota in D. rewrite HD in D. cbn [bind] in D. destruct (ackdata_check b1 b2); cbn [bind] in D; [|discriminate]. injection D as <-.
    do 4 (split; [reflexivity|]). split; [unfold eacks, dacks; cbn [is_ackhdr chan_of ack1 ack2]; apply TG|discriminate].
Qed.

(** * Reception *)
Definition onCD (ch : chan) : bool := match ch with CD => true | CO => false end.
(** A packet of the other subchannel leaves the data subchannel alone. *)
Lemma acc_other : forall f c num p, R f onCD c -> R f onCD (acc c CO num p) /\ rcvd (cdata (acc c CO num p)) = rcvd (cdata c).
Proof.
  intros f c num p H. unfold acc. set (c1 := emit _ _).
  assert (Q1 : R f onCD c1). { intros [] ON; [|discriminate]. specialize (H CD eq_refl). eapply rxi_quiet; [| | | |exact H]; [reflexivity|reflexivity|left; reflexivity|]. unfold c1. cbn [clog emit set_clog putc set_coth]. rewrite delivered_app. cbn. now rewrite app_nil_r. }
  assert (R1 : rcvd (cdata c1) = rcvd (cdata c)) by reflexivity. clearbody c1.
  assert (T : R f onCD (to_sc c1 p false) /\ rcvd (cdata (to_sc c1 p false)) = rcvd (cdata c)).
  { destruct (to_sc_log c1 p false) as (l & L & D & G & _). split; [|rewrite <- R1; change (cdata (to_sc c1 p false)) with (getc (to_sc c1 p false) CD); now rewrite G].
    intros [] ON; [|discriminate]. rewrite G. eapply rxi_quiet; [| | | |exact (Q1 CD eq_refl)]; auto. now rewrite L, delivered_app, D, app_nil_r. }
  cbn [is_ls]. destruct (is_ls p); [|exact T]. pose proof (credit_rxq c1 p) as Q. split; [eapply rxq_R; eauto|]. rewrite <- R1. apply (rq_rcvd _ _ Q CD).
Qed.
Lemma ooo_other : forall f c d, R f onCD c -> R f onCD (putc c CO (set_ooo (getc c CO) d)).
Proof. intros f c d H [] ON; [|discriminate]. exact (H CD eq_refl). Qed.
Lemma prim_cross : forall cfg p b l c c' f, prim cfg (Some (CO, p)) b l c c' -> R f onCD c -> R f onCD c' /\ rcvd (cdata c') = rcvd (cdata c).
Proof.
  intros cfg p b l c c' f H HR. assert (G : rxq c c' -> R f onCD c' /\ rcvd (cdata c') = rcvd (cdata c)) by (intros Q; split; [eapply rxq_R; eauto|apply (rq_rcvd _ _ Q CD)]).
  assert (GP : prim cfg None b l c c' -> R f onCD c' /\ rcvd (cdata c') = rcvd (cdata c)) by (intros X; apply G; eapply prim_rxq; [|exact X]; exact I).
  destruct H; try (apply GP; econstructor; eauto; fail).
  - apply G. same0. destruct H as [H|[H|H]]; rewrite H; discriminate.
  - apply G. same0.
  - injection H0 as <- <-. split; [now apply ooo_other|reflexivity].
  - injection H0 as <- <-. now apply acc_other.
  - destruct H0 as (y & H0 & _). injection H0 as <- <-. set (d := ddel _ _ _). destruct (acc_other f _ num q (ooo_other f c d HR)) as [X Y]. split; [exact X|]. rewrite Y. reflexivity.
Qed.
Lemma recv_cross : forall cfg c p c' f, 1 <= phase cfg -> pkt_size_ok p -> chan_of p = CO -> conn_recv cfg c p = Ok c' -> R f onCD c -> R f onCD c' /\ rcvd (cdata c') = rcvd (cdata c).
Proof.
  intros cfg c p c' f PH PO CH H HR. pose proof (conn_recv_star cfg (Some (chan_of p, p)) false c p c' PO PH eq_refl H) as S. rewrite CH in S. clear H.
  revert HR. induction S as [w|l m a b e H1 H2 IH]; intros HR; [auto|]. apply prim_cross with (f := f) in H1 as [A B]; [|exact HR]. destruct (IH A) as [C D]. split; [exact C|congruence].
Qed.
(** The number of packets received never goes down. *)
Lemma acc_rcvd : forall c ch num p k, rcvd (getc c k) <= rcvd (getc (acc c ch num p) k).
Proof.
  intros c ch num p k. unfold acc. set (c1 := emit _ _). assert (A : rcvd (getc c k) <= rcvd (getc c1 k)) by (unfold c1; destruct ch, k; cbn; lia). clearbody c1.
  assert (T : rcvd (getc c k) <= rcvd (getc (to_sc c1 p false) k)) by (destruct (to_sc_log c1 p false) as (l & L & D & G & _); rewrite G; exact A).
  destruct ch; [exact T|]. destruct (is_ls p); [|exact T]. rewrite (rq_rcvd _ _ (credit_rxq c1 p) k). exact A.
Qed.
Lemma prim_rcvd : forall cfg a b l c c' k, prim cfg a b l c c' -> rcvd (getc c k) <= rcvd (getc c' k).
Proof.
  intros cfg a b l c c' k H. assert (G : rxq c c' -> rcvd (getc c k) <= rcvd (getc c' k)) by (intros Q; rewrite (rq_rcvd _ _ Q k); lia).
  assert (GP : prim cfg None b l c c' -> rcvd (getc c k) <= rcvd (getc c' k)) by (intros X; apply G; eapply prim_rxq; [|exact X]; exact I).
  destruct H; try (apply GP; econstructor; eauto; fail).
  - apply G. same0. destruct H as [H|[H|H]]; rewrite H; discriminate.
  - apply G. same0.
  - destruct ch, k; cbn; lia.
  - apply acc_rcvd.
  - etransitivity; [|apply acc_rcvd]. destruct ch, k; cbn; lia.
Qed.
Lemma step_rcvd : forall cfg c e c', 1 <= phase cfg -> ev_ok e -> cstep cfg c e = Ok c' -> rcvd (cdata c) <= rcvd (cdata c').
Proof.
  intros cfg c e c' PH EO H. destruct (is_send e) eqn:S.
  - destruct e; try discriminate S. rewrite (rq_rcvd _ _ (step_rxq cfg c (VSend data) c' EO PH I H) CD : rcvd (cdata c') = rcvd (cdata c)). lia.
  - apply (step_star cfg (ev_arr e) false) in H; auto. induction H as [w|l m a b x H1 H2 IH]; [lia|]. apply prim_rcvd with (k := CD) in H1. cbn [getc] in H1. lia.
Qed.

(** * Acknowledgements *)
Inductive moves : list (chan * Z) -> Z -> Z -> Prop :=
  | mv_nil : forall F, moves [] F F
  | mv_keep : forall x l F G, moves l F G -> moves (x :: l) F G
  | mv_move : forall n a l F G, a mod 4096 = n mod 4096 -> F <= a <= F + 2046 -> moves l (a + 1) G -> moves ((CD, n) :: l) F G.
Lemma moves_app : forall l m F G K, moves l F G -> moves m G K -> moves (l ++ m) F K.
Proof. intros l m F G K A B. induction A; cbn [app]; [exact B|constructor; auto|eapply mv_move; eauto]. Qed.
Lemma step_moves : forall cfg c e c' F, 1 <= qmax cfg <= 2047 -> 1 <= phase cfg -> ev_ok e -> SI cfg [] F c -> cstep cfg c e = Ok c' ->
  exists F', SI cfg [] F' c' /\ moves (ev_acks c e) F F'.
Proof.
  intros cfg c e c' F QM PH EO HI H. destruct (is_send e) eqn:S.
  - destruct (SI_step _ _ _ _ _ QM PH EO HI H) as (F' & A & B). exists F'. split; [exact A|]. destruct e; try discriminate S. cbn [ev_acks] in *. inversion B; subst. constructor.
  - apply (step_star cfg (ev_arr e) false) in H; auto. revert F HI. induction H as [w|l m a b x H1 H2 IH]; intros F HI; [exists F; split; [exact HI|constructor]|].
    destruct (SI_prim _ _ _ _ _ [] F QM H1 HI) as (F1 & I1 & A1). destruct (IH F1 I1) as (F2 & I2 & M2). exists F2. split; [exact I2|]. eapply moves_app; [|exact M2].
    destruct A1 as [-> |(n & y & IN & Y1 & Y2 & ->)].
    + destruct (prim_label _ _ _ _ _ _ H1) as [-> |(ch & n & ->)]; repeat constructor.
    + destruct (prim_label _ _ _ _ _ _ H1) as [-> |(ch & k & ->)]; [destruct IN|]. destruct IN as [IN|[]]. injection IN as -> ->.
      apply mv_move with (a := y); [lia| |constructor]. pose proof (si_hi _ _ _ _ HI). lia.
Qed.

(** * What was sent *)
Definition nosend (l : list out) : Prop := Forall (fun o => match o with OAccepted _ _ => False | _ => True end) l.
Record ZI (c : conn) : Prop := mk_ZI { z_size : 0 <= csegsize c; z_log : forall z d, In (OAccepted z d) (clog c) -> 1 <= z }.
Lemma ZI_frame : forall c c', frame c c' -> ZI c -> ZI c'.
Proof.
  intros c c' F [A B]. constructor; [now rewrite (fr_seg _ _ F)|]. intros z d H. destruct (fr_log _ _ F) as (l & L & T). rewrite L in H. apply in_app_or in H as [H|H]; [eauto|].
  unfold txonly in T. rewrite Forall_forall in T. destruct (T _ H).
Qed.
Lemma ZI_same : forall c c' l, csegsize c' = csegsize c -> clog c' = clog c ++ l -> nosend l -> ZI c -> ZI c'.
Proof.
  intros c c' l S L N [A B]. constructor; [now rewrite S|]. intros z d H. rewrite L in H. apply in_app_or in H as [H|H]; [eauto|]. unfold nosend in N. rewrite Forall_forall in N. destruct (N _ H).
Qed.
Ltac z0 := eapply ZI_same with (l := []); [| |constructor|eassumption]; [reflexivity|rewrite app_nil_r; reflexivity].
Lemma ZI_tosc : forall c p r, ZI c -> ZI (to_sc c p r).
Proof.
  intros c p r H. assert (G : forall c1 o, ZI c1 -> match o with OAccepted _ _ => False | _ => True end -> ZI (emit c1 o)).
  { intros c1 o Z1 X. apply (ZI_same c1 (emit c1 o) [o]); auto. constructor; [exact X|constructor]. }
  destruct p; cbn [to_sc]; try (apply G; [exact H|exact I]). destruct (casm c); repeat match goal with |- context [if ?b then _ else _] => destruct b end; try (apply G; [|exact I]); try exact H; z0.
Qed.
Lemma ZI_acc : forall c ch num p, ZI c -> ZI (acc c ch num p).
Proof.
  intros c ch num p H. unfold acc. set (c1 := emit _ _). assert (H1 : ZI c1). { apply (ZI_same c c1 [ODeliver ch p]); auto; try (destruct ch; reflexivity). constructor; [exact I|constructor]. }
  clearbody c1. destruct ch; [now apply ZI_tosc|]. destruct (is_ls p); [|now apply ZI_tosc]. destruct p; cbn [credit]; try exact H1. destruct (_ =? 0).
  - destruct (grant _ _ _); [z0|exact H1].
  - unfold other_ls. destruct (0 <=? _); [z0|exact H1].
Qed.
Lemma ZI_prim : forall cfg a b l c c', prim cfg a b l c c' -> ZI c -> ZI c'.
Proof.
  intros cfg a b l c c' H HZ. destruct H.
  - destruct H. constructor; [apply sc_seg; apply (z_size _ HZ)|rewrite sc_log; apply (z_log _ HZ)].
  - z0.
  - z0.
  - apply data_send_frame in H0. apply (ZI_frame _ _ H0). z0.
  - z0.
  - unfold disc_rej in H0. destruct (_ || _ || _) in H0; [discriminate|]. apply data_send_frame in H0. set (c2 := set_coth _ _) in H0. assert (Z2 : ZI c2) by z0. apply (ZI_frame _ _ H0) in Z2. clear -Z2. z0.
  - z0.
  - apply (ZI_same c _ [OSc i r]); auto. constructor; [exact I|constructor].
  - eapply ZI_frame; [apply raise_frame|exact HZ].
  - eapply ZI_frame; [eapply sendmsg_frame; exact H2|exact HZ].
  - eapply ZI_frame; [eapply send_ack_frame; exact H|exact HZ].
  - destruct ch; z0.
  - z0.
  - eapply ZI_frame; [|exact HZ]. eapply frame_trans; [eapply tx_send_frame; exact H3|eapply bump_frame; exact H4].
  - eapply ZI_frame; [eapply tx_send_frame; exact H2|exact HZ].
  - eapply ZI_frame; [eapply bump_frame; exact H2|exact HZ].
  - z0.
  - apply other_send_frame in H. apply (ZI_frame _ _ H) in HZ. clear -HZ. z0.
  - apply other_send_frame in H1. apply (ZI_frame _ _ H1). z0.
  - eapply ZI_frame; [eapply chan_ack_frame; exact H|exact HZ].
  - eapply ZI_frame; [eapply chan_ack_frame; exact H0|exact HZ].
  - destruct ch; z0.
  - now apply ZI_acc.
  - apply ZI_acc. destruct ch; z0.
  - apply tx_send_frame in H3. apply (ZI_frame _ _ H3). unfold c0, put_entry. destruct ch; z0.
  - unfold put_entry. destruct ch; z0.
  - unfold put_entry. destruct ch; z0.
  - set (c1 := put_entry _ _ _ _). assert (Z1 : ZI c1) by (unfold c1, put_entry; destruct ch; z0). clearbody c1. clear -Z1. apply (ZI_tosc _ (NDI 0 0 UNREACH []) false) in Z1. set (c2 := to_sc _ _ _) in *. clearbody c2. z0.
Qed.
Lemma ZI_step : forall cfg c e c', 1 <= phase cfg -> ev_ok e -> cstep cfg c e = Ok c' -> ZI c -> ZI c'.
Proof.
  intros cfg c e c' PH EO H HZ. destruct (is_send e) eqn:S.
  - destruct e; try discriminate S. cbn [cstep] in H. unfold conn_send in H.
    destruct (_ || _) in H; [injection H as <-; eapply ZI_frame; [apply raise_frame|exact HZ]|]. destruct (csegsize c =? 0) eqn:Z0; [discriminate|]. apply send_segs_frame in H. apply (ZI_frame _ _ H).
    destruct HZ as [A B]. constructor; [exact A|]. intros z d IN. cbn [clog emit set_clog] in IN. apply in_app_or in IN as [IN|[IN|[]]]; [eauto|]. injection IN as <- <-. lia.
  - apply (step_star cfg (ev_arr e) false) in H; auto. induction H as [w|l m a b x H1 H2 IH]; [exact HZ|]. apply IH. eapply ZI_prim; eauto.
Qed.
Definition ci_size_ok (p : npkt) : Prop := match p with NCI _ _ _ _ z _ => 0 <= z | _ => True end.
Lemma ZI_outbound : forall cfg src dest x c, conn_outbound cfg src dest x = Ok c -> ZI c.
Proof.
  intros cfg src dest x c H. unfold conn_outbound in H. set (c0 := mk_conn Sci _ _ _ _ _ _ _ _ _ _ _ _ _) in *.
  destruct (data_send cfg c0 _) as [c1|] eqn:E; cbn [bind] in H; [|discriminate]. injection H as <-. apply data_send_frame in E. assert (Z1 : ZI c1) by (apply (ZI_frame _ _ E); constructor; [cbn; lia|intros z d []]). z0.
Qed.
Lemma ZI_inbound : forall cfg src dest p c, ci_size_ok p -> conn_inbound cfg src dest p = Ok c -> ZI c.
Proof.
  intros cfg src dest p c P H. destruct p; try discriminate H. cbn [conn_inbound ci_size_ok] in *.
  destruct (if 2 <? _ then _ else _) as [c1|] eqn:E in H; cbn [bind] in H; [|discriminate]. injection H as <-.
  set (c0 := setphase cfg _ info) in *. assert (R0 : ZI c0) by (constructor; [cbn; unfold MSS; lia|intros z d []]).
  assert (R1 : ZI c1) by (destruct (2 <? cphase c0); [apply sendmsg_frame in E; eapply ZI_frame; eauto|injection E as <-; exact R0]).
  apply (ZI_tosc _ (NCI rci s fcopt info segsize pl) false) in R1. match goal with |- ZI ?x => change x with (set_ctimer (to_sc c1 (NCI rci s fcopt info segsize pl) false) true) end. set (c2 := to_sc _ _ _) in *. clearbody c2. clear -R1. z0.
Qed.
