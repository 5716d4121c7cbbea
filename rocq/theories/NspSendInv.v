(** The sender invariant of NspSend holds along every execution. *)
From Verif Require Import Base Dict ModuloModel ModuloProps NspPktModel NspModel NspFrame NspPrim NspSend.

(** ** Acknowledgements *)
Lemma pop_acked_spec : forall n s s', pop_acked n s = Ok s' -> pending s' = skipn n (pending s) /\ (n <= length (pending s))%nat /\
  nextseg s' = nextseg s /\ nextmsg s' = nextmsg s /\ maxseqsent s' = maxseqsent s /\ maxseg s' = maxseg s /\ maxmsg s' = maxmsg s /\ xon s' = xon s /\ flow s' = flow s
  /\ seqnum s' = seqnum s.
Proof.
  induction n as [|n IH]; intros s s' H; cbn [pop_acked] in H; [injection H as <-; repeat split; lia|].
  destruct (pending s) as [|e t] eqn:P; [discriminate|]. apply IH in H. cbn [pending set_maxackseg set_pending nextseg nextmsg maxseqsent maxseg maxmsg xon flow seqnum] in H.
  destruct H as (H1 & H2 & H3). split; [exact H1|]. split; [cbn [length]; lia|exact H3].
Qed.
Lemma pop_acked_max : forall n s s', pop_acked n s = Ok s' -> (0 < n)%nat -> exists e, nth_error (pending s) (n - 1) = Some e /\ maxackseg s' = tseg e.
Proof.
  induction n as [|n IH]; intros s s' H L; [lia|]. cbn [pop_acked] in H. destruct (pending s) as [|e t] eqn:P; [discriminate|].
  destruct n as [|n]; [cbn [pop_acked] in H; injection H as <-; exists e; auto|]. destruct (IH _ _ H ltac:(lia)) as (x & X1 & X2). exists x.
  cbn [pending set_maxackseg set_pending] in X1. replace (S (S n) - 1)%nat with (S (S n - 1)) by lia. auto.
Qed.
Lemma sub_ack_spec : forall s n s', sub_ack s n = Ok s' -> exists k, pending s' = skipn k (pending s) /\ (k <= length (pending s))%nat /\
  nextseg s' = nextseg s /\ nextmsg s' = nextmsg s /\ maxseqsent s' = maxseqsent s /\ maxseg s' = maxseg s /\ maxmsg s' = maxmsg s /\ xon s' = xon s /\ flow s' = flow s
  /\ seqnum s' = seqnum s.
Proof.
  intros s n s' H. unfold sub_ack in H. assert (T : exists k, pending s = skipn k (pending s) /\ (k <= length (pending s))%nat) by (exists 0%nat; split; [reflexivity|lia]).
  destruct T as (k0 & T1 & T2). destruct (pending s) as [|e t] eqn:P; [injection H as <-; exists 0%nat; rewrite P; repeat split; auto|].
  assert (G : forall m s1, pop_acked m s = Ok s1 -> exists k, pending s1 = skipn k (e :: t) /\ (k <= length (e :: t))%nat /\
     nextseg s1 = nextseg s /\ nextmsg s1 = nextmsg s /\ maxseqsent s1 = maxseqsent s /\ maxseg s1 = maxseg s /\ maxmsg s1 = maxmsg s /\ xon s1 = xon s /\ flow s1 = flow s
     /\ seqnum s1 = seqnum s).
  { intros m s1 G. apply pop_acked_spec in G. rewrite P in G. exists m. exact G. }
  assert (G0 : exists k, pending s = skipn k (e :: t) /\ (k <= length (e :: t))%nat /\
     nextseg s = nextseg s /\ nextmsg s = nextmsg s /\ maxseqsent s = maxseqsent s /\ maxseg s = maxseg s /\ maxmsg s = maxmsg s /\ xon s = xon s /\ flow s = flow s
     /\ seqnum s = seqnum s) by (exists 0%nat; rewrite P; repeat split; cbn; lia).
  destruct (is_int (tp e) || is_data (tp e)); [|eauto].
  destruct (mod_lt 4096 n _) as [lo|]; cbn [bind] in H; [|discriminate]. destruct lo; [injection H as <-; exact G0|].
  destruct (mod_gt 4096 n _) as [h|]; cbn [bind] in H; [|discriminate]. destruct h; [injection H as <-; exact G0|].
  destruct (mod_sub 4096 n _) as [d|]; cbn [bind] in H; [|discriminate]. destruct (mod_add 4096 d 1) as [k|]; cbn [bind] in H; [|discriminate]. eauto.
Qed.
(** The comparisons with the first unacknowledged segment and the last one sent. *)
Lemma window_ack : forall F H n lo h d k, F - 1 <= H -> H <= F + 2046 ->
  mod_lt 4096 n (F mod 4096) = Ok lo -> mod_gt 4096 n (H mod 4096) = Ok h -> lo = false -> h = false ->
  mod_sub 4096 n (F mod 4096) = Ok d -> mod_add 4096 d 1 = Ok k -> exists a, a mod 4096 = n mod 4096 /\ F <= a <= H /\ k = a - F + 1.
Proof.
  intros F H n lo h d k H1 H2 L G -> -> D K.
  unfold mod_sub, mod_new in D. destruct ((0 <=? _) && _) in D; [|discriminate]. injection D as <-.
  unfold mod_add, mod_new in K. destruct ((0 <=? _) && _) in K; [|discriminate]. injection K as <-.
  unfold mod_lt, is_undef, undef, maxdelta in L. change (4096 / 2) with 2048 in L. change (4096 mod 2) with 0 in L. cbn [Z.eqb] in L.
  unfold mod_gt, is_undef, undef, maxdelta in G. change (4096 / 2) with 2048 in G. change (4096 mod 2) with 0 in G. cbn [Z.eqb] in G.
  destruct (_ =? 2048) eqn:L1 in L; [discriminate|]. destruct (_ =? 2048) eqn:G1 in G; [discriminate|]. injection L as L. injection G as G.
  exists (F + (n - F) mod 4096). rewrite !Zminus_mod_idemp_r in *.
  assert (X : (n - F) mod 4096 <= 2047) by lia. split; [|split; [lia|]].
  - replace (F + (n - F) mod 4096) with ((n - F) mod 4096 + F) by lia. rewrite Zplus_mod_idemp_l. f_equal. lia.
  - rewrite Zplus_mod_idemp_l. rewrite Zplus_mod. rewrite (Z.mod_small ((n - F) mod 4096 + 1 mod 4096) 4096) by (change (1 mod 4096) with 1; lia). change (1 mod 4096) with 1. lia.
Qed.
Lemma ack_data : forall cfg rest F c ctl ds n c', 1 <= qmax cfg <= 2047 -> queue0 cfg rest F c ctl ds -> maxseqsent (cdata c) = hi (clog c) mod 4096 ->
  chan_ack c CD n = Ok c' -> exists F' ctl' ds', queue0 cfg rest F' c' ctl' ds' /\ (ds = [] -> ds' = []) /\ (ctl = [] -> ctl' = []) /\
    maxseqsent (cdata c') = maxseqsent (cdata c) /\ clog c' = clog c /\ cst c' = cst c /\ coth c' = coth c /\
    (F' = F /\ (cdata c' = cdata c \/ ctl <> [] /\ maxackseg (cdata c') = 0) \/
     exists a, a mod 4096 = n mod 4096 /\ F <= a <= hi (clog c) /\ F' = a + 1 /\ maxackseg (cdata c') = a /\ ctl = []).
Proof.
  intros cfg rest F c ctl ds n c' QM [Q1 Q2 Q3 Q4 Q5 Q6 Q7 Q8 Q9 Q10 Q11] MS H. unfold chan_ack in H. cbn [getc] in H.
  destruct (sub_ack (cdata c) n) as [s|] eqn:E; cbn [bind putc] in H; [|discriminate]. injection H as <-.
  destruct ctl as [|x ctl].
  - cbn [app] in Q1. destruct ds as [|e ds].
    { unfold sub_ack in E. rewrite Q1 in E. injection E as <-. exists F, [], []. split; [constructor; auto|]. repeat (split; [auto|]). left. split; [reflexivity|left; reflexivity]. }
    unfold sub_ack in E. rewrite Q1 in E. rewrite Forall_forall in Q6. pose proof (Q6 e (or_introl eq_refl)) as (T1 & T2 & T3 & _). rewrite T1, orb_true_r in E.
    destruct Q3 as [N1 N2]. rewrite T3, N1, MS in E.
    assert (SAME : s = cdata c -> exists F' ctl' ds', queue0 cfg rest F' (set_cdata c s) ctl' ds' /\ (e :: ds = [] -> ds' = []) /\ (@nil txe = [] -> ctl' = []) /\
      maxseqsent (cdata (set_cdata c s)) = maxseqsent (cdata c) /\ clog (set_cdata c s) = clog c /\ cst (set_cdata c s) = cst c /\ coth (set_cdata c s) = coth c /\
      (F' = F /\ (cdata (set_cdata c s) = cdata c \/ @nil txe <> [] /\ maxackseg (cdata (set_cdata c s)) = 0) \/
       exists a, a mod 4096 = n mod 4096 /\ F <= a <= hi (clog c) /\ F' = a + 1 /\ maxackseg (cdata (set_cdata c s)) = a /\ @nil txe = [])).
    { intros ->. exists F, [], (e :: ds). split; [constructor; auto; [split; auto|apply Forall_forall; auto]|]. repeat (split; [auto|]). left. split; [reflexivity|left; reflexivity]. }
    destruct (mod_lt 4096 n (F mod 4096)) as [lo|] eqn:LO; cbn [bind] in E; [|discriminate]. destruct lo; [apply SAME; congruence|].
    destruct (mod_gt 4096 n (hi (clog c) mod 4096)) as [h|] eqn:HH; cbn [bind] in E; [|discriminate]. destruct h; [apply SAME; congruence|].
    destruct (mod_sub 4096 n (F mod 4096)) as [d|] eqn:D; cbn [bind] in E; [|discriminate]. destruct (mod_add 4096 d 1) as [k|] eqn:K; cbn [bind] in E; [|discriminate].
    destruct (window_ack F (hi (clog c)) n false false d k ltac:(lia) ltac:(lia) LO HH eq_refl eq_refl D K) as (a & A1 & A2 & ->).
    assert (MX : maxackseg s = a).
    { destruct (pop_acked_max _ _ _ E ltac:(lia)) as (x & X1 & ->). rewrite Q1 in X1. rewrite (numbered_nth (e :: ds) F _ _ (conj N1 N2) X1). lia. }
    apply pop_acked_spec in E as (P1 & P2 & P3 & P4 & P5 & _). rewrite Q1 in P1, P2.
    set (k := Z.to_nat (a - F + 1)) in *. assert (KZ : Z.of_nat k = a - F + 1) by lia.
    exists (a + 1), [], (skipn k (e :: ds)). split.
    + constructor; cbn [cdata set_cdata clog]; rewrite ?P3, ?P4; auto; try lia.
      * replace (a + 1) with (F + Z.of_nat k) by lia. apply numbered_skip. split; auto.
      * unfold zlen in *. rewrite skipn_length. lia.
      * apply Forall_forall. intros y Y. apply Q6. rewrite <- (firstn_skipn k (e :: ds)). apply in_or_app. auto.
    + split; [discriminate|]. repeat (split; [auto|]). right. exists a. split; [exact A1|]. split; [lia|]. split; [reflexivity|]. split; [exact MX|reflexivity].
  - destruct Q2 as [Q2|(y & Q2 & Y1 & Y2)]; [discriminate|]. injection Q2 as -> ->. cbn [app] in Q1. unfold sub_ack in E. rewrite Q1 in E.
    assert (X : is_int (tp y) || is_data (tp y) = false) by (destruct (tp y); try reflexivity; discriminate Y1). rewrite X in E.
    assert (MX : maxackseg s = 0). { destruct (pop_acked_max _ _ _ E ltac:(lia)) as (z & X1 & ->). rewrite Q1 in X1. cbn in X1. injection X1 as <-. exact Y2. }
    apply pop_acked_spec in E as (P1 & P2 & P3 & P4 & P5 & _). rewrite Q1 in P1. cbn [skipn] in P1.
    exists F, [], ds. split; [constructor; cbn [cdata set_cdata clog app]; rewrite ?P3, ?P4; auto; left; reflexivity|]. split; [auto|]. split; [discriminate|].
    repeat (split; [auto|]). left. split; [reflexivity|]. right. split; [discriminate|exact MX].
Qed.

(** ** Frames *)
Lemma nodata_one : forall o, (match o with OTx p _ => is_data p = false | OAccepted _ _ => False | _ => True end) -> nodata [o].
Proof. intros o H. constructor; [exact H|constructor]. Qed.
Lemma to_sc_sframe : forall c p r, sframe c (to_sc c p r).
Proof.
  intros c p r. assert (E : forall k o, (match o with OTx p _ => is_data p = false | OAccepted _ _ => False | _ => True end) -> sframe c k -> sframe c (emit k o)).
  { intros k o O S. eapply sframe_trans; [exact S|]. constructor; auto. exists [o]. split; [reflexivity|now apply nodata_one]. }
  assert (A : forall a, sframe c (set_casm c a)) by (intros a; constructor; auto; exists []; rewrite app_nil_r; split; [reflexivity|constructor]).
  destruct p; cbn [to_sc]; try (apply E; [exact I|apply sframe_refl]).
  destruct (casm c); repeat match goal with |- context [if ?b then _ else _] => destruct b end; auto using sframe_refl; apply E; auto using sframe_refl; exact I.
Qed.
Lemma emit_sframe : forall c o, (match o with OTx p _ => is_data p = false | OAccepted _ _ => False | _ => True end) -> sframe c (emit c o).
Proof. intros c o H. constructor; auto. exists [o]. split; [reflexivity|now apply nodata_one]. Qed.
Lemma cdata_sframe : forall c s, pending s = pending (cdata c) -> nextseg s = nextseg (cdata c) -> nextmsg s = nextmsg (cdata c) -> maxseqsent s = maxseqsent (cdata c) ->
  sframe c (set_cdata c s).
Proof. intros c s A B C D. constructor; auto. exists []. rewrite app_nil_r. split; [reflexivity|constructor]. Qed.
Lemma coth_sframe : forall c s, (nd (pending (coth c)) -> nd (pending s)) -> sframe c (set_coth c s).
Proof. intros c s A. constructor; auto. exists []. rewrite app_nil_r. split; [reflexivity|constructor]. Qed.
Lemma putc_sframe : forall c ch s, pending s = pending (getc c ch) -> nextseg s = nextseg (getc c ch) -> nextmsg s = nextmsg (getc c ch) -> maxseqsent s = maxseqsent (getc c ch) ->
  sframe c (putc c ch s).
Proof. intros c [] s A B C D; [now apply cdata_sframe|]. apply coth_sframe. cbn [getc] in A. now rewrite A. Qed.
Lemma send_ack_sframe : forall c ch c', send_ack c ch = Ok c' -> sframe c c'.
Proof.
  intros c ch c' H. pose proof (send_ack_frame _ _ _ H) as FR. unfold send_ack in H. destruct (set_acks _ ch true _ _) as [[c1 p1] g] eqn:E.
  apply sendmsg_log in H. subst c'.
  assert (S1 : sframe c (putc c ch (set_hold (getc c ch) false))) by (apply putc_sframe; reflexivity).
  eapply sframe_trans; [exact S1|]. pose proof (set_acks_data _ _ _ _ _ _ _ _ E) as (A & _). apply set_acks_frame in E as (F1 & L & K).
  eapply sframe_trans; [|apply emit_sframe; rewrite A; destruct ch; reflexivity].
  destruct (K CD) as (K1 & K2 & K3 & _ & K4 & _). destruct (K CO) as (O1 & _). cbn [getc] in *.
  constructor; auto; [|rewrite O1; auto|apply (fr_st _ _ F1)]. exists []. rewrite app_nil_r. split; [exact L|constructor].
Qed.
Lemma tx_send_sframe : forall c i c' e, nth_error (pending (coth c)) i = Some e -> is_data (tp e) = false -> tx_send c CO i = Ok c' -> sframe c c'.
Proof.
  intros c i c' e N D H. pose proof (fr_st _ _ (tx_send_frame _ _ _ _ H)) as ST.
  destruct (tx_send_log _ _ _ _ H) as (e0 & p & g & N0 & L & _ & _ & D1 & _ & _ & _ & _ & _ & (e1 & P1 & E1 & _) & PX & K).
  cbn [getc cross] in *. assert (e0 = e) by congruence. subst e0. destruct (K CD) as (K1 & K2 & _ & K4 & _). cbn [getc] in *.
  constructor; auto.
  - eexists. split; [exact L|]. apply nodata_one. congruence.
  - rewrite P1. intros ND. apply upd_Forall; [congruence|exact ND].
Qed.
Lemma bump_other_sframe : forall c n c', bump c CO n = Ok c' -> sframe c c'.
Proof.
  intros c n c' H. unfold bump in H. destruct (seqmax _ n); cbn [bind] in H; [|discriminate]. injection H as <-. apply coth_sframe. auto.
Qed.
Lemma other_send_sframe : forall c p c' b, is_data p = false -> other_send c p = Ok (c', b) -> sframe c c'.
Proof.
  intros c p c' b D H. unfold other_send in H. destruct (negb (is_ls p) && _); [injection H as <- <-; apply emit_sframe; exact I|].
  set (e := mk_txe p 0 _ 0 false false None None) in *. set (c1 := set_coth c _) in *.
  destruct (tx_send c1 CO _) as [c2|] eqn:E; cbn [bind] in H; [|discriminate].
  destruct (bump c2 CO (segnum p)) as [c3|] eqn:E3; cbn [bind] in H; [|discriminate]. injection H as <- <-.
  assert (S1 : sframe c c1). { apply coth_sframe. intros ND. cbn [pending set_pending]. apply Forall_app. split; [exact ND|]. constructor; [exact D|constructor]. }
  eapply sframe_trans; [exact S1|]. eapply sframe_trans; [|eapply bump_other_sframe; exact E3].
  eapply (tx_send_sframe c1 _ c2 e); [|exact D|exact E]. unfold c1. cbn [coth set_coth pending set_pending]. rewrite nth_error_app2 by lia. now rewrite Nat.sub_diag.
Qed.
Lemma credit_sframe : forall c p, sframe c (credit c p).
Proof.
  intros c p. destruct p; try apply sframe_refl. cbn [credit]. destruct (_ =? 0).
  - destruct (grant _ _ _) as [s1|] eqn:G; [|apply sframe_refl]. unfold grant in G.
    assert (X : pending s1 = pending (cdata c) /\ nextseg s1 = nextseg (cdata c) /\ nextmsg s1 = nextmsg (cdata c) /\ maxseqsent s1 = maxseqsent (cdata c)).
    { destruct (flow (cdata c) =? 2); [|destruct (flow (cdata c) =? 1)];
        repeat match type of G with context [if ?b then _ else _] => destruct b end; try discriminate G; injection G as <-; repeat split. }
    destruct X as (A & B & C & D). now apply cdata_sframe.
  - unfold other_ls. destruct (0 <=? fcval); [apply coth_sframe; auto|apply sframe_refl].
Qed.
Lemma acc_sframe : forall c ch num p, sframe c (acc c ch num p).
Proof.
  intros c ch num p. unfold acc. set (c0 := putc c ch _). assert (S0 : sframe c c0) by (apply putc_sframe; reflexivity).
  assert (S1 : sframe c (emit c0 (ODeliver ch p))) by (eapply sframe_trans; [exact S0|apply emit_sframe; exact I]).
  destruct ch; [eapply sframe_trans; [exact S1|apply to_sc_sframe]|]. destruct (is_ls p); [eapply sframe_trans; [exact S1|apply credit_sframe]|]. eapply sframe_trans; [exact S1|apply to_sc_sframe].
Qed.
Lemma put_other_sframe : forall c i e e1, nth_error (pending (coth c)) i = Some e -> tp e1 = tp e -> sframe c (put_entry c CO i e1).
Proof.
  intros c i e e1 N T. apply coth_sframe. cbn [getc pending set_pending]. intros ND. apply upd_Forall; [|exact ND].
  unfold nd in ND. rewrite Forall_forall in ND. rewrite T. apply ND. eapply nth_error_In. exact N.
Qed.

(** ** Control messages of the data queue *)
Definition ctl_entry (e : txe) : Prop := is_ackhdr (tp e) = false /\ tseg e = 0.
(** [cs]: the control entry is updated, nothing else changes. *)
Lemma ctl_step : forall cfg rest F c c' i e e1, SI cfg rest F c -> nth_error (pending (cdata c)) i = Some e -> is_data (tp e) = false ->
  is_ackhdr (tp e1) = is_ackhdr (tp e) -> tseg e1 = tseg e -> pending (cdata c') = upd i e1 (pending (cdata c)) ->
  nextseg (cdata c') = nextseg (cdata c) -> nextmsg (cdata c') = nextmsg (cdata c) -> maxseqsent (cdata c') = maxseqsent (cdata c) ->
  (exists l, clog c' = clog c ++ l /\ nodata l) -> pending (coth c') = pending (coth c) -> cst c' = cst c -> SI cfg rest F c'.
Proof.
  intros cfg rest F c c' i e e1 [I1 I2 I3 I4 I4' I5] N D A T P N1 N2 M (l & L & ND) O ST.
  constructor; rewrite ?L, ?(hi_same _ _ ND), ?O; auto; [now apply log_ok_ext|]. rewrite ST.
  destruct I5 as [(ctl & ds & Q & MS & E1 & E2 & E3)|[I5 I6]]; [left|right].
  - pose proof (q_pend _ _ _ _ _ _ Q) as QP. pose proof (q_entries _ _ _ _ _ _ Q) as QE. pose proof (q_ctl _ _ _ _ _ _ Q) as QC.
    rewrite QP in N, P. destruct (find_ctl _ _ _ _ _ QE N D) as [LT NC]. exists (upd i e1 ctl), ds. split; [|split; [congruence|split; [exact E1|split; [|exact E3]]]].
    + eapply queue_same; eauto; [rewrite P; now apply upd_app_l|]. eapply ctl_upd; eauto.
    + intros S. rewrite (E2 S) in LT. cbn in LT. lia.
  - split; [|exact I6]. rewrite P. apply upd_Forall; [|exact I5]. unfold nah in I5. rewrite Forall_forall in I5. rewrite A. apply I5. eapply nth_error_In. exact N.
Qed.
Lemma ctl_tx : forall cfg rest F c i e c', SI cfg rest F c -> nth_error (pending (cdata c)) i = Some e -> is_data (tp e) = false -> tx_send c CD i = Ok c' -> SI cfg rest F c'.
Proof.
  intros cfg rest F c i e c' I N D H. pose proof (fr_st _ _ (tx_send_frame _ _ _ _ H)) as ST.
  destruct (tx_send_log _ _ _ _ H) as (e0 & p & g & N0 & L & _ & _ & D1 & AH & _ & _ & _ & _ & (e1 & P1 & E1 & E2 & _) & PX & K).
  cbn [getc cross] in *. assert (e0 = e) by congruence. subst e0. destruct (K CD) as (K1 & K2 & _ & K4 & _). cbn [getc] in *.
  apply (ctl_step cfg rest F c c' i e e1); auto; [congruence|]. exists [OTx p g]. split; [exact L|]. apply nodata_one. congruence.
Qed.
(** A control message is queued on an empty queue and sent. *)
Lemma ctl_new : forall cfg c p c', pending (cdata c) = [] -> is_ackhdr p = false -> data_send cfg c p = Ok c' ->
  exists e l, pending (cdata c') = [e] /\ ctl_entry e /\ clog c' = clog c ++ l /\ nodata l /\ nextseg (cdata c') = nextseg (cdata c) /\ nextmsg (cdata c') = nextmsg (cdata c) /\
   maxseqsent (cdata c') = maxseqsent (cdata c) /\ pending (coth c') = pending (coth c).
Proof.
  intros cfg c p c' P A H. unfold data_send in H.
  assert (M : make_entry cfg c p = (mk_txe p 0 0 0 false false None None, cdata c)) by (destruct p; try reflexivity; discriminate A). rewrite M, P in H.
  cbn [length app] in H. set (e := mk_txe p 0 0 0 false false None None) in *. set (c1 := set_cdata c (set_pending (cdata c) [e])) in *.
  assert (D : is_data p = false) by (destruct p; try reflexivity; discriminate A).
  unfold send_qe in H. change (nth_error (pending (cdata c1)) 0) with (Some e) in H. cbn [tp e] in H. rewrite D in H. cbn [andb] in H.
  destruct (tx_send c1 CD 0) as [c2|] eqn:E; cbn [bind andb] in H; [|discriminate]. injection H as <-.
  destruct (tx_send_log _ _ _ _ E) as (e0 & q & g & N0 & L & _ & _ & D1 & AH & _ & _ & _ & _ & (e1 & P1 & E1 & E2 & _) & PX & K).
  change (nth_error (pending (getc c1 CD)) 0) with (Some e) in N0. injection N0 as <-. cbn [getc cross] in *.
  destruct (K CD) as (K1 & K2 & _ & K4 & _). cbn [getc] in *. exists e1, [OTx q g].
  split; [exact P1|]. split; [split; [rewrite E1, AH; exact A|rewrite E2; reflexivity]|]. split; [exact L|]. split; [apply nodata_one; rewrite D1; exact D|].
  split; [exact K1|]. split; [exact K4|]. split; [exact K2|exact PX].
Qed.

Lemma SI_close : forall cfg rest F c, SI cfg rest F c -> SI cfg rest F (conn_close c).
Proof.
  intros cfg rest F c [I1 I2 I3 I4 I4' I5]. constructor; auto; [constructor|]. right. split; [constructor|reflexivity].
Qed.
Lemma SI_disc : forall cfg rest F c r x c1, SI cfg rest F c -> disc_rej cfg c r x = Ok c1 -> SI cfg rest F (set_cst c1 Sdi).
Proof.
  intros cfg rest F c r x c1 [I1 I2 I3 I4 I4' I5] H. unfold disc_rej in H. destruct (_ || _ || _) in H; [discriminate|].
  apply ctl_new in H as (e & l & P & [A _] & L & ND & _ & _ & _ & O); [|reflexivity|reflexivity]. cbn [clog set_coth set_cdata set_ctimer coth] in L, O.
  constructor; cbn [clog set_cst coth cdata cst]; rewrite ?L, ?O, ?(hi_same _ _ ND); auto; [now apply log_ok_ext|constructor|]. right. rewrite P. split; [|reflexivity].
  constructor; [exact A|constructor].
Qed.
Lemma SI_st : forall cfg rest F c st, SI cfg rest F c -> over (cst c) = false -> over st = false -> st <> Scr -> (early st = true -> early (cst c) = true) -> SI cfg rest F (set_cst c st).
Proof.
  intros cfg rest F c st [I1 I2 I3 I4 I4' I5] O O2 N E. constructor; auto. destruct I5 as [(ctl & ds & [Q1 Q2 Q3 Q4 Q5 Q6 Q7 Q8 Q9 Q10 Q11] & M & E1 & E2 & E3)|[_ I6]]; [|congruence].
  left. exists ctl, ds. split; [constructor; auto|]. cbn [cst set_cst]. repeat split; auto. intros; congruence.
Qed.

(** Data entries whose sending status changes. *)
Lemma data_upd : forall cfg rest F c i e e1, SI cfg rest F c -> nth_error (pending (cdata c)) i = Some e -> is_data (tp e) = true ->
  tp e1 = tp e -> tseg e1 = tseg e -> tmsg e1 = tmsg e -> ttries e1 = ttries e -> (ttimer e1 = true \/ tsent e1 = true -> 0 < ttries e) ->
  exists ctl ds, queue0 cfg rest F (put_entry c CD i e1) ctl ds /\ (early (cst c) = true -> ds = []) /\ (cst c = Scr -> ctl = []) /\ over (cst c) = false
     /\ maxseqsent (cdata c) = hi (clog c) mod 4096 /\ (0 < ttries e -> tseg e <= hi (clog c)).
Proof.
  intros cfg rest F c i e e1 [I1 I2 I3 I4 I4' I5] N D T1 T2 T3 T4 T5.
  destruct I5 as [(ctl & ds & [Q1 Q2 Q3 Q4 Q5 Q6 Q7 Q8 Q9 Q10 Q11] & MS & E1 & E2 & E3)|[I5 I6]].
  2:{ unfold nah in I5. rewrite Forall_forall in I5. specialize (I5 _ (nth_error_In _ _ N)). destruct (tp e); discriminate. }
  rewrite Q1 in N. destruct (find_data _ _ _ _ Q2 N D) as [IL ND]. rewrite Forall_forall in Q6. pose proof (Q6 _ (nth_error_In _ _ ND)) as (X1 & X2 & X3 & X4 & X5 & X6 & X7).
  exists ctl, (upd (i - length ctl) e1 ds). split; [|split; [|auto]].
  - unfold put_entry. cbn [getc putc]. constructor; cbn [cdata set_cdata pending set_pending nextseg nextmsg clog]; auto.
    + rewrite Q1. now apply upd_app_r.
    + eapply numbered_upd; eauto.
    + unfold zlen in *. rewrite upd_length. exact Q4.
    + apply upd_Forall; [|now apply Forall_forall]. unfold entry_ok. rewrite T1, T2, T3, T4. repeat (split; [assumption|]). exact T5.
  - intros E. rewrite (E1 E) in ND. destruct (i - length ctl)%nat; discriminate.
Qed.
Lemma entry_timer : forall cfg rest F c i e, SI cfg rest F c -> nth_error (pending (cdata c)) i = Some e -> is_data (tp e) = true -> ttimer e = true \/ tsent e = true -> 0 < ttries e.
Proof.
  intros cfg rest F c i e [I1 I2 I3 I4 I4' I5] N D T.
  destruct I5 as [(ctl & ds & [Q1 Q2 Q3 Q4 Q5 Q6 Q7 Q8 Q9 Q10 Q11] & MS & E1 & E2 & E3)|[I5 I6]].
  2:{ unfold nah in I5. rewrite Forall_forall in I5. specialize (I5 _ (nth_error_In _ _ N)). destruct (tp e); discriminate. }
  rewrite Q1 in N. destruct (find_data _ _ _ _ Q2 N D) as [IL ND]. rewrite Forall_forall in Q6. pose proof (Q6 _ (nth_error_In _ _ ND)) as (X1 & X2 & X3 & X4 & X5 & X6 & X7). auto.
Qed.

(** Where [F] moves to. *)
Definition advance (l : list (chan * Z)) (c : conn) (F F' : Z) : Prop :=
  F' = F \/ exists n a, In (CD, n) l /\ a mod 4096 = n mod 4096 /\ F <= a <= hi (clog c) /\ F' = a + 1.
Lemma SI_ack : forall cfg rest F c n c', 1 <= qmax cfg <= 2047 -> SI cfg rest F c -> chan_ack c CD n = Ok c' -> exists F', SI cfg rest F' c' /\
  (F' = F /\ (over (cst c) = true \/ cdata c' = cdata c \/ (exists e, In e (pending (cdata c)) /\ is_data (tp e) = false) /\ maxackseg (cdata c') = 0) \/
   exists a, a mod 4096 = n mod 4096 /\ F <= a <= hi (clog c) /\ F' = a + 1 /\ maxackseg (cdata c') = a /\ Forall (fun e => is_data (tp e) = true) (pending (cdata c))).
Proof.
  intros cfg rest F c n c' QM [I1 I2 I3 I4 I4' I5] H. destruct I5 as [(ctl & ds & Q & MS & E1 & E2 & E3)|[I5 I6]].
  - destruct (ack_data _ _ _ _ _ _ _ _ QM Q MS H) as (F' & ctl' & ds' & Q' & A1 & A2 & A3 & A4 & A5 & A6 & A7).
    exists F'. split.
    + pose proof Q' as [_ _ _ _ Y5 _ _ _ Y9 Y10 Y11]. rewrite A4 in *. constructor; rewrite ?A4, ?A6, ?A5; auto. left. exists ctl', ds'. split; [exact Q'|]. split; [congruence|]. auto.
    + pose proof (q_pend _ _ _ _ _ _ Q) as QP. destruct A7 as [[-> A7]|(a & X1 & X2 & X3 & X4 & X5)]; [left; split; [reflexivity|]|right].
      * destruct A7 as [A7|[A7 A8]]; [right; left; exact A7|right; right]. split; [|exact A8]. destruct ctl as [|x ctl]; [congruence|]. exists x. rewrite QP. split; [left; reflexivity|].
        apply (ctl_data _ 0%nat x (q_ctl _ _ _ _ _ _ Q) eq_refl).
      * exists a. repeat (split; [assumption|]). rewrite QP, X5. cbn [app]. eapply Forall_impl; [|exact (q_entries _ _ _ _ _ _ Q)]. intros e X. apply X.
  - exists F. split; [|left; auto]. unfold chan_ack in H. cbn [getc] in H. destruct (sub_ack (cdata c) n) as [s|] eqn:E; cbn [bind putc] in H; [|discriminate]. injection H as <-.
    apply sub_ack_spec in E as (k & P & _). constructor; auto. right. split; [|exact I6]. cbn [cdata set_cdata]. rewrite P.
    unfold nah in *. rewrite Forall_forall in *. intros y Y. apply I5. rewrite <- (firstn_skipn k). apply in_or_app. auto.
Qed.
Lemma SI_prim : forall cfg arr l c c' rest F, 1 <= qmax cfg <= 2047 -> prim cfg arr false l c c' -> SI cfg rest F c -> exists F', SI cfg rest F' c' /\ advance l c F F'.
Proof.
  intros cfg arr l c c' rest F QM H I.
  assert (FR : sframe c c' -> exists F', SI cfg rest F' c' /\ advance l c F F') by (intros S; exists F; split; [eapply SI_sframe; eauto|left; reflexivity]).
  assert (SM : SI cfg rest F c' -> exists F', SI cfg rest F' c' /\ advance l c F F') by (intros S; exists F; split; [exact S|left; reflexivity]).
  destruct H.
  - apply FR. destruct H. constructor; try congruence. exists []. rewrite app_nil_r. split; [congruence|constructor].
  - apply SM. apply SI_st; auto; destruct H as [H|[H|H]], H0 as [H0|H0]; subst; rewrite ?H; auto; congruence.
  - apply SM. apply SI_st; auto; rewrite ?H; auto; congruence.
  - apply SM. pose proof (fr_st _ _ (data_send_frame _ _ _ _ H0)) as ST. cbn [cst set_cst] in ST. destruct I as [I1 I2 I3 I4 I4' I5].
    destruct I5 as [(ctl & ds & Q & MS & E1 & E2 & E3)|[_ I6]]; [|rewrite H in I6; discriminate].
    assert (ctl = []) by auto. assert (ds = []) by (apply E1; rewrite H; reflexivity). subst ctl ds.
    apply ctl_new in H0 as (e & m & P & CE & L & ND & N1 & N2 & M & O); [|exact (q_pend _ _ _ _ _ _ Q)|reflexivity].
    cbn [clog set_cst coth cdata] in *.
    constructor; rewrite ?L, ?(hi_same _ _ ND), ?O; auto; [now apply log_ok_ext|]. left. exists [e], []. rewrite ST. split; [|split; [congruence|split; [auto|split; [discriminate|reflexivity]]]].
    eapply queue_same; eauto. right. exists e. destruct CE. auto.
  - apply SM. destruct I as [I1 I2 I3 I4 I4' I5]. constructor; auto. right. cbn [cst set_cst cdata]. split; [|reflexivity].
    assert (P : pending (cdata c) = []). { destruct H as [H|[_ H]]; [|exact H]. destruct I5 as [(ctl & ds & Q & MS & E1 & E2 & E3)|[_ I6]]; [|rewrite H in I6; discriminate].
      rewrite (q_pend _ _ _ _ _ _ Q), (E2 H), E1; [reflexivity|]. rewrite H. reflexivity. }
    rewrite P. constructor.
  - apply SM. eapply SI_disc; eauto.
  - apply SM. now apply SI_close.
  - apply FR. apply emit_sframe. exact Logic.I.
  - apply FR. apply emit_sframe. exact Logic.I.
  - apply FR. apply sendmsg_log in H2. subst c'. apply emit_sframe. destruct p; try reflexivity; discriminate H.
  - apply FR. eapply send_ack_sframe; eauto.
  - apply FR. apply putc_sframe; reflexivity.
  - apply FR. apply cdata_sframe; reflexivity.
  - (* blk *) apply SM. destruct I as [I1 I2 I3 I4 I4' I5]. destruct I5 as [(ctl & ds & Q & MS & E1 & E2 & E3)|[I5 I6]].
    2:{ unfold nah in I5. rewrite Forall_forall in I5. specialize (I5 _ (nth_error_In _ _ H)). destruct (tp e); discriminate. }
    pose proof (flow_bound _ _ _ _ _ _ _ _ Q H H2) as FB.
    destruct (tx_data _ _ _ _ _ _ _ _ _ Q H H0 FB H3 I1) as (ds' & Q' & HI & M' & LO & ST & OT & FT & SN & DE). rewrite SN in H4.
    destruct (bump_data _ _ _ _ _ _ (hi (clog c)) (tseg e) _ Q' ltac:(congruence) HI ltac:(lia) FT QM H4) as (Q2 & MS2 & L2 & ST2 & OT2).
    constructor; rewrite ?L2, ?HI, ?OT2, ?OT; auto; try lia. left. exists ctl, ds'. rewrite ST2, ST. split; [exact Q2|]. split; [rewrite MS2, ?L2, ?HI; reflexivity|]. split; [auto|]. split; [exact E2|exact E3].
  - apply SM. eapply ctl_tx; eauto.
  - (* bump *) apply SM. destruct (data_upd cfg rest F c i e e I H H0) as (ctl & ds & Q & E1 & E2 & E3 & MS & TH); auto; [intros _; eapply entry_timer; eauto|].
    assert (TT : 0 < ttries e) by (eapply entry_timer; eauto).
    destruct I as [I1 I2 I3 I4 I4' I5]. destruct I5 as [(ctl2 & ds2 & Q2 & MS2 & _)|[_ I6]]; [|congruence].
    pose proof (q_pend _ _ _ _ _ _ Q2) as QP. rewrite QP in H. destruct (find_data _ _ _ _ (q_ctl _ _ _ _ _ _ Q2) H H0) as [IL ND].
    pose proof (q_entries _ _ _ _ _ _ Q2) as QE. rewrite Forall_forall in QE. pose proof (QE _ (nth_error_In _ _ ND)) as (X1 & X2 & X3 & X4 & X5 & X6 & X7).
    pose proof (numbered_nth _ _ _ _ (q_num _ _ _ _ _ _ Q2) ND) as TS. rewrite X3 in H2.
    destruct (bump_data _ _ _ _ _ _ (hi (clog c)) (tseg e) _ Q2 MS2 ltac:(lia) ltac:(lia) ltac:(lia) QM H2) as (Q3 & MS3 & L3 & ST3 & OT3).
    constructor; rewrite ?L3, ?OT3; auto. left. exists ctl2, ds2. rewrite ST3. split; [exact Q3|]. split; [congruence|]. split; [|split; [|exact E3]].
    + intros E. specialize (E1 E). subst ds. pose proof (q_next _ _ _ _ _ _ Q) as QN. pose proof (q_next _ _ _ _ _ _ Q2) as QN2. unfold put_entry in QN. cbn [cdata getc putc set_cdata nextseg set_pending] in QN.
      rewrite <- QN2 in QN. rewrite zlen_nil in QN. destruct ds2; [reflexivity|]. rewrite zlen_cons in QN. pose proof (zlen_nonneg _ ds2). lia.
    + intros S. exfalso. assert (early (cst c) = true) by (rewrite S; reflexivity). specialize (E1 H3). subst ds.
      pose proof (q_next _ _ _ _ _ _ Q) as QN. pose proof (q_next _ _ _ _ _ _ Q2) as QN2. unfold put_entry in QN. cbn [cdata getc putc set_cdata nextseg set_pending] in QN.
      rewrite <- QN2 in QN. rewrite zlen_nil in QN. destruct ds2; [destruct (i - length ctl2)%nat; discriminate|]. rewrite zlen_cons in QN. pose proof (zlen_nonneg _ ds2). lia.
  - discriminate.
  - apply FR. eapply sframe_trans; [eapply other_send_sframe; [|exact H]; reflexivity|]. apply coth_sframe. auto.
  - apply FR. eapply sframe_trans; [|eapply other_send_sframe; [|exact H1]; reflexivity]. apply coth_sframe. auto.
  - (* ack *) destruct ch.
    + destruct (SI_ack _ _ _ _ _ _ QM I H) as (F' & I' & A). exists F'. split; [exact I'|]. destruct A as [[-> _]|(a & X1 & X2 & X3 & _)]; [left; reflexivity|right].
      exists n, a. split; [left; reflexivity|auto].
    + apply FR. unfold chan_ack in H. cbn [getc] in H. destruct (sub_ack (coth c) n) as [s|] eqn:E; cbn [bind putc] in H; [|discriminate]. injection H as <-.
      apply sub_ack_spec in E as (k & P & _). apply coth_sframe. rewrite P. unfold nd. rewrite !Forall_forall. intros X y Y. apply X. rewrite <- (firstn_skipn k). apply in_or_app. auto.
  - apply SM. destruct I as [I1 I2 I3 I4 I4' I5]. destruct I5 as [(ctl & ds & Q & MS & E1 & E2 & E3)|[I5 I6]]; [|destruct (cst c); discriminate].
    destruct (ack_data _ _ _ _ _ _ _ _ QM Q MS H0) as (F' & ctl' & ds' & Q' & A1 & A2 & A3 & A4 & A5 & A6 & A7).
    assert (DE : ds = []) by auto. pose proof (q_next _ _ _ _ _ _ Q) as QN. pose proof (q_next _ _ _ _ _ _ Q') as QN'. rewrite (A1 DE) in *. rewrite DE, zlen_nil in *.
    assert (F' = F). { pose proof (q_hi2 _ _ _ _ _ _ Q). destruct A7 as [[A7 _]|(a & X1 & X2 & X3 & _)]; [exact A7|]. lia. }
    subst F'. constructor; rewrite ?A4, ?A6, ?A5; auto. left. exists ctl', []. split; [exact Q'|]. split; [congruence|]. auto.
  - apply FR. apply putc_sframe; reflexivity.
  - apply FR. apply acc_sframe.
  - apply FR. eapply sframe_trans; [|apply acc_sframe]. apply putc_sframe; reflexivity.
  - (* retx *) destruct ch; cbn [getc] in *.
    + destruct (is_data (tp e)) eqn:D.
      * apply SM. specialize (H2 eq_refl). assert (TT : 0 < ttries e) by (eapply entry_timer; eauto).
        destruct (data_upd cfg rest F c i e e1 I H D) as (ctl & ds & Q & E1 & E2 & E3 & MS & TH); auto. fold c0 in Q.
        assert (N0 : nth_error (pending (cdata c0)) i = Some e1) by (unfold c0, put_entry; cbn [getc putc cdata set_cdata pending set_pending]; eapply upd_nth_same; exact H).
        pose proof (flow_bound _ _ _ _ _ _ _ _ Q N0 H2) as FB.
        destruct (tx_data _ _ _ _ _ _ _ _ _ Q N0 D FB H3 (si_log _ _ _ _ I)) as (ds' & Q' & HI & M' & LO & ST & OT & FT & SN & DE).
        destruct I as [I1 I2 I3 I4 I4' I5]. change (clog c0) with (clog c) in HI. change (tseg e1) with (tseg e) in HI.
        assert (HS : hi (clog c1) = hi (clog c)) by (rewrite HI; specialize (TH TT); lia).
        constructor; rewrite ?HS, ?OT; auto. left. exists ctl, ds'. rewrite ST. split; [exact Q'|]. split; [rewrite M'; exact MS|]. split; [auto|]. split; [exact E2|exact E3].
      * apply SM. assert (N0 : nth_error (pending (cdata c0)) i = Some e1) by (unfold c0, put_entry; cbn [getc putc cdata set_cdata pending set_pending]; eapply upd_nth_same; exact H).
        eapply ctl_tx; [|exact N0|exact D|exact H3]. eapply (ctl_step cfg rest F c c0 i e e1); eauto. exists []. rewrite app_nil_r. split; [reflexivity|constructor].
    + apply FR. assert (D : is_data (tp e) = false) by (destruct I as [_ I2 _ _ _ _]; unfold nd in I2; rewrite Forall_forall in I2; apply I2; eapply nth_error_In; exact H).
      eapply sframe_trans; [apply (put_other_sframe c i e e1 H eq_refl)|]. eapply (tx_send_sframe c0 i c1 e1); [|exact D|exact H3].
      unfold c0, put_entry. cbn [getc putc coth set_coth pending set_pending]. eapply upd_nth_same. exact H.
  - destruct ch; cbn [getc] in *; [|apply FR; eapply put_other_sframe; eauto]. apply SM.
    destruct (data_upd cfg rest F c i e (set_tsent (set_ttimer e false) false) I H H2) as (ctl & ds & Q & E1 & E2 & E3 & MS & TH); auto; [intros [X|X]; discriminate|].
    destruct I as [I1 I2 I3 I4 I4' I5]. constructor; auto. left. exists ctl, ds. auto.
  - destruct ch; cbn [getc] in *; [|apply FR; eapply put_other_sframe; eauto]. apply SM.
    apply (ctl_step cfg rest F c (put_entry c CD i (set_ttimer e false)) i e (set_ttimer e false)); auto; [destruct (tp e); try reflexivity; discriminate|].
    exists []. rewrite app_nil_r. split; [reflexivity|constructor].
  - apply SM. destruct I as [I1 I2 I3 I4 I4' I5].
    assert (X : SI cfg rest F (conn_close (emit (putc c ch (set_pending (getc c ch) (upd i (set_ttimer e false) (pending (getc c ch))))) (OSc (SPkt (NDI 0 0 UNREACH [])) false)))); [|exact X].
    assert (ND : nodata [OSc (SPkt (NDI 0 0 UNREACH [])) false]) by (apply nodata_one; exact Logic.I).
    assert (LG : forall s, clog (putc c ch s) = clog c) by (intros; destruct ch; reflexivity).
    constructor; cbn [conn_close clog emit set_clog set_cst set_coth set_cdata set_ctimer coth cdata cst]; rewrite ?LG, ?(hi_same _ _ ND); auto; [now apply log_ok_ext|constructor|].
    right. split; [constructor|reflexivity].
Qed.

(** ** send_data *)
Lemma log_content : forall cfg rest F c ctl ds, queue0 cfg rest F c ctl ds -> nextseg (cdata c) - 1 <= zlen (content (clog c)) /\ 0 <= nextseg (cdata c) - 1.
Proof. intros cfg rest F c ctl ds [Q1 Q2 Q3 Q4 Q5 Q6 [Q7 _] Q8 Q9 Q10 Q11]. pose proof (zlen_nonneg _ rest). pose proof (zlen_nonneg _ ds). lia. Qed.
Lemma nth_app_some : forall A (a b : list A) n x, nth_error a n = Some x -> nth_error (a ++ b) n = Some x.
Proof. intros A a b n x H. rewrite nth_error_app1; [exact H|]. apply nth_error_Some. congruence. Qed.
Lemma entry_accept : forall log o e, dseg o = 0 -> 1 <= tseg e -> entry_ok log e -> entry_ok (log ++ [o]) e.
Proof.
  intros log o e D T (E1 & E2 & E3 & E4 & E5 & E6). unfold entry_ok. rewrite content_app, hi_app. cbn [hi fold_right]. rewrite D. pose proof (hi_nonneg log).
  split; [exact E1|]. split; [now apply nth_app_some|]. split; [exact E3|]. split; [|split; [lia|exact E6]].
  rewrite firstn_app_l; [exact E4|]. apply nth_lt in E2. lia.
Qed.
Lemma SI_accept : forall cfg F c size data, cst c = Srun -> SI cfg [] F c -> SI cfg (cut (length data) 1 size data) F (emit c (OAccepted size data)).
Proof.
  intros cfg F c size data S [I1 I2 I3 I4 I4' I5].
  assert (HI : hi (clog c ++ [OAccepted size data]) = hi (clog c)) by (rewrite hi_app; cbn [hi fold_right dseg]; pose proof (hi_nonneg (clog c)); lia).
  set (add := cut (length data) 1 size data) in *.
  assert (CT : content (clog c ++ [OAccepted size data]) = content (clog c) ++ add) by (rewrite content_app; cbn [content flat_map taken]; now rewrite app_nil_r).
  constructor; cbn [clog emit set_clog coth cst cdata]; rewrite ?HI; auto.
  - intros p g IN D. rewrite CT. apply in_app_or in IN as [IN|[IN|[]]]; [|discriminate]. destruct (I1 p g IN D) as (A1 & A2 & A3 & A4).
    split; [exact A1|]. split; [now apply nth_app_some|]. split; [exact A3|]. rewrite firstn_app_l; [exact A4|]. apply nth_lt in A2. lia.
  - destruct I5 as [(ctl & ds & Q & MS & E1 & E2 & E3)|[_ I6]]; [|rewrite S in I6; discriminate]. left. exists ctl, ds.
    split; [|auto]. pose proof (log_content _ _ _ _ _ _ Q) as [LC1 LC2]. destruct Q as [Q1 Q2 Q3 Q4 Q5 Q6 [Q7 Q7'] Q8 Q9 Q10 Q11].
    constructor; cbn [clog emit set_clog cdata]; rewrite ?HI, ?CT; auto.
    + apply Forall_forall. intros e IN. rewrite Forall_forall in Q6. apply entry_accept; [reflexivity| |auto].
      apply In_nth_error in IN as [k K]. rewrite (numbered_nth _ _ _ _ Q3 K). lia.
    + rewrite zlen_nil in Q7. split; [rewrite zlen_app; lia|]. rewrite skipn_app, Q7'. cbn [app]. replace (Z.to_nat (nextseg (cdata c) - 1) - length (content (clog c)))%nat with 0%nat; [reflexivity|].
      unfold zlen in Q7. lia.
    + rewrite firstn_app_l; [exact Q8|]. unfold zlen in LC1. lia.
Qed.
Lemma eoms_app : forall a b, eoms (a ++ b) = eoms a + eoms b.
Proof. intros a b. unfold eoms. now rewrite filter_app, zlen_app. Qed.
Lemma firstn_S_nth : forall A n (l : list A) x, nth_error l n = Some x -> firstn (S n) l = firstn n l ++ [x].
Proof. induction n as [|n IH]; intros [|y l] x H; try discriminate; cbn [nth_error] in H; [injection H as ->; reflexivity|]. cbn [firstn app]. now rewrite <- (IH l x H). Qed.
Lemma skipn_S_nth : forall A n (l : list A) x t, skipn n l = x :: t -> nth_error l n = Some x /\ skipn (S n) l = t.
Proof. induction n as [|n IH]; intros [|y l] x t H; try discriminate; cbn [skipn] in H; [injection H as -> ->; auto|]. cbn [nth_error]. apply (IH l x t H). Qed.
Lemma SI_enq : forall cfg rest F c d s bo eo pl e s1, cst c = Srun -> SI cfg ((bo, eo, pl) :: rest) F c -> make_entry cfg c (NData d s None None 0 0 bo eo pl) = (e, s1) ->
  SI cfg rest F (set_cdata c (set_pending s1 (pending (cdata c) ++ [e]))) /\ is_data (tp e) = true.
Proof.
  intros cfg rest F c d s bo eo pl e s1 S I ME. set (c1 := set_cdata c (set_pending s1 (pending (cdata c) ++ [e]))).
  destruct I as [I1 I2 I3 I4 I4' I5]. unfold make_entry in ME. injection ME as ME1 ME2. split; [|rewrite <- ME1; reflexivity].
    destruct I5 as [(ctl & ds & Q & MS & E1 & E2 & E3)|[_ I6]]; [|rewrite S in I6; discriminate].
    constructor; auto. left. exists ctl, (ds ++ [e]). pose proof (log_content _ _ _ _ _ _ Q) as [LC1 LC2]. destruct Q as [Q1 Q2 Q3 Q4 Q5 Q6 [Q7 Q7'] Q8 Q9 Q10 Q11].
    destruct (skipn_S_nth _ _ _ _ _ Q7') as [NT SK]. rewrite zlen_cons in Q7.
    assert (TS : tseg e = nextseg (cdata c)) by (rewrite <- ME1; reflexivity).
    assert (NS : nextseg (cdata c1) = nextseg (cdata c) + 1) by (unfold c1; rewrite <- ME2; reflexivity).
    split.
    - constructor; rewrite ?NS; unfold c1; cbn [cdata set_cdata clog]; auto; try lia.
      + rewrite <- ME2. cbn [pending set_pending]. rewrite Q1. apply app_assoc_reverse.
      + apply numbered_snoc; [exact Q3|]. rewrite TS. lia.
      + rewrite zlen_app, zlen_cons, zlen_nil. lia.
      + apply Forall_app. split; [exact Q6|]. constructor; [|constructor]. unfold entry_ok. rewrite <- ME1. cbn [tp tseg tmsg ttries ttimer tsent is_data seg_of segnum].
        split; [reflexivity|]. split; [exact NT|]. split; [reflexivity|]. split; [exact Q8|]. split; [lia|]. split; [lia|]. intros [X|X]; discriminate.
      + unfold seg in *. split; [lia|]. replace (Z.to_nat (nextseg (cdata c) + 1 - 1)) with (Datatypes.S (Z.to_nat (nextseg (cdata c) - 1))) by lia. exact SK.
      + rewrite <- ME2. cbn [nextmsg set_nextmsg set_pending]. replace (Z.to_nat (nextseg (cdata c) + 1 - 1)) with (Datatypes.S (Z.to_nat (nextseg (cdata c) - 1))) by lia.
        rewrite (firstn_S_nth _ _ _ _ NT), eoms_app. unfold eoms at 2. cbn [filter fst snd]. rewrite Q8. destruct (eo =? 0); cbn [negb]; rewrite ?zlen_cons, zlen_nil; lia.
    - split; [unfold c1; rewrite <- ME2; exact MS|]. unfold c1. cbn [cst set_cdata]. rewrite S. repeat split; auto; discriminate.
Qed.
Lemma SI_seg : forall cfg rest F c d s bo eo pl c', 1 <= qmax cfg <= 2047 -> cst c = Srun -> SI cfg ((bo, eo, pl) :: rest) F c ->
  data_send cfg c (NData d s None None 0 0 bo eo pl) = Ok c' -> SI cfg rest F c'.
Proof.
  intros cfg rest F c d s bo eo pl c' QM S I H. unfold data_send in H. destruct (make_entry cfg c _) as [e s1] eqn:ME.
  set (c1 := set_cdata c (set_pending s1 (pending (cdata c) ++ [e]))) in *.
  assert (I1 : SI cfg rest F c1 /\ is_data (tp e) = true).
  { eapply SI_enq; eauto. }
  destruct I1 as [I1 D].
  assert (N : nth_error (pending (cdata c1)) (length (pending (cdata c))) = Some e).
  { unfold c1. cbn [cdata set_cdata pending set_pending]. rewrite nth_error_app2 by lia. now rewrite Nat.sub_diag. }
  unfold send_qe in H. rewrite N, D in H. cbn [andb] in H. destruct (flow_ok cfg (cdata c1) e) eqn:FO; cbn [negb bind andb] in H; [|injection H as <-; exact I1].
  destruct (tx_send c1 CD _) as [c2|] eqn:X; cbn [bind andb] in H; [|discriminate].
  assert (TS : tsent e = false) by (unfold make_entry in ME; injection ME as <- _; reflexivity).
  destruct (SI_prim cfg None [] c1 c' rest F QM) as (F' & I2 & [-> |(n & a & IN & _)]); auto; [|destruct IN]. eapply P_blk; eauto.
Qed.
Lemma SI_segs : forall cfg l F c c', 1 <= qmax cfg <= 2047 -> cst c = Srun -> SI cfg l F c -> send_segs cfg c l = Ok c' -> SI cfg [] F c'.
Proof.
  induction l as [|[[bo eo] pl] l IH]; intros F c c' QM S I H; cbn [send_segs] in H; [injection H as <-; exact I|].
  destruct (data_send cfg c _) as [c1|] eqn:E; cbn [bind] in H; [|discriminate].
  apply (IH F c1 c' QM); [rewrite (fr_st _ _ (data_send_frame _ _ _ _ E)); exact S| |exact H]. eapply SI_seg; eauto.
Qed.

(** ** Executions *)
Lemma hi_mono : forall log l, hi log <= hi (log ++ l).
Proof. intros. rewrite hi_app. lia. Qed.
(** An advance along several steps: each move is to one past an acknowledged segment that had been sent. *)
Inductive advances : list (chan * Z) -> Z -> Z -> Z -> Prop :=
  | adv_nil : forall H F, advances [] H F F
  | adv_keep : forall x l H F G, advances l H F G -> advances (x :: l) H F G
  | adv_move : forall n a l H F G, a mod 4096 = n mod 4096 -> F <= a <= H -> advances l H (a + 1) G -> advances ((CD, n) :: l) H F G.
Lemma advances_le : forall l H F G, advances l H F G -> F <= G.
Proof. intros l H F G A. induction A; lia. Qed.
Lemma advances_app : forall l m H F G K, advances l H F G -> advances m H G K -> advances (l ++ m) H F K.
Proof. intros l m H F G K A B. induction A; cbn [app]; [exact B|constructor; auto|eapply adv_move; eauto]. Qed.
Lemma advances_weak : forall l H H' F G, H <= H' -> advances l H F G -> advances l H' F G.
Proof. intros l H H' F G L A. induction A; [constructor|constructor; auto|eapply adv_move; eauto; lia]. Qed.
Lemma prim_label : forall cfg arr sn l c c', prim cfg arr sn l c c' -> l = [] \/ exists ch n, l = [(ch, n)].
Proof. intros cfg arr sn l c c' H. destruct H; auto. right. eauto. Qed.
Lemma advance_s : forall l c F F' H, (l = [] \/ exists ch n, l = [(ch, n)]) -> hi (clog c) <= H -> advance l c F F' -> advances l H F F'.
Proof.
  intros l c F F' H L LE [-> |(n & a & IN & A & B & ->)].
  - destruct L as [-> |(ch & n & ->)]; repeat constructor.
  - destruct L as [-> |(ch & m & ->)]; [destruct IN|]. destruct IN as [IN|[]]. injection IN as -> ->. eapply adv_move; eauto; [lia|constructor].
Qed.
Lemma prim_log : forall cfg arr sn l c c', prim cfg arr sn l c c' -> exists m, clog c' = clog c ++ m.
Proof.
  assert (SF : forall c c', frame c c' -> exists m, clog c' = clog c ++ m) by (intros c c' F; destruct (fr_log _ _ F) as (m & M & _); eauto).
  assert (Z0 : forall c : conn, exists m, clog c = clog c ++ m) by (intros; exists []; now rewrite app_nil_r).
  assert (TS : forall c p r, exists m, clog (to_sc c p r) = clog c ++ m) by (intros c p r; destruct (sf_log _ _ (to_sc_sframe c p r)) as (m & M & _); eauto).
  intros cfg arr sn l c c' H. destruct H; cbn [clog set_cst set_cdata set_coth emit set_clog]; auto.
  - exists []. rewrite app_nil_r. apply (sc_log _ _ H).
  - apply data_send_frame in H0. destruct (SF _ _ H0) as (m & M). exists m. exact M.
  - unfold disc_rej in H0. destruct (_ || _ || _) in H0; [discriminate|]. apply data_send_frame in H0. destruct (SF _ _ H0) as (m & M). exists m. exact M.
  - apply (Z0 c).
  - eauto.
  - eauto.
  - apply SF. eapply sendmsg_frame; eauto.
  - apply SF. eapply send_ack_frame; eauto.
  - destruct ch; apply (Z0 c).
  - destruct (SF _ _ (tx_send_frame _ _ _ _ H3)) as (m & M). destruct (SF _ _ (bump_frame _ _ _ _ H4)) as (k & K). rewrite K, M, <- app_assoc. eauto.
  - apply SF. eapply tx_send_frame; eauto.
  - apply SF. eapply bump_frame; eauto.
  - apply (SF c c1). eapply other_send_frame; eauto.
  - destruct (SF _ _ (other_send_frame _ _ _ _ H1)) as (m & M). exists m. exact M.
  - apply SF. eapply chan_ack_frame; eauto.
  - apply SF. eapply chan_ack_frame; eauto.
  - destruct ch; apply (Z0 c).
  - destruct (sf_log _ _ (acc_sframe c ch (segnum p) p)) as (m & M & _). eauto.
  - set (c0 := putc c ch _). destruct (sf_log _ _ (acc_sframe c0 ch num q)) as (m & M & _). exists m. rewrite M. unfold c0. destruct ch; reflexivity.
  - destruct (SF _ _ (tx_send_frame _ _ _ _ H3)) as (m & M). exists m. rewrite M. unfold c0, put_entry. destruct ch; reflexivity.
  - unfold put_entry. destruct ch; apply (Z0 c).
  - unfold put_entry. destruct ch; apply (Z0 c).
  - unfold put_entry. destruct ch; cbn [clog conn_close to_sc emit set_clog putc set_cdata set_coth set_cst set_ctimer]; eauto.
Qed.
Lemma star_log : forall cfg arr sn l c c', star cfg arr sn l c c' -> exists m, clog c' = clog c ++ m.
Proof.
  intros cfg arr sn l c c' H. induction H as [w|l m a b c H1 H2 [k IH]]; [exists []; now rewrite app_nil_r|].
  destruct (prim_log _ _ _ _ _ _ H1) as (j & J). rewrite IH, J, <- app_assoc. eauto.
Qed.
Lemma SI_star : forall cfg arr l c c', star cfg arr false l c c' -> 1 <= qmax cfg <= 2047 -> forall rest F, SI cfg rest F c -> exists F', SI cfg rest F' c' /\ advances l (hi (clog c')) F F'.
Proof.
  intros cfg arr l c c' H. induction H as [w|l m a b c H1 H2 IH]; intros QM rest F I; [exists F; split; [exact I|constructor]|].
  destruct (SI_prim _ _ _ _ _ rest F QM H1 I) as (F1 & I1 & A1). destruct (IH QM rest F1 I1) as (F2 & I2 & A2). exists F2. split; [exact I2|].
  eapply advances_app; [|exact A2]. eapply advance_s; [eapply prim_label; exact H1| |exact A1].
  destruct (prim_log _ _ _ _ _ _ H1) as (j & J). destruct (star_log _ _ _ _ _ _ H2) as (k & K). rewrite K, J. etransitivity; [|apply hi_mono]. apply hi_mono.
Qed.
Lemma SI_step : forall cfg c e c' F, 1 <= qmax cfg <= 2047 -> 1 <= phase cfg -> ev_ok e -> SI cfg [] F c -> cstep cfg c e = Ok c' ->
  exists F', SI cfg [] F' c' /\ advances (ev_acks c e) (hi (clog c')) F F'.
Proof.
  intros cfg c e c' F QM PH EO I H. destruct (is_send e) eqn:S.
  - destruct e; try discriminate S. cbn [cstep ev_acks] in *. exists F. split; [|constructor]. unfold conn_send in H.
    destruct (cst c) eqn:ST; cbn [cstate_eqb negb orb] in H; try (injection H as <-; eapply SI_sframe; [apply emit_sframe; exact Logic.I|exact I]).
    destruct (cshut c); [injection H as <-; eapply SI_sframe; [apply emit_sframe; exact Logic.I|exact I]|].
    destruct (csegsize c =? 0); [discriminate|]. eapply SI_segs; [exact QM| |apply SI_accept; [exact ST|exact I]|exact H]. exact ST.
  - eapply SI_star; [|exact QM|exact I]. eapply step_star; eauto.
Qed.
Lemma SI_fresh : forall cfg c, pending (cdata c) = [] -> nextseg (cdata c) = 1 -> nextmsg (cdata c) = 1 -> maxseqsent (cdata c) = 0 -> coth c = new_other -> nodata (clog c) ->
  over (cst c) = false -> 1 <= qmax cfg -> SI cfg [] 1 c.
Proof.
  intros cfg c P N1 N2 M O ND OV QM.
  constructor; rewrite ?(nodata_hi _ ND); try lia.
  - intros p g IN D. unfold nodata in ND. rewrite Forall_forall in ND. specialize (ND _ IN). cbn in ND. congruence.
  - rewrite O. constructor.
  - left. exists [], []. split; [|rewrite M; auto]. constructor; rewrite ?(nodata_hi _ ND), ?(nodata_content _ ND), ?N1, ?N2; auto; try lia; try constructor; auto.
Qed.
Lemma SI_inbound : forall cfg src dest p c, 1 <= qmax cfg -> conn_inbound cfg src dest p = Ok c -> SI cfg [] 1 c.
Proof.
  intros cfg src dest p c QM H. destruct p; try discriminate H. cbn [conn_inbound] in H.
  destruct (if 2 <? _ then _ else _) as [c1|] eqn:E in H; cbn [bind] in H; [|discriminate]. injection H as <-.
  set (c0 := setphase cfg _ info) in *.
  assert (X : cdata c1 = set_flow new_data fcopt /\ coth c1 = new_other /\ nodata (clog c1) /\ cst c1 = Scr).
  { destruct (2 <? cphase c0); [apply sendmsg_log in E; subst c1|injection E as <-]; repeat split; constructor; try reflexivity; constructor. }
  destruct X as (X1 & X2 & X3 & X4). apply SI_fresh; cbn [cdata set_ctimer to_sc emit set_clog coth clog cst]; rewrite ?X1, ?X2, ?X4; auto.
  apply Forall_app. split; [exact X3|]. apply nodata_one. exact Logic.I.
Qed.
Lemma SI_outbound : forall cfg src dest x c, 1 <= qmax cfg -> conn_outbound cfg src dest x = Ok c -> SI cfg [] 1 c.
Proof.
  intros cfg src dest x c QM H. unfold conn_outbound in H. set (c0 := mk_conn Sci _ _ _ _ _ _ _ _ _ _ _ _ _) in *.
  destruct (data_send cfg c0 _) as [c1|] eqn:E; cbn [bind] in H; [|discriminate]. injection H as <-.
  assert (I0 : SI cfg [] 1 c0) by (apply SI_fresh; auto; constructor).
  pose proof (fr_st _ _ (data_send_frame _ _ _ _ E)) as ST.
  apply ctl_new in E as (e & l & P & CE & L & ND & N1 & N2 & M & O); [|reflexivity|reflexivity].
  assert (J : SI cfg [] 1 c1); [|destruct J as [J1 J2 J3 J4 J5 J6]; constructor; auto; destruct J6 as [(ctl & ds & [Q1 Q2 Q3 Q4 Q5 Q6 Q7 Q8 Q9 Q10 Q11] & R)|J6]; [left; exists ctl, ds; split; [constructor; auto|exact R]|right; exact J6]].
  destruct I0 as [I1 I2 I3 I4 I5 I6]. constructor; rewrite ?L, ?(hi_same _ _ ND), ?O; auto; [now apply log_ok_ext|]. left.
  destruct I6 as [(ctl & ds & Q & MS & E1 & E2 & E3)|[_ X]]; [|discriminate].
  pose proof (q_pend _ _ _ _ _ _ Q) as QP. symmetry in QP. apply app_eq_nil in QP as [-> ->].
  exists [e], []. rewrite ST. split; [|split; [rewrite M; exact MS|split; [auto|split; [discriminate|reflexivity]]]].
  eapply queue_same; eauto. right. exists e. destruct CE. auto.
Qed.
