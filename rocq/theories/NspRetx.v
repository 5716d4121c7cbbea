(** Retransmission (C36): the number of transmissions of a message. *)
From Verif Require Import Base Dict ModuloModel NspPktModel NspModel NspFrame NspPrim NspSend NspSendInv NspFlow.

(** * Specification *)
(** Which message a transmission carries: data segment [g_seg], message [g_msg]
    of the other subchannel, the Connect Initiate, or anything else. *)
Definition key_of (p : npkt) (seg msg : Z) : Z * Z :=
  match p with
  | NData _ _ _ _ _ _ _ _ _ => (0, seg)
  | NInt _ _ _ _ _ _ | NLs _ _ _ _ _ _ _ _ => (1, msg)
  | NCI _ _ _ _ _ _ => (2, 0)
  | _ => (3, 0)
  end.
Definition keyb (k : Z * Z) (o : out) : bool :=
  match o with OTx p g => (fst (key_of p (g_seg g) (g_msg g)) =? fst k) && (snd (key_of p (g_seg g) (g_msg g)) =? snd k) | _ => false end.
(** How often message [k] was transmitted. *)
Definition sent_times (k : Z * Z) (log : list out) : Z := zlen (filter (keyb k) log).

(** * Invariant *)
Definition key (e : txe) : Z * Z := key_of (tp e) (tseg e) (tmsg e).
Definition uniq (l : list txe) : Prop :=
  forall i j a b, nth_error l i = Some a -> nth_error l j = Some b -> key a = key b -> fst (key a) <= 2 -> i = j.
Section R.
Variable cfg : ncfg.
Hypothesis RP : 1 <= retransmits cfg.
Definition eok (log : list out) (e : txe) : Prop :=
  0 <= ttries e <= retransmits cfg /\ (tsent e = false -> ttries e < retransmits cfg) /\ (tsent e = true -> ttimer e = true \/ is_ci (tp e) = true) /\
  (fst (key e) <= 2 -> sent_times (key e) log = ttries e).
Record RI (c : conn) : Prop := mk_RI {
  r_bound : forall k, fst k <= 2 -> sent_times k (clog c) <= retransmits cfg;
  r_ent : forall ch e, In e (pending (getc c ch)) -> eok (clog c) e;
  r_uniq : forall ch, uniq (pending (getc c ch));
  r_kd : forall e, In e (pending (cdata c)) -> fst (key e) <> 1 /\ (fst (key e) = 0 -> tseg e < nextseg (cdata c));
  r_ko : forall e, In e (pending (coth c)) -> fst (key e) = 1 /\ tmsg e < nextmsg (coth c);
  r_fd : forall n, nextseg (cdata c) <= n -> sent_times (0, n) (clog c) = 0;
  r_fo : forall n, nextmsg (coth c) <= n -> sent_times (1, n) (clog c) = 0 }.

Lemma times_app : forall k a b, sent_times k (a ++ b) = sent_times k a + sent_times k b.
Proof. intros. unfold sent_times. now rewrite filter_app, zlen_app. Qed.
Lemma times_nonneg : forall k l, 0 <= sent_times k l.
Proof. intros. apply zlen_nonneg. Qed.
Lemma pair_eq : forall (a b : Z * Z), fst a = fst b -> snd a = snd b -> a = b.
Proof. intros [] [] A B. cbn in *. congruence. Qed.
Lemma times_one : forall k p g, sent_times k [OTx p g] = (if (fst (key_of p (g_seg g) (g_msg g)) =? fst k) && (snd (key_of p (g_seg g) (g_msg g)) =? snd k) then 1 else 0).
Proof. intros. unfold sent_times. cbn [filter keyb]. destruct (_ && _); reflexivity. Qed.
Lemma times_same : forall p g, sent_times (key_of p (g_seg g) (g_msg g)) [OTx p g] = 1.
Proof. intros. rewrite times_one, !Z.eqb_refl. reflexivity. Qed.
Lemma times_diff : forall k p g, key_of p (g_seg g) (g_msg g) <> k -> sent_times k [OTx p g] = 0.
Proof. intros k p g N. rewrite times_one. destruct (_ && _) eqn:E; [|reflexivity]. exfalso. apply N. apply pair_eq; lia. Qed.
(** Outputs that are no message of the three kinds. *)
Definition plain (l : list out) : Prop := Forall (fun o => match o with OTx p g => fst (key_of p (g_seg g) (g_msg g)) = 3 | _ => True end) l.
Lemma plain_times : forall l k, plain l -> fst k <= 2 -> sent_times k l = 0.
Proof.
  induction l as [|o l IH]; intros k H K; [reflexivity|]. inversion H as [|? ? H1 H2]; subst. change (o :: l) with ([o] ++ l). rewrite times_app, (IH k H2 K).
  destruct o; try reflexivity. rewrite times_diff; [reflexivity|]. intros <-. lia.
Qed.
Lemma plain_one : forall o, match o with OTx p g => fst (key_of p (g_seg g) (g_msg g)) = 3 | _ => True end -> plain [o].
Proof. intros o H. constructor; [exact H|constructor]. Qed.
Lemma nth_skip : forall A n (l : list A) i, nth_error (skipn n l) i = nth_error l (n + i).
Proof. intros A. induction n as [|n IH]; intros [|x l] i; cbn [skipn plus nth_error]; auto. destruct i; reflexivity. Qed.
Lemma uniq_skip : forall n l, uniq l -> uniq (skipn n l).
Proof. intros n l U i j a b A B K L. rewrite nth_skip in A, B. specialize (U _ _ _ _ A B K L). lia. Qed.
Lemma skip_in : forall A n (l : list A) x, In x (skipn n l) -> In x l.
Proof. intros A n l x H. rewrite <- (firstn_skipn n l). apply in_or_app. auto. Qed.

Lemma RI_keep : forall c c' l, (forall ch, exists n, pending (getc c' ch) = skipn n (pending (getc c ch))) -> nextseg (cdata c') = nextseg (cdata c) -> nextmsg (coth c') = nextmsg (coth c) ->
  clog c' = clog c ++ l -> plain l -> RI c -> RI c'.
Proof.
  intros c c' l P NS NM L PL [A1 A2 A3 A4 A5 A6 A7].
  assert (T : forall k, fst k <= 2 -> sent_times k (clog c') = sent_times k (clog c)) by (intros k K; rewrite L, times_app, (plain_times l k PL K); lia).
  assert (SUB : forall ch e, In e (pending (getc c' ch)) -> In e (pending (getc c ch))) by (intros ch e H; destruct (P ch) as (n & E); rewrite E in H; now apply skip_in in H).
  constructor; rewrite ?NS, ?NM.
  - intros k K. rewrite T by exact K. auto.
  - intros ch e H. destruct (A2 ch e (SUB ch e H)) as (B1 & B2 & B3 & B4). split; [exact B1|]. split; [exact B2|]. split; [exact B3|]. intros K. rewrite T by exact K. auto.
  - intros ch. destruct (P ch) as (n & E). rewrite E. now apply uniq_skip.
  - intros e H. apply A4. exact (SUB CD e H).
  - intros e H. apply A5. exact (SUB CO e H).
  - intros n N. rewrite T by (cbn; lia). auto.
  - intros n N. rewrite T by (cbn; lia). auto.
Qed.
Lemma same_skip : forall (c c' : conn), pending (cdata c') = pending (cdata c) -> pending (coth c') = pending (coth c) -> forall ch, exists n, pending (getc c' ch) = skipn n (pending (getc c ch)).
Proof. intros c c' A B []; exists 0%nat; auto. Qed.
Lemma RI_scal : forall c c', RI c -> coth c' = coth c -> cdata c' = cdata c -> clog c' = clog c -> RI c'.
Proof. intros c c' H A B C. apply (RI_keep c c' []); rewrite ?A, ?B, ?C, ?app_nil_r; auto; [|constructor]. apply same_skip; congruence. Qed.
Lemma RI_emit : forall c o, RI c -> plain [o] -> RI (emit c o).
Proof. intros c o H P. apply (RI_keep c (emit c o) [o]); auto. now apply same_skip. Qed.
Lemma RI_putc : forall c ch s, RI c -> (exists n, pending s = skipn n (pending (getc c ch))) -> nextseg s = nextseg (getc c ch) -> nextmsg s = nextmsg (getc c ch) -> RI (putc c ch s).
Proof.
  intros c ch s H (n & P) A B. apply (RI_keep c (putc c ch s) []); [|destruct ch; [exact A|reflexivity]|destruct ch; [reflexivity|exact B]|destruct ch; cbn; now rewrite app_nil_r|constructor|exact H].
  intros k. destruct ch, k; cbn [getc putc set_cdata set_coth cdata coth]; try (exists 0%nat; reflexivity); exists n; exact P.
Qed.
Lemma RI_tosc : forall c p r, RI c -> RI (to_sc c p r).
Proof.
  intros c p r H. destruct p; cbn [to_sc]; try (apply RI_emit; [exact H|apply plain_one; exact I]).
  destruct (casm c); repeat match goal with |- context [if ?b then _ else _] => destruct b end; try (apply RI_emit; [|apply plain_one; exact I]); try exact H; now apply (RI_scal c).
Qed.
Lemma RI_close : forall c c', RI c -> coth c' = sub_close (coth c) -> cdata c' = sub_close (cdata c) -> clog c' = clog c -> RI c'.
Proof.
  intros c c' H A B C. apply (RI_keep c c' []); rewrite ?A, ?B, ?C, ?app_nil_r; auto; [|constructor].
  intros []; cbn [getc]; rewrite ?A, ?B; eexists; cbn [pending sub_close set_ooo set_pending]; symmetry; apply skipn_all.
Qed.
Lemma nth_upd : forall A (x : A) l i j, nth_error (upd i x l) j = if Nat.eqb i j then match nth_error l j with Some _ => Some x | None => None end else nth_error l j.
Proof.
  intros A x. induction l as [|y l IH]; intros [|i] [|j]; cbn [upd nth_error Nat.eqb]; auto. destruct (Nat.eqb i j); reflexivity.
Qed.
Lemma uniq_upd : forall l i e e1, uniq l -> nth_error l i = Some e -> key e1 = key e -> uniq (upd i e1 l).
Proof.
  intros l i e e1 U N K j k a b A B KE L. rewrite nth_upd in A, B.
  assert (A' : exists a', nth_error l j = Some a' /\ key a' = key a).
  { destruct (Nat.eqb i j) eqn:Q; [|eauto]. apply Nat.eqb_eq in Q. subst j. rewrite N in A. injection A as <-. eauto. }
  assert (B' : exists b', nth_error l k = Some b' /\ key b' = key b).
  { destruct (Nat.eqb i k) eqn:Q; [|eauto]. apply Nat.eqb_eq in Q. subst k. rewrite N in B. injection B as <-. eauto. }
  destruct A' as (a' & A1 & A2), B' as (b' & B1 & B2). apply (U j k a' b'); congruence.
Qed.
(** An entry is changed in place, with the same number of transmissions. *)
Lemma RI_put : forall c ch i e e1, RI c -> nth_error (pending (getc c ch)) i = Some e -> tp e1 = tp e -> tseg e1 = tseg e -> tmsg e1 = tmsg e -> ttries e1 = ttries e ->
  (tsent e1 = false -> ttries e < retransmits cfg) -> (tsent e1 = true -> ttimer e1 = true \/ is_ci (tp e) = true) -> RI (put_entry c ch i e1).
Proof.
  intros c ch i e e1 [A1 A2 A3 A4 A5 A6 A7] N T1 T2 T3 T4 T5 T6. pose proof (nth_error_In _ _ N) as IN. assert (K : key e1 = key e) by (unfold key; congruence).
  assert (P : forall k, pending (getc (put_entry c ch i e1) k) = pending (getc c k) \/ k = ch /\ pending (getc (put_entry c ch i e1) k) = upd i e1 (pending (getc c k))) by (intros k; destruct ch, k; cbn; auto).
  assert (CL : clog (put_entry c ch i e1) = clog c) by (destruct ch; reflexivity).
  assert (NX : nextseg (cdata (put_entry c ch i e1)) = nextseg (cdata c) /\ nextmsg (coth (put_entry c ch i e1)) = nextmsg (coth c)) by (destruct ch; split; reflexivity). destruct NX as [NX1 NX2].
  assert (IE : forall k x, In x (pending (getc (put_entry c ch i e1) k)) -> In x (pending (getc c k)) \/ k = ch /\ x = e1).
  { intros k x H. destruct (P k) as [E|[-> E]]; rewrite E in H; [auto|]. apply in_upd in H as [-> |H]; auto. }
  constructor; rewrite ?CL, ?NX1, ?NX2; auto.
  - intros k x H. apply IE in H as [H|[-> -> ]]; [eauto|]. destruct (A2 ch e IN) as (B1 & B2 & B3 & B4). unfold eok. rewrite T1, T4, K. auto.
  - intros k. destruct (P k) as [E|[-> E]]; rewrite E; [auto|]. eapply uniq_upd; eauto.
  - intros x H. apply (IE CD) in H as [H|[<- -> ]]; [auto|]. rewrite K, T2. apply A4. exact IN.
  - intros x H. apply (IE CO) in H as [H|[<- -> ]]; [auto|]. rewrite K, T3. apply A5. exact IN.
Qed.
(** A transmission. *)
Lemma fill_kind : forall c ch e c1 p1 g, fill_packet c ch e = (c1, p1, g) -> forall a b, key_of p1 a b = key_of (tp e) a b.
Proof.
  intros c ch e c1 p1 g H a b. unfold fill_packet in H. destruct (tp e) eqn:TP; cbn [is_ackhdr] in H;
    try (injection H as <- <- <-; reflexivity);
    unfold set_acks in H; repeat match type of H with context [if ?b then _ else _] => destruct b end; injection H as <- <- <-; reflexivity.
Qed.
Lemma tx_key : forall c ch i c', tx_send c ch i = Ok c' -> exists e e1 p g, nth_error (pending (getc c ch)) i = Some e /\ clog c' = clog c ++ [OTx p g] /\ key_of p (g_seg g) (g_msg g) = key e /\
  pending (getc c' ch) = upd i e1 (pending (getc c ch)) /\ key e1 = key e /\ tseg e1 = tseg e /\ tmsg e1 = tmsg e /\ ttries e1 = ttries e + 1 /\ tsent e1 = true /\ ttimer e1 = true /\
  pending (getc c' (cross ch)) = pending (getc c (cross ch)) /\ (forall k, nextseg (getc c' k) = nextseg (getc c k) /\ nextmsg (getc c' k) = nextmsg (getc c k)).
Proof.
  intros c ch i c' H. pose proof (tx_send_log _ _ _ _ H) as (e & p & g & N & L & G1 & G2 & _ & _ & _ & _ & _ & _ & (e1 & P1 & E1 & E2 & E3 & E4 & E5 & E6) & PX & K).
  assert (KP : key_of p (g_seg g) (g_msg g) = key e).
  { unfold tx_send in H. rewrite N in H. destruct (fill_packet c ch e) as [[c1 p1] g1] eqn:F. pose proof (fill_kind _ _ _ _ _ _ F) as FK. apply sendmsg_log in H. subst c'.
    assert (X : clog c1 = clog c) by (apply fill_data in F; tauto). destruct ch; cbn [emit clog set_clog putc set_cdata set_coth] in L; rewrite X in L; apply app_inv_head in L; injection L as <- <-; rewrite FK; reflexivity. }
  exists e, e1, p, g. split; [exact N|]. split; [exact L|]. split; [exact KP|]. split; [exact P1|]. split; [unfold key at 1; rewrite E1, E2, E3, <- G1, <- G2; exact KP|]. repeat (split; [assumption|]).
  intros k. destruct (K k) as (K1 & _ & _ & K4 & _). auto.
Qed.
Lemma RI_tx : forall c ch i e c', RI c -> nth_error (pending (getc c ch)) i = Some e -> ttries e < retransmits cfg -> tx_send c ch i = Ok c' -> RI c'.
Proof.
  intros c ch i e c' [A1 A2 A3 A4 A5 A6 A7] N0 LT H. destruct (tx_key _ _ _ _ H) as (e0 & e1 & p & g & N & L & KP & P1 & K1 & S1 & M1 & T1 & T2 & T3 & PX & NX).
  assert (e0 = e) by congruence. subst e0. clear N0. pose proof (nth_error_In _ _ N) as IN. destruct (NX CD) as [NX1 _], (NX CO) as [_ NX2]. cbn [getc] in NX1, NX2.
  destruct (A2 ch e IN) as (B1 & B2 & B3 & B4).
  assert (TS : forall k, fst k <= 2 -> sent_times k (clog c') = if (fst (key e) =? fst k) && (snd (key e) =? snd k) then ttries e + 1 else sent_times k (clog c)).
  { intros k K. rewrite L, times_app, times_one, KP. destruct (_ && _) eqn:Q; [|lia]. assert (k = key e) by (apply pair_eq; lia). subst k. rewrite B4 by exact K. reflexivity. }
  assert (CH : forall k, k = ch \/ k = cross ch) by (intros k; destruct ch, k; auto).
  assert (OK1 : eok (clog c') e1).
  { unfold eok. rewrite K1, T1. split; [lia|]. split; [congruence|]. split; [auto|]. intros K. rewrite TS by exact K. rewrite !Z.eqb_refl. reflexivity. }
  assert (OK2 : forall k j x, nth_error (pending (getc c k)) j = Some x -> ~ (k = ch /\ j = i) -> eok (clog c') x).
  { intros k j x NJ ND. destruct (A2 k x (nth_error_In _ _ NJ)) as (C1 & C2 & C3 & C4). split; [exact C1|]. split; [exact C2|]. split; [exact C3|]. intros K. rewrite TS by exact K.
    destruct (_ && _) eqn:Q; [|auto]. exfalso. apply ND. assert (KE : key e = key x) by (apply pair_eq; lia).
    assert (k = ch).
    { destruct (CH k) as [Q1|Q1]; [exact Q1|]. exfalso. subst k. destruct ch; cbn [cross getc] in *.
      - destruct (A4 e IN) as [X1 _]. destruct (A5 x (nth_error_In _ _ NJ)) as [X2 _]. rewrite KE in X1. congruence.
      - destruct (A5 e IN) as [X1 _]. destruct (A4 x (nth_error_In _ _ NJ)) as [X2 _]. rewrite KE in X1. congruence. }
    subst k. split; [reflexivity|]. symmetry. apply (A3 ch i j e x); auto. rewrite KE. exact K. }
  constructor; rewrite ?NX1, ?NX2.
  - intros k K. rewrite TS by exact K. destruct (_ && _); [lia|auto].
  - intros k x H2. apply In_nth_error in H2 as (j & H2). destruct (CH k) as [-> | -> ].
    + rewrite P1, nth_upd in H2. destruct (Nat.eqb i j) eqn:Q; [apply Nat.eqb_eq in Q; subst j; rewrite N in H2; injection H2 as <-; exact OK1|].
      apply (OK2 ch j x H2). intros [_ ->]. rewrite Nat.eqb_refl in Q. discriminate.
    + rewrite PX in H2. apply (OK2 (cross ch) j x H2). intros [Q _]. destruct ch; discriminate.
  - intros k. destruct (CH k) as [-> | -> ]; [rewrite P1; eapply uniq_upd; eauto|rewrite PX; auto].
  - intros x H2. destruct ch; cbn [getc cross] in *; [rewrite P1 in H2; apply in_upd in H2 as [-> |H2]; [rewrite K1, S1; auto|auto]|rewrite PX in H2; auto].
  - intros x H2. destruct ch; cbn [getc cross] in *; [rewrite PX in H2; auto|rewrite P1 in H2; apply in_upd in H2 as [-> |H2]; [rewrite K1, M1; auto|auto]].
  - intros n NN. rewrite TS by (cbn; lia). destruct (_ && _) eqn:Q; [|auto]. exfalso. cbn [fst snd] in Q. destruct ch; cbn [getc] in *.
    + destruct (A4 e IN) as [_ X]. assert (KE : snd (key e) = tseg e) by (unfold key, key_of in *; destruct (tp e); cbn [fst snd] in *; try reflexivity; lia). specialize (X ltac:(lia)). lia.
    + destruct (A5 e IN) as [X _]. lia.
  - intros n NN. rewrite TS by (cbn; lia). destruct (_ && _) eqn:Q; [|auto]. exfalso. cbn [fst snd] in Q. destruct ch; cbn [getc] in *.
    + destruct (A4 e IN) as [X _]. lia.
    + destruct (A5 e IN) as [_ X]. assert (KE : snd (key e) = tmsg e) by (unfold key, key_of in *; destruct (tp e); cbn [fst snd] in *; try reflexivity; lia). lia.
Qed.
Lemma RI_bump : forall c ch n c', RI c -> bump c ch n = Ok c' -> RI c'.
Proof. intros c ch n c' H E. unfold bump in E. destruct (seqmax _ _); cbn [bind] in E; [|discriminate]. injection E as <-. apply RI_putc; auto. exists 0%nat. reflexivity. Qed.
Lemma RI_sendack : forall c ch c', RI c -> send_ack c ch = Ok c' -> RI c'.
Proof.
  intros c ch c' H E. unfold send_ack in E. destruct (set_acks _ ch true _ _) as [[c1 p1] g] eqn:SA. pose proof SA as SA2. apply set_acks_frame in SA as (_ & CL & K). apply sendmsg_log in E. subst c'.
  assert (CL1 : clog c1 = clog c) by (rewrite CL; destruct ch; reflexivity).
  apply (RI_keep c _ [OTx p1 (mk_tag 0 0 (fst g) (snd g))]); auto.
  - intros k. exists 0%nat. cbn [skipn]. destruct (K k) as (K0 & _). destruct k, ch; exact K0.
  - destruct (K CD) as (_ & K1 & _). destruct ch; exact K1.
  - destruct (K CO) as (_ & _ & _ & _ & K4 & _). destruct ch; exact K4.
  - cbn [emit clog set_clog]. rewrite CL1. reflexivity.
  - apply plain_one. unfold set_acks in SA2. destruct ch; cbn [getc putc cross orb] in SA2; repeat match type of SA2 with context [if ?b then _ else _] => destruct b end; injection SA2 as <- <- <-; reflexivity.
Qed.
Lemma nth_snoc : forall A (l : list A) x j y, nth_error (l ++ [x]) j = Some y -> nth_error l j = Some y \/ j = length l /\ y = x.
Proof.
  intros A l x j y H. destruct (Nat.lt_ge_cases j (length l)) as [L|L]; [left; rewrite nth_error_app1 in H; auto|]. right. rewrite nth_error_app2 in H by lia.
  destruct (j - length l)%nat as [|k] eqn:E; [|destruct k; discriminate]. cbn in H. injection H as <-. split; [lia|reflexivity].
Qed.
Lemma uniq_snoc : forall l e, uniq l -> (fst (key e) <= 2 -> forall x, In x l -> key x <> key e) -> uniq (l ++ [e]).
Proof.
  intros l e U F i j a b A B K L. apply nth_snoc in A as [A|[-> -> ]]; apply nth_snoc in B as [B|[-> -> ]].
  - eapply U; eauto.
  - exfalso. apply (F ltac:(rewrite <- K; exact L) a); [eapply nth_error_In; exact A|exact K].
  - exfalso. apply (F L b); [eapply nth_error_In; exact B|congruence].
  - reflexivity.
Qed.
(** A new entry of the data subchannel that is not a data segment. *)
Lemma RI_newctl : forall c e, RI c -> fst (key e) = 3 -> ttries e = 0 -> tsent e = false -> RI (set_cdata c (set_pending (cdata c) (pending (cdata c) ++ [e]))).
Proof.
  intros c e [A1 A2 A3 A4 A5 A6 A7] K T S. assert (OK : eok (clog c) e) by (unfold eok; rewrite T, S; split; [lia|split; [lia|split; [discriminate|lia]]]).
  constructor; cbn [clog set_cdata cdata coth pending set_pending nextseg nextmsg]; auto.
  - intros [] x; cbn [getc cdata coth set_cdata pending set_pending]; [|apply (A2 CO)]. intros H. apply in_app_or in H as [H|[<- |[]]]; [apply (A2 CD); exact H|exact OK].
  - intros []; cbn [getc cdata coth set_cdata pending set_pending]; [|apply (A3 CO)]. apply uniq_snoc; [apply (A3 CD)|lia].
  - intros x H. apply in_app_or in H as [H|[<- |[]]]; [auto|]. split; lia.
Qed.
Lemma RI_newdata : forall c e s, RI c -> key e = (0, tseg e) -> tseg e = nextseg (cdata c) -> ttries e = 0 -> tsent e = false -> nextseg s = nextseg (cdata c) + 1 ->
  RI (set_cdata c (set_pending s (pending (cdata c) ++ [e]))).
Proof.
  intros c e s [A1 A2 A3 A4 A5 A6 A7] K TS T S NS. assert (FR : sent_times (key e) (clog c) = 0) by (rewrite K; apply A6; lia).
  assert (OK : eok (clog c) e) by (unfold eok; rewrite T, S; split; [lia|split; [lia|split; [discriminate|intros _; exact FR]]]).
  constructor; cbn [clog set_cdata cdata coth pending set_pending nextseg nextmsg]; auto.
  - intros [] x; cbn [getc cdata coth set_cdata pending set_pending]; [|apply (A2 CO)]. intros H. apply in_app_or in H as [H|[<- |[]]]; [apply (A2 CD); exact H|exact OK].
  - intros []; cbn [getc cdata coth set_cdata pending set_pending]; [|apply (A3 CO)]. apply uniq_snoc; [apply (A3 CD)|]. intros _ x IN KX.
    destruct (A4 x IN) as [_ X]. rewrite KX, K in X. specialize (X eq_refl). assert (Y : snd (key x) = tseg e) by (rewrite KX, K; reflexivity).
    assert (Z : snd (key x) = tseg x). { assert (F0 : fst (key x) = 0) by (rewrite KX, K; reflexivity). unfold key, key_of in *. destruct (tp x); cbn [fst snd] in *; try reflexivity; discriminate F0. } lia.
  - intros x H. rewrite NS. apply in_app_or in H as [H|[<- |[]]]; [destruct (A4 x H) as [X Y]; split; [exact X|]; intros Z; specialize (Y Z); lia|]. rewrite K. cbn. split; lia.
  - intros n N. apply A6. lia.
Qed.
Lemma RI_newoth : forall c e s, RI c -> key e = (1, tmsg e) -> tmsg e = nextmsg (coth c) -> ttries e = 0 -> tsent e = false -> nextmsg s = nextmsg (coth c) + 1 ->
  RI (set_coth c (set_pending s (pending (coth c) ++ [e]))).
Proof.
  intros c e s [A1 A2 A3 A4 A5 A6 A7] K TS T S NS. assert (FR : sent_times (key e) (clog c) = 0) by (rewrite K; apply A7; lia).
  assert (OK : eok (clog c) e) by (unfold eok; rewrite T, S; split; [lia|split; [lia|split; [discriminate|intros _; exact FR]]]).
  constructor; cbn [clog set_coth cdata coth pending set_pending nextseg nextmsg]; auto.
  - intros [] x; cbn [getc cdata coth set_coth pending set_pending]; [apply (A2 CD)|]. intros H. apply in_app_or in H as [H|[<- |[]]]; [apply (A2 CO); exact H|exact OK].
  - intros []; cbn [getc cdata coth set_coth pending set_pending]; [apply (A3 CD)|]. apply uniq_snoc; [apply (A3 CO)|]. intros _ x IN KX.
    destruct (A5 x IN) as [X0 X]. assert (Y : snd (key x) = tmsg e) by (rewrite KX, K; reflexivity).
    assert (Z : snd (key x) = tmsg x). { unfold key, key_of in *. destruct (tp x); cbn [fst snd] in *; try reflexivity; discriminate X0. } lia.
  - intros x H. rewrite NS. apply in_app_or in H as [H|[<- |[]]]; [destruct (A5 x H) as [X Y]; split; [exact X|lia]|]. rewrite K. cbn. split; [reflexivity|lia].
  - intros n N. apply A7. lia.
Qed.
Lemma RI_data_send : forall c p c', RI c -> is_data p = true \/ fst (key_of p 0 0) = 3 -> data_send cfg c p = Ok c' -> RI c'.
Proof.
  intros c p c' H KP E. unfold data_send in E. destruct (make_entry cfg c p) as [e s1] eqn:ME. set (c1 := set_cdata c _) in *.
  assert (H1 : RI c1 /\ ttries e = 0).
  { unfold c1. destruct p; try (destruct KP as [KP|KP]; discriminate KP); cbn [make_entry] in ME; injection ME as <- <-; (split; [|reflexivity]);
      try (apply RI_newctl; auto; reflexivity). apply RI_newdata; auto. }
  destruct H1 as [H1 T0]. assert (N : nth_error (pending (cdata c1)) (length (pending (cdata c))) = Some e).
  { unfold c1. cbn [cdata set_cdata pending set_pending]. rewrite nth_error_app2 by lia. now rewrite Nat.sub_diag. }
  unfold send_qe in E. rewrite N in E. destruct (is_data (tp e) && _) in E; cbn [bind andb] in E; [injection E as <-; exact H1|].
  destruct (tx_send c1 CD _) as [c2|] eqn:T; cbn [bind andb] in E; [|discriminate]. assert (H2 : RI c2) by (eapply (RI_tx c1 CD); [exact H1|exact N|lia|exact T]).
  destruct (is_data (tp e)); [eapply RI_bump; eauto|injection E as <-; exact H2].
Qed.
Lemma RI_other_send : forall c p c' b, RI c -> is_int p = true \/ is_ls p = true -> other_send c p = Ok (c', b) -> RI c'.
Proof.
  intros c p c' b H KP E. unfold other_send in E. destruct (negb (is_ls p) && _); [injection E as <- <-; apply RI_emit; [exact H|apply plain_one; exact I]|].
  set (e := mk_txe p 0 _ 0 false false None None) in *. set (c1 := set_coth c _) in *.
  assert (H1 : RI c1) by (unfold c1; apply RI_newoth; auto; destruct p; destruct KP as [KP|KP]; try discriminate KP; reflexivity).
  destruct (tx_send c1 CO _) as [c2|] eqn:T; cbn [bind] in E; [|discriminate].
  destruct (bump c2 CO (segnum p)) as [c3|] eqn:B; cbn [bind] in E; [|discriminate]. injection E as <- <-. eapply RI_bump; [|exact B].
  eapply (RI_tx c1 CO _ e); [exact H1| |cbn; lia|exact T]. unfold c1. cbn [getc coth set_coth pending set_pending]. rewrite nth_error_app2 by lia. now rewrite Nat.sub_diag.
Qed.
Lemma sub_ack_skip : forall s n s', sub_ack s n = Ok s' -> (exists j, pending s' = skipn j (pending s)) /\ nextseg s' = nextseg s /\ nextmsg s' = nextmsg s.
Proof.
  intros s n s' S. assert (PA : forall m s0 s1, pop_acked m s0 = Ok s1 -> (exists j, pending s1 = skipn j (pending s0)) /\ nextseg s1 = nextseg s0 /\ nextmsg s1 = nextmsg s0).
  { induction m as [|m IH]; intros s0 s1 X; cbn [pop_acked] in X; [injection X as <-; split; [exists 0%nat; reflexivity|auto]|].
    destruct (pending s0) as [|e t] eqn:P; [discriminate|]. destruct (IH _ _ X) as ((j & J) & R). split; [exists (Datatypes.S j); exact J|exact R]. }
  unfold sub_ack in S. destruct (pending s) as [|e t] eqn:P; [injection S as <-; split; [exists 0%nat; now rewrite P|auto]|]. rewrite <- P.
  repeat match type of S with
  | context [if ?b then _ else _] => destruct b
  | (let* _ := ?r in _) = _ => destruct r; cbn [bind] in S; [|discriminate]
  end; try (injection S as <-; split; [exists 0%nat; reflexivity|auto]); try discriminate; eapply PA; exact S.
Qed.
Lemma RI_chan_ack : forall c ch n c', RI c -> chan_ack c ch n = Ok c' -> RI c'.
Proof.
  intros c ch n c' H E. unfold chan_ack in E. destruct (sub_ack (getc c ch) n) as [s|] eqn:S; cbn [bind] in E; [|discriminate]. injection E as <-.
  apply sub_ack_skip in S as (X & Y & Z). apply RI_putc; auto.
Qed.
Lemma RI_acc : forall c ch num p, RI c -> RI (acc c ch num p).
Proof.
  intros c ch num p H. unfold acc. set (c0 := putc c ch _). assert (H0 : RI c0) by (apply RI_putc; auto; exists 0%nat; reflexivity). clearbody c0. clear H c.
  assert (G : RI (emit c0 (ODeliver ch p))) by (apply RI_emit; [exact H0|apply plain_one; exact I]).
  destruct ch; [apply RI_tosc; exact G|]. destruct (is_ls p); [|apply RI_tosc; exact G].
  destruct p; try exact G. cbn [credit]. destruct (_ =? 0).
  - destruct (grant _ _ _) as [s1|] eqn:GR; [|exact G]. apply (RI_putc _ CD); [exact G|exists 0%nat|..]; unfold grant in GR; repeat match type of GR with context [if ?b then _ else _] => destruct b end; try discriminate; injection GR as <-; reflexivity.
  - unfold other_ls. destruct (0 <=? _); [|exact G]. apply (RI_putc _ CO); [exact G|exists 0%nat; reflexivity|reflexivity..].
Qed.
Lemma RI_prim : forall arr b l c c', prim cfg arr b l c c' -> RI c -> RI c'.
Proof.
  intros arr b l c c' H O. destruct H.
  - destruct H. now apply (RI_scal c).
  - now apply (RI_scal c).
  - now apply (RI_scal c).
  - eapply RI_data_send; [| |exact H0]; [now apply (RI_scal c)|right; reflexivity].
  - now apply (RI_scal c).
  - apply (RI_scal c1); auto. unfold disc_rej in H0. destruct (_ || _ || _) in H0; [discriminate|]. eapply RI_data_send; [| |exact H0]; [now apply (RI_close c)|right; reflexivity].
  - now apply (RI_close c).
  - apply RI_emit; [exact O|apply plain_one; exact I].
  - apply RI_emit; [exact O|apply plain_one; exact I].
  - apply sendmsg_log in H2. subst c'. apply RI_emit; [exact O|apply plain_one]. destruct p; try reflexivity; try discriminate H; discriminate H1.
  - eapply RI_sendack; eauto.
  - apply RI_putc; auto. exists 0%nat. reflexivity.
  - apply (RI_putc c CD); auto. exists 0%nat. reflexivity.
  - eapply RI_bump; [|exact H4]. eapply (RI_tx c CD i e); auto. destruct (r_ent _ O CD e (nth_error_In _ _ H)) as (_ & X & _). auto.
  - eapply (RI_tx c CD i e); auto. destruct (r_ent _ O CD e (nth_error_In _ _ H)) as (_ & X & _). auto.
  - eapply RI_bump; eauto.
  - destruct p; try discriminate H0. cbn [make_entry] in H2. injection H2 as <- <-. apply RI_newdata; auto.
  - apply (RI_putc _ CO); [|exists 0%nat; reflexivity|reflexivity..]. eapply RI_other_send; [exact O| |exact H]. left. reflexivity.
  - eapply RI_other_send; [| |exact H1]; [apply (RI_putc c CO); [exact O|exists 0%nat; reflexivity|reflexivity..]|right; reflexivity].
  - eapply RI_chan_ack; eauto.
  - eapply RI_chan_ack; eauto.
  - apply RI_putc; auto. exists 0%nat. reflexivity.
  - now apply RI_acc.
  - apply RI_acc. apply RI_putc; auto. exists 0%nat. reflexivity.
  - eapply (RI_tx _ ch i e1); [| |cbn; exact H1|exact H3].
    + eapply RI_put; [exact O|exact H|reflexivity..| |]; [intros _; exact H1|discriminate].
    + unfold c0, put_entry. destruct ch; cbn [getc putc cdata coth set_cdata set_coth pending set_pending] in *; eapply upd_nth_same; exact H.
  - eapply RI_put; [exact O|exact H|reflexivity..| |]; [intros _; exact H1|discriminate].
  - destruct (r_ent _ O ch e (nth_error_In _ _ H)) as (_ & X & _). eapply RI_put; [exact O|exact H|reflexivity..| |]; [exact X|auto].
  - destruct (r_ent _ O ch e (nth_error_In _ _ H)) as (X0 & X & _).
    eapply (RI_close (to_sc c (NDI 0 0 UNREACH []) false)); [apply RI_tosc; exact O|destruct ch; reflexivity..].
Qed.
Lemma RI_step : forall c e c', 1 <= phase cfg -> ev_ok e -> RI c -> cstep cfg c e = Ok c' -> RI c'.
Proof.
  intros c e c' PH EO O H. destruct (is_send e) eqn:S.
  - destruct e; try discriminate S. cbn [cstep] in H. unfold conn_send in H.
    destruct (cst c) eqn:ST; cbn [cstate_eqb negb orb] in H; try (injection H as <-; apply RI_emit; [exact O|apply plain_one; exact I]).
    destruct (cshut c); [injection H as <-; apply RI_emit; [exact O|apply plain_one; exact I]|]. destruct (csegsize c =? 0); [discriminate|].
    eapply (star_inv cfg None true); [intros l a b X; eapply RI_prim; exact X|eapply send_segs_star; [reflexivity| |exact H]; exact ST|]. apply RI_emit; [exact O|apply plain_one; exact I].
  - eapply (star_inv cfg (ev_arr e) false); [intros l a b X; eapply RI_prim; exact X|eapply step_star; eauto|exact O].
Qed.
End R.
