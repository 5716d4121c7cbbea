(** The transmit side of the data subchannel: queue invariant. *)
From Verif Require Import Base Dict ModuloModel ModuloProps NspPktModel NspModel NspFrame NspPrim.

(** * What was handed to send_data, and what was transmitted, read off the log *)
Definition seg := (Z * Z * list Z)%type.
Definition seg_of (p : npkt) : seg := match p with NData _ _ _ _ _ _ bo eo pl => (bo, eo, pl) | _ => (0, 0, []) end.
Definition taken (o : out) : list seg := match o with OAccepted size data => cut (length data) 1 size data | _ => [] end.
Definition content (l : list out) : list seg := flat_map taken l.
Definition dseg (o : out) : Z := match o with OTx p g => if is_data p then g_seg g else 0 | _ => 0 end.
Definition hi (l : list out) : Z := fold_right (fun o m => Z.max (dseg o) m) 0 l.
Definition eoms (l : list seg) : Z := zlen (filter (fun s => negb (snd (fst s) =? 0)) l).

Lemma content_app : forall a b, content (a ++ b) = content a ++ content b.
Proof. intros. apply flat_map_app. Qed.
Lemma hi_app : forall a b, hi (a ++ b) = Z.max (hi a) (hi b).
Proof.
  induction a as [|o a IH]; intros b; cbn [app hi fold_right].
  - fold (hi b). assert (0 <= hi b); [|lia]. induction b as [|o b IH]; cbn [hi fold_right]; [lia|]. fold (hi b). lia.
  - fold (hi (a ++ b)). fold (hi a). rewrite IH. lia.
Qed.
Lemma hi_nonneg : forall l, 0 <= hi l.
Proof. induction l as [|o l IH]; cbn [hi fold_right]; [lia|]. fold (hi l). lia. Qed.
Lemma hi_in : forall l o, In o l -> dseg o <= hi l.
Proof. induction l as [|x l IH]; intros o H; [destruct H|]. cbn [hi fold_right]. fold (hi l). destruct H as [->|H]; [lia|]. specialize (IH o H). lia. Qed.

(** Outputs that do not concern the data sender. *)
Definition nodata (l : list out) : Prop := Forall (fun o => match o with OTx p _ => is_data p = false | OAccepted _ _ => False | _ => True end) l.
Lemma nodata_content : forall l, nodata l -> content l = [].
Proof.
  induction l as [|o l IH]; intros H; [reflexivity|]. inversion H as [|? ? H1 H2]; subst. cbn [content flat_map]. fold (content l). rewrite (IH H2).
  destruct o; cbn [taken]; try reflexivity. destruct H1.
Qed.
Lemma nodata_hi : forall l, nodata l -> hi l = 0.
Proof.
  induction l as [|o l IH]; intros H; [reflexivity|]. inversion H as [|? ? H1 H2]; subst. cbn [hi fold_right]. fold (hi l). rewrite (IH H2).
  destruct o; cbn [dseg]; try reflexivity. now rewrite H1.
Qed.

(** * The queue invariant *)
Definition entry_ok (log : list out) (e : txe) : Prop :=
  is_data (tp e) = true /\ nth_error (content log) (Z.to_nat (tseg e - 1)) = Some (seg_of (tp e)) /\ segnum (tp e) = tseg e mod 4096 /\
  tmsg e = 1 + eoms (firstn (Z.to_nat (tseg e - 1)) (content log)) /\
  (0 < ttries e -> tseg e <= hi log) /\ 0 <= ttries e /\ (ttimer e = true \/ tsent e = true -> 0 < ttries e).
Definition ctl_ok (ctl : list txe) : Prop := ctl = [] \/ exists e, ctl = [e] /\ is_ackhdr (tp e) = false /\ tseg e = 0.
Fixpoint numbered (n : Z) (ds : list txe) : Prop := match ds with [] => True | e :: t => tseg e = n /\ numbered (n + 1) t end.
(** [F]: the first segment that is not acknowledged; [rest]: segments of a
    message being sent that are not queued yet. *)
Record queue0 (cfg : ncfg) (rest : list seg) (F : Z) (c : conn) (ctl ds : list txe) : Prop := mk_queue {
  q_pend : pending (cdata c) = ctl ++ ds;
  q_ctl : ctl_ok ctl;
  q_num : numbered F ds;
  q_next : F + zlen ds = nextseg (cdata c);
  q_first : 1 <= F;
  q_entries : Forall (entry_ok (clog c)) ds;
  q_content : nextseg (cdata c) - 1 = zlen (content (clog c)) - zlen rest /\ skipn (Z.to_nat (nextseg (cdata c) - 1)) (content (clog c)) = rest;
  q_msg : nextmsg (cdata c) = 1 + eoms (firstn (Z.to_nat (nextseg (cdata c) - 1)) (content (clog c)));
  q_hi1 : F - 1 <= hi (clog c); q_hi2 : hi (clog c) <= nextseg (cdata c) - 1; q_hi3 : hi (clog c) <= F + qmax cfg - 1 }.
(** Every data segment transmitted carries what was handed to send_data. *)
Definition log_ok (log : list out) : Prop :=
  forall p g, In (OTx p g) log -> is_data p = true ->
    1 <= g_seg g /\ nth_error (content log) (Z.to_nat (g_seg g - 1)) = Some (seg_of p) /\ segnum p = g_seg g mod 4096 /\
    g_msg g = 1 + eoms (firstn (Z.to_nat (g_seg g - 1)) (content log)).
Definition nd (l : list txe) : Prop := Forall (fun e => is_data (tp e) = false) l.
Definition nah (l : list txe) : Prop := Forall (fun e => is_ackhdr (tp e) = false) l.
Record SI (cfg : ncfg) (rest : list seg) (F : Z) (c : conn) : Prop := mk_SI {
  si_log : log_ok (clog c);
  si_oth : nd (pending (coth c));
  si_hi : hi (clog c) <= F + qmax cfg - 1;
  si_F : 1 <= F;
  si_F2 : F - 1 <= hi (clog c);
  si_q : (exists ctl ds, queue0 cfg rest F c ctl ds /\ maxseqsent (cdata c) = hi (clog c) mod 4096 /\ (early (cst c) = true -> ds = []) /\ (cst c = Scr -> ctl = []) /\ over (cst c) = false)
      \/ (nah (pending (cdata c)) /\ over (cst c) = true) }.

Lemma firstn_app_l : forall A n (a b : list A), (n <= length a)%nat -> firstn n (a ++ b) = firstn n a.
Proof. intros A n a b H. rewrite firstn_app. replace (n - length a)%nat with 0%nat by lia. cbn [firstn]. apply app_nil_r. Qed.
Lemma nth_lt : forall A (l : list A) n x, nth_error l n = Some x -> (n < length l)%nat.
Proof. intros A l n x H. apply nth_error_Some. congruence. Qed.
Lemma entry_ext : forall log l e, nodata l -> entry_ok log e -> entry_ok (log ++ l) e.
Proof.
  intros log l e N H. unfold entry_ok in *. rewrite content_app, (nodata_content l N), app_nil_r, hi_app, (nodata_hi l N).
  pose proof (hi_nonneg log). replace (Z.max (hi log) 0) with (hi log) by lia. exact H.
Qed.
Lemma log_ok_ext : forall log l, nodata l -> log_ok log -> log_ok (log ++ l).
Proof.
  intros log l N H p g I D. rewrite content_app, (nodata_content l N), app_nil_r. apply in_app_or in I as [I|I]; [apply (H p g I D)|].
  unfold nodata in N. rewrite Forall_forall in N. specialize (N _ I). cbn beta iota in N. congruence.
Qed.

(** Steps that leave the data queue alone. *)
Record sframe (c c' : conn) : Prop := mk_sframe {
  sf_pend : pending (cdata c') = pending (cdata c); sf_next : nextseg (cdata c') = nextseg (cdata c); sf_nextmsg : nextmsg (cdata c') = nextmsg (cdata c);
  sf_max : maxseqsent (cdata c') = maxseqsent (cdata c); sf_log : exists l, clog c' = clog c ++ l /\ nodata l;
  sf_oth : nd (pending (coth c)) -> nd (pending (coth c')); sf_st : cst c' = cst c }.
Lemma sframe_refl : forall c, sframe c c.
Proof. intros c. constructor; auto. exists []. rewrite app_nil_r. split; [auto|constructor]. Qed.
Lemma sframe_trans : forall a b c, sframe a b -> sframe b c -> sframe a c.
Proof.
  intros a b c [A1 A2 A3 A4 [l [AL AT]] A5 A6] [B1 B2 B3 B4 [m [BL BT]] B5 B6]. constructor; try congruence; auto.
  exists (l ++ m). split; [rewrite BL, AL, app_assoc; auto|]. unfold nodata in *. apply Forall_app. auto.
Qed.
Lemma hi_same : forall log l, nodata l -> hi (log ++ l) = hi log.
Proof. intros log l N. rewrite hi_app, (nodata_hi l N). pose proof (hi_nonneg log). lia. Qed.
Lemma content_same : forall log l, nodata l -> content (log ++ l) = content log.
Proof. intros log l N. now rewrite content_app, (nodata_content l N), app_nil_r. Qed.
Lemma queue_same : forall cfg rest F c c' ctl ds ctl' l, pending (cdata c') = ctl' ++ ds -> ctl_ok ctl' ->
  nextseg (cdata c') = nextseg (cdata c) -> nextmsg (cdata c') = nextmsg (cdata c) -> clog c' = clog c ++ l -> nodata l ->
  queue0 cfg rest F c ctl ds -> queue0 cfg rest F c' ctl' ds.
Proof.
  intros cfg rest F c c' ctl ds ctl' l P CO N1 N2 L N [Q1 Q2 Q3 Q4 Q5 Q6 Q7 Q8 Q9 Q10 Q11].
  constructor; rewrite ?L, ?(content_same _ _ N), ?(hi_same _ _ N), ?N1, ?N2; auto.
  eapply Forall_impl; [|exact Q6]. intros e. now apply entry_ext.
Qed.
Lemma SI_sframe : forall cfg rest F c c', sframe c c' -> SI cfg rest F c -> SI cfg rest F c'.
Proof.
  intros cfg rest F c c' [S1 S2 S3 S4 [l [L N]] S5 S6] [I1 I2 I3 I4 I4' I5].
  constructor; rewrite ?L, ?(hi_same _ _ N); auto; [now apply log_ok_ext|].
  rewrite S6, S1, S4. destruct I5 as [(ctl & ds & Q & M & E1 & E2 & E3)|I5]; [left|right; exact I5].
  exists ctl, ds. split; [|auto]. eapply queue_same; eauto; [rewrite S1; apply (q_pend _ _ _ _ _ _ Q)|apply (q_ctl _ _ _ _ _ _ Q)].
Qed.

(** ** Primitive steps *)
Lemma set_acks_data : forall c ch x p g c' p' g', set_acks c ch x p g = (c', p', g') ->
  is_data p' = is_data p /\ is_ackhdr p' = is_ackhdr p /\ seg_of p' = seg_of p /\ segnum p' = segnum p /\ is_int p' = is_int p /\ is_ls p' = is_ls p.
Proof.
  intros c ch x p g c' p' g' H. unfold set_acks in H.
  destruct ch; cbn [getc putc cross] in H; destruct (x || _); destruct (cphase c =? 4);
    repeat match type of H with context [if ?b then _ else _] => destruct b end; injection H as <- <- <-; destruct p; repeat split.
Qed.
Lemma fill_data : forall c ch e c' p' g, fill_packet c ch e = (c', p', g) ->
  is_data p' = is_data (tp e) /\ is_ackhdr p' = is_ackhdr (tp e) /\ seg_of p' = seg_of (tp e) /\ segnum p' = segnum (tp e) /\ clog c' = clog c /\
  is_int p' = is_int (tp e) /\ is_ls p' = is_ls (tp e) /\
  forall k, pending (getc c' k) = pending (getc c k) /\ nextseg (getc c' k) = nextseg (getc c k) /\ maxseqsent (getc c' k) = maxseqsent (getc c k)
    /\ maxackseg (getc c' k) = maxackseg (getc c k) /\ nextmsg (getc c' k) = nextmsg (getc c k) /\ maxseg (getc c' k) = maxseg (getc c k)
    /\ maxmsg (getc c' k) = maxmsg (getc c k) /\ xon (getc c' k) = xon (getc c k) /\ flow (getc c' k) = flow (getc c k) /\ seqnum (getc c' k) = seqnum (getc c k).
Proof.
  intros c ch e c' p' g H. unfold fill_packet in H. destruct (tp e); cbn [is_ackhdr] in H;
    try (injection H as <- <- <-; repeat split; fail);
    (pose proof (set_acks_data _ _ _ _ _ _ _ _ H) as (A & B & C & D & E & E2); apply set_acks_frame in H as (_ & L & K);
     repeat split; auto; try congruence; apply K).
Qed.
Lemma sendmsg_log : forall c p g c', sendmsg c p g = Ok c' -> c' = emit c (OTx p g).
Proof. intros c p g c' H. unfold sendmsg in H. destruct (encode p); cbn [bind] in H; congruence. Qed.
Lemma tx_send_log : forall c ch i c', tx_send c ch i = Ok c' -> exists e p g,
  nth_error (pending (getc c ch)) i = Some e /\ clog c' = clog c ++ [OTx p g] /\ g_seg g = tseg e /\ g_msg g = tmsg e /\
  is_data p = is_data (tp e) /\ is_ackhdr p = is_ackhdr (tp e) /\ seg_of p = seg_of (tp e) /\ segnum p = segnum (tp e) /\
  is_int p = is_int (tp e) /\ is_ls p = is_ls (tp e) /\
  (exists e1, pending (getc c' ch) = upd i e1 (pending (getc c ch)) /\ tp e1 = p /\ tseg e1 = tseg e /\ tmsg e1 = tmsg e /\ ttries e1 = ttries e + 1
     /\ tsent e1 = true /\ ttimer e1 = true) /\
  pending (getc c' (cross ch)) = pending (getc c (cross ch)) /\
  forall k, nextseg (getc c' k) = nextseg (getc c k) /\ maxseqsent (getc c' k) = maxseqsent (getc c k)
    /\ maxackseg (getc c' k) = maxackseg (getc c k) /\ nextmsg (getc c' k) = nextmsg (getc c k) /\ maxseg (getc c' k) = maxseg (getc c k)
    /\ maxmsg (getc c' k) = maxmsg (getc c k) /\ xon (getc c' k) = xon (getc c k) /\ flow (getc c' k) = flow (getc c k) /\ seqnum (getc c' k) = seqnum (getc c k).
Proof.
  intros c ch i c' H. unfold tx_send in H. destruct (nth_error (pending (getc c ch)) i) as [e|] eqn:N; [|discriminate].
  destruct (fill_packet c ch e) as [[c1 p1] g] eqn:E. apply fill_data in E as (D & AH & SO & SN & L & II & IL & K).
  apply sendmsg_log in H. subst c'. exists e, p1. eexists. split; [reflexivity|].
  split; [destruct ch; cbn [emit clog set_clog putc set_cdata set_coth]; rewrite L; reflexivity|].
  cbn [g_seg g_msg]. do 8 (split; [auto|]).
  split; [|split].
  - eexists. split; [destruct (K ch) as (KP & _); rewrite <- KP; destruct ch; cbn [emit getc putc cdata coth set_clog set_cdata set_coth pending set_pending]; reflexivity|].
    repeat split.
  - destruct (K (cross ch)) as (KP & _). rewrite <- KP. destruct ch; reflexivity.
  - intros k. destruct (K k) as (K1 & K2 & K3 & K4 & K5 & K6 & K7 & K8 & K9 & K10). destruct ch, k; cbn in *; repeat split; assumption.
Qed.

(** ** Lists *)
Lemma upd_app_l : forall A (a b : list A) i x, (i < length a)%nat -> upd i x (a ++ b) = upd i x a ++ b.
Proof. induction a as [|y a IH]; intros b i x H; [cbn in H; lia|]. destruct i as [|i]; cbn [app upd]; [reflexivity|]. rewrite IH; [reflexivity|cbn in H; lia]. Qed.
Lemma upd_app_r : forall A (a b : list A) i x, (length a <= i)%nat -> upd i x (a ++ b) = a ++ upd (i - length a) x b.
Proof. induction a as [|y a IH]; intros b i x H; [cbn; now rewrite Nat.sub_0_r|]. destruct i as [|i]; [cbn in H; lia|]. cbn [app upd length Nat.sub]. rewrite IH; [reflexivity|cbn in H; lia]. Qed.
Lemma upd_length : forall A i (x : A) l, length (upd i x l) = length l.
Proof. induction i as [|i IH]; intros x [|y l]; cbn [upd length]; auto. Qed.
Lemma upd_Forall : forall A (P : A -> Prop) i x l, P x -> Forall P l -> Forall P (upd i x l).
Proof. induction i as [|i IH]; intros x [|y l] H K; cbn [upd]; auto; inversion K; subst; constructor; auto. Qed.
Lemma numbered_upd : forall ds F i e e1, numbered F ds -> nth_error ds i = Some e -> tseg e1 = tseg e -> numbered F (upd i e1 ds).
Proof.
  induction ds as [|x ds IH]; intros F i e e1 H N T; [destruct i; discriminate|]. destruct H as [H1 H2].
  destruct i as [|i]; cbn [nth_error upd numbered] in *; [injection N as <-; split; [congruence|exact H2]|split; [exact H1|eauto]].
Qed.
Lemma numbered_nth : forall ds F i e, numbered F ds -> nth_error ds i = Some e -> tseg e = F + Z.of_nat i.
Proof.
  induction ds as [|x ds IH]; intros F i e H N; [destruct i; discriminate|]. destruct H as [H1 H2].
  destruct i as [|i]; cbn [nth_error] in N; [injection N as <-; lia|]. rewrite (IH _ _ _ H2 N). lia.
Qed.
Lemma numbered_skip : forall k ds F, numbered F ds -> numbered (F + Z.of_nat k) (skipn k ds).
Proof.
  induction k as [|k IH]; intros ds F H; [now rewrite Z.add_0_r|]. destruct ds as [|x ds]; [exact I|]. cbn [skipn]. destruct H as [_ H].
  replace (F + Z.of_nat (S k)) with (F + 1 + Z.of_nat k) by lia. now apply IH.
Qed.
Lemma numbered_snoc : forall ds F e, numbered F ds -> tseg e = F + zlen ds -> numbered F (ds ++ [e]).
Proof.
  induction ds as [|x ds IH]; intros F e H T; cbn [app numbered] in *; [rewrite zlen_nil in T; split; [lia|exact I]|].
  destruct H as [H1 H2]. split; [exact H1|]. apply IH; [exact H2|]. rewrite zlen_cons in T. lia.
Qed.

(** Where an entry of the queue is. *)
Lemma ctl_data : forall ctl i e, ctl_ok ctl -> nth_error ctl i = Some e -> is_data (tp e) = false.
Proof.
  intros ctl i e [-> |(x & -> & A & _)] N; [destruct i; discriminate|]. destruct i as [|[|i]]; cbn in N; try discriminate. injection N as <-.
  destruct (tp x); try reflexivity; discriminate A.
Qed.
Lemma find_data : forall ctl ds i e, ctl_ok ctl -> nth_error (ctl ++ ds) i = Some e -> is_data (tp e) = true ->
  (length ctl <= i)%nat /\ nth_error ds (i - length ctl) = Some e.
Proof.
  intros ctl ds i e C N D. destruct (Nat.lt_ge_cases i (length ctl)) as [L|L].
  - rewrite nth_error_app1 in N by exact L. rewrite (ctl_data _ _ _ C N) in D. discriminate.
  - rewrite nth_error_app2 in N by exact L. auto.
Qed.
Lemma find_ctl : forall log ctl ds i e, Forall (entry_ok log) ds -> nth_error (ctl ++ ds) i = Some e -> is_data (tp e) = false ->
  (i < length ctl)%nat /\ nth_error ctl i = Some e.
Proof.
  intros log ctl ds i e C N D. destruct (Nat.lt_ge_cases i (length ctl)) as [L|L].
  - rewrite nth_error_app1 in N by exact L. auto.
  - rewrite nth_error_app2 in N by exact L. apply nth_error_In in N. rewrite Forall_forall in C. destruct (C _ N) as [X _]. congruence.
Qed.
Lemma ctl_upd : forall ctl i e e1, ctl_ok ctl -> nth_error ctl i = Some e -> is_ackhdr (tp e1) = is_ackhdr (tp e) -> tseg e1 = tseg e -> ctl_ok (upd i e1 ctl).
Proof.
  intros ctl i e e1 [-> |(x & -> & A & T)] N B C; [destruct i; discriminate|]. destruct i as [|[|i]]; cbn in N; try discriminate. injection N as <-.
  right. exists e1. split; [reflexivity|]. split; congruence.
Qed.

(** ** Transmission of a data segment *)
Lemma tx_data : forall cfg rest F c ctl ds i e c1, queue0 cfg rest F c ctl ds -> nth_error (pending (cdata c)) i = Some e -> is_data (tp e) = true ->
  tseg e <= F + qmax cfg - 1 -> tx_send c CD i = Ok c1 -> log_ok (clog c) ->
  exists ds', queue0 cfg rest F c1 ctl ds' /\ hi (clog c1) = Z.max (hi (clog c)) (tseg e) /\ maxseqsent (cdata c1) = maxseqsent (cdata c) /\ log_ok (clog c1) /\
    cst c1 = cst c /\ pending (coth c1) = pending (coth c) /\ F <= tseg e /\ segnum (tp e) = tseg e mod 4096 /\ (ds = [] -> ds' = []).
Proof.
  intros cfg rest F c ctl ds i e c1 [Q1 Q2 Q3 Q4 Q5 Q6 Q7 Q8 Q9 Q10 Q11] N D FL H LO.
  pose proof (fr_st _ _ (tx_send_frame _ _ _ _ H)) as ST.
  destruct (tx_send_log _ _ _ _ H) as (e0 & p & g & N0 & L & G1 & G2 & D1 & _ & SO & SN & _ & _ & (e1 & P1 & E1 & E2 & E3 & E4 & E5 & E6) & PX & K).
  cbn [getc cross] in *. assert (e0 = e) by congruence. subst e0. clear N0.
  rewrite Q1 in N. destruct (find_data _ _ _ _ Q2 N D) as [IL ND].
  pose proof (nth_error_In _ _ ND) as IE. rewrite Forall_forall in Q6. destruct (Q6 _ IE) as (T1 & T2 & T3 & T4 & T5 & T6 & T7).
  pose proof (numbered_nth _ _ _ _ Q3 ND) as TS. pose proof (nth_lt _ _ _ _ ND) as LT.
  destruct (K CD) as (K1 & K2 & _ & K4 & _). cbn [getc] in K1, K2, K4.
  assert (HI : hi (clog c1) = Z.max (hi (clog c)) (tseg e)).
  { rewrite L, hi_app. cbn [hi fold_right dseg]. rewrite D1, D, G1. pose proof (hi_nonneg (clog c)). lia. }
  assert (CT : content (clog c1) = content (clog c)) by (rewrite L, content_app; cbn [content flat_map taken app]; apply app_nil_r).
  assert (EX : forall x, entry_ok (clog c) x -> entry_ok (clog c1) x).
  { intros x (X1 & X2 & X3 & X4 & X5 & X6). unfold entry_ok. rewrite CT, HI. repeat (split; [assumption|]). split; [lia|exact X6]. }
  exists (upd (i - length ctl) e1 ds). split; [|split; [exact HI|split; [exact K2|split]]].
  - constructor; rewrite ?CT, ?K1, ?K4, ?HI; auto; try lia.
    + rewrite P1, Q1. apply upd_app_r. exact IL.
    + eapply numbered_upd; eauto.
    + unfold zlen in *. rewrite upd_length. exact Q4.
    + apply upd_Forall; [|apply Forall_forall; intros x X; apply EX; auto].
      unfold entry_ok. rewrite CT, HI, E1, E2, E3, E4, SO, SN, D1. repeat (split; [assumption|]). split; [lia|]. split; [lia|]. intros _. lia.
    + unfold zlen in Q4. lia.
  - intros q h I0 DQ. rewrite CT. rewrite L in I0. apply in_app_or in I0 as [I0|[I0|[]]]; [apply (LO q h I0 DQ)|].
    injection I0 as <- <-. rewrite G1, G2, SO, SN. repeat split; auto; lia.
  - split; [exact ST|]. split; [exact PX|]. split; [lia|]. split; [exact T3|]. intros ->. destruct (i - length ctl)%nat; discriminate.
Qed.
Lemma bump_data : forall cfg rest F c ctl ds M n c1, queue0 cfg rest F c ctl ds -> maxseqsent (cdata c) = M mod 4096 -> hi (clog c) = Z.max M n ->
  F - 1 <= M -> F <= n -> 1 <= qmax cfg <= 2047 -> bump c CD (n mod 4096) = Ok c1 ->
  queue0 cfg rest F c1 ctl ds /\ maxseqsent (cdata c1) = hi (clog c1) mod 4096 /\ clog c1 = clog c /\ cst c1 = cst c /\ pending (coth c1) = pending (coth c).
Proof.
  intros cfg rest F c ctl ds M n c1 [Q1 Q2 Q3 Q4 Q5 Q6 Q7 Q8 Q9 Q10 Q11] MS HI FM FN QM H. unfold bump, seqmax in H. cbn [getc] in H. rewrite MS in H.
  destruct (mod_lt_unwrapped 4096 n M) as (_ & _ & G); [lia|lia|]. rewrite G in H. cbn [bind] in H. injection H as <-.
  split; [constructor; auto|]. cbn [cdata putc set_cdata maxseqsent set_maxseqsent clog cst coth]. split; [|auto].
  rewrite HI. destruct (M <? n) eqn:L; f_equal; lia.
Qed.
Lemma flow_bound : forall cfg rest F c ctl ds i e, queue0 cfg rest F c ctl ds -> nth_error (pending (cdata c)) i = Some e -> flow_ok cfg (cdata c) e = true ->
  tseg e <= F + qmax cfg - 1.
Proof.
  intros cfg rest F c ctl ds i e [Q1 Q2 Q3 Q4 Q5 Q6 Q7 Q8 Q9 Q10 Q11] N H. unfold flow_ok in H.
  destruct (pending (cdata c)) as [|x t] eqn:P; [destruct i; discriminate|].
  assert (tseg x = 0 \/ tseg x = F). { destruct Q2 as [-> |(y & -> & _ & T)]; cbn [app] in Q1; [|injection Q1 as -> _; auto]. subst ds. right. apply Q3. }
  apply andb_true_iff in H as [H _]. apply andb_true_iff in H as [H _]. lia.
Qed.
