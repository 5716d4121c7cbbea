(** Flow control and the transmit window (C35). *)
From Verif Require Import Base Dict ModuloModel ModuloProps NspPktModel NspModel NspFrame NspPrim NspRx NspSend NspSendInv.

(** * Specification *)
(** The data requests among the Link Service messages accepted, as (XON/XOFF field, credit). *)
Definition req (o : out) : list (Z * Z) := match o with ODeliver CO (NLs _ _ _ _ _ m i v) => if i =? 0 then [(m, v)] else [] | _ => [] end.
Definition reqs (l : list out) : list (Z * Z) := flat_map req l.
(** The credit of the interrupt requests among them. *)
Definition ireq (o : out) : Z := match o with ODeliver CO (NLs _ _ _ _ _ m i v) => if i =? 0 then 0 else Z.max 0 v | _ => 0 end.
Definition icredit (l : list out) : Z := fold_right (fun o n => ireq o + n) 0 l.
(** Which requests count, when [A] segments are acknowledged and the total
    credit is [T]: mode 2 counts messages, mode 1 segments, otherwise there is no limit.  *)
Definition valid (mode A T v : Z) : bool :=
  if mode =? 2 then (0 <=? v) && (T + v <? A + 128) else if mode =? 1 then (A <=? T + v) && (T + v <? A + 128) else true.
(** [honoured mode l A T x]: after the requests [l], when [A] segments are
    acknowledged, the total credit is [T] and sending is switched on ([x]). *)
Inductive honoured (mode : Z) : list (Z * Z) -> Z -> Z -> bool -> Prop :=
  | hon_nil : honoured mode [] 0 0 true
  | hon_ack : forall l A T x A', honoured mode l A T x -> A <= A' -> honoured mode l A' T x
  | hon_req : forall l A T x m v, honoured mode l A T x ->
      honoured mode (l ++ [(m, v)]) A (if valid mode A T v then T + v else T) (if valid mode A T v then if m =? 0 then x else m =? 2 else x).
Definition within (mode T : Z) (g : tag) : Prop := mode = 0 \/ mode = 1 /\ g_seg g <= T \/ mode = 2 /\ g_msg g <= T.

(** * Invariant *)
Section F.
Variable cfg : ncfg.
Variable ackd : Z -> Prop.    (* how far the peer may have acknowledged *)
Variable agreed : Z -> Prop.  (* the flow control modes asked for by the peer *)
(** The acknowledgements [l] received since count. *)
Definition closed (l : list (chan * Z)) : Prop :=
  forall n A a, In (CD, n) l -> ackd A -> A < a <= A + qmax cfg -> a mod 4096 = n mod 4096 -> ackd a.
Definition log_flow (mode : Z) (log : list out) : Prop :=
  forall pre p g post, log = pre ++ OTx p g :: post -> is_data p = true -> exists A T,
    agreed mode /\ A < g_seg g <= A + qmax cfg /\ ackd A /\ honoured mode (reqs pre) A T true /\ within mode T g.
Record FI (F : Z) (c : conn) : Prop := mk_FI {
  f_early : early (cst c) = true -> F = 1 /\ reqs (clog c) = [] /\ xon (cdata c) = true /\ maxseg (cdata c) = 0 /\ maxmsg (cdata c) = 0 /\ maxackseg (cdata c) = 0;
  f_ctl : over (cst c) = false -> forall e, In e (pending (cdata c)) -> is_data (tp e) = false -> F = 1;
  f_st : over (cst c) = false -> ackd (F - 1) /\ maxackseg (cdata c) = F - 1 /\
    exists T, honoured (flow (cdata c)) (reqs (clog c)) (F - 1) T (xon (cdata c)) /\ (flow (cdata c) = 1 -> maxseg (cdata c) = T) /\ (flow (cdata c) = 2 -> maxmsg (cdata c) = T);
  f_ag : agreed (flow (cdata c)) \/ cst c = Sci \/ cst c = Scd \/ over (cst c) = true;
  f_log : log_flow (flow (cdata c)) (clog c) }.

Lemma split_snoc : forall A (l : list A) x pre y post, l ++ [x] = pre ++ y :: post -> (post = [] /\ pre = l /\ y = x) \/ exists post', post = post' ++ [x] /\ l = pre ++ y :: post'.
Proof.
  intros A l x pre y post E. induction post as [|z post' _] using rev_ind.
  - apply app_inj_tail in E as [-> ->]. auto.
  - right. exists post'. rewrite app_comm_cons, app_assoc in E. apply app_inj_tail in E as [-> ->]. auto.
Qed.
Lemma reqs_app : forall a b, reqs (a ++ b) = reqs a ++ reqs b.
Proof. intros. apply flat_map_app. Qed.
Lemma log_flow_ext : forall mode l log, nodata l -> log_flow mode log -> log_flow mode (log ++ l).
Proof.
  induction l as [|o l IH]; intros log N H; [now rewrite app_nil_r|]. inversion N as [|? ? N1 N2]; subst. change (o :: l) with ([o] ++ l). rewrite app_assoc. apply IH; [exact N2|].
  intros pre p g post E D. apply split_snoc in E as [(-> & -> & E)|(post' & -> & E)]; [|exact (H pre p g post' E D)]. subst o. cbn in N1. congruence.
Qed.
Lemma log_flow_data : forall mode log p g A T, log_flow mode log -> agreed mode -> A < g_seg g <= A + qmax cfg -> ackd A -> honoured mode (reqs log) A T true -> within mode T g ->
  log_flow mode (log ++ [OTx p g]).
Proof.
  intros mode log p g A T H AG B K HO WI pre q h post E D. apply split_snoc in E as [(-> & -> & E)|(post' & -> & E)]; [|exact (H pre q h post' E D)]. injection E as -> ->. exists A, T. auto.
Qed.
Lemma txonly_reqs : forall l, txonly l -> reqs l = [].
Proof. induction l as [|o l IH]; intros H; [reflexivity|]. inversion H as [|? ? H1 H2]; subst. cbn [reqs flat_map]. fold (reqs l). rewrite (IH H2). destruct o; try destruct H1; reflexivity. Qed.

Lemma FI_keep : forall F c c' l, cst c' = cst c -> flow (cdata c') = flow (cdata c) -> xon (cdata c') = xon (cdata c) -> maxseg (cdata c') = maxseg (cdata c) ->
  maxmsg (cdata c') = maxmsg (cdata c) -> maxackseg (cdata c') = maxackseg (cdata c) -> clog c' = clog c ++ l -> nodata l -> reqs l = [] ->
  (forall e, In e (pending (cdata c')) -> is_data (tp e) = false -> exists e0, In e0 (pending (cdata c)) /\ is_data (tp e0) = false) -> FI F c -> FI F c'.
Proof.
  intros F c c' l S E1 E2 E3 E4 E5 L N R P [A B C D E].
  constructor; rewrite ?S, ?E1, ?E2, ?E3, ?E4, ?E5, ?L, ?reqs_app, ?R, ?app_nil_r; auto.
  - intros O e IN DE. destruct (P e IN DE) as (e0 & X & Y). eauto.
  - now apply log_flow_ext.
Qed.
Lemma FI_over : forall F c c' l, over (cst c') = true -> flow (cdata c') = flow (cdata c) -> clog c' = clog c ++ l -> nodata l -> FI F c -> FI F c'.
Proof.
  intros F c c' l O E L N [A B C D E0]. constructor; try congruence.
  - destruct (cst c'); discriminate.
  - auto.
  - rewrite E, L. now apply log_flow_ext.
Qed.
Lemma no_data_log : forall rest F c mode, SI cfg rest F c -> early (cst c) = true -> F = 1 -> log_flow mode (clog c).
Proof.
  intros rest F c mode [I1 I2 I3 I4 I4' I5] E F1 pre p g post L D. exfalso. destruct I5 as [(ctl & ds & Q & MS & E1 & E2 & E3)|[_ I6]]; [|destruct (cst c); discriminate].
  pose proof (q_next _ _ _ _ _ _ Q). pose proof (q_hi2 _ _ _ _ _ _ Q). rewrite (E1 E), zlen_nil in *.
  assert (IN : In (OTx p g) (clog c)) by (rewrite L; apply in_or_app; right; left; reflexivity).
  destruct (I1 p g IN D) as (G & _). pose proof (hi_in _ _ IN) as X. cbn [dseg] in X. rewrite D in X. lia.
Qed.
Lemma in_upd : forall A (x : A) l i y, In y (upd i x l) -> y = x \/ In y l.
Proof. induction l as [|z l IH]; intros [|i] y H; cbn [upd In] in *; auto; [destruct H; auto|]. destruct H as [H|H]; [auto|]. destruct (IH _ _ H); auto. Qed.
Lemma upd_nondata : forall l i e e1, nth_error l i = Some e -> is_data (tp e1) = is_data (tp e) ->
  forall x, In x (upd i e1 l) -> is_data (tp x) = false -> exists e0, In e0 l /\ is_data (tp e0) = false.
Proof.
  intros l i e e1 N D x IN X. apply in_upd in IN as [-> |IN]; [|eauto]. exists e. split; [eapply nth_error_In; exact N|congruence].
Qed.

Lemma not_early_data : forall rest F c i e, SI cfg rest F c -> nth_error (pending (cdata c)) i = Some e -> is_data (tp e) = true -> over (cst c) = false /\ early (cst c) = false.
Proof.
  intros rest F c i e [I1 I2 I3 I4 I4' I5] N D. destruct I5 as [(ctl & ds & Q & MS & E1 & E2 & E3)|[I5 I6]].
  - split; [exact E3|]. destruct (early (cst c)); [|reflexivity]. exfalso. rewrite (q_pend _ _ _ _ _ _ Q), (E1 eq_refl), app_nil_r in N.
    rewrite (ctl_data _ _ _ (q_ctl _ _ _ _ _ _ Q) N) in D. discriminate.
  - unfold nah in I5. rewrite Forall_forall in I5. specialize (I5 _ (nth_error_In _ _ N)). destruct (tp e); discriminate.
Qed.
(** A data segment is transmitted. *)
Lemma FI_tx : forall rest F c i e c1, SI cfg rest F c -> FI F c -> nth_error (pending (cdata c)) i = Some e -> is_data (tp e) = true ->
  flow_ok cfg (cdata c) e = true -> tx_send c CD i = Ok c1 -> FI F c1.
Proof.
  intros rest F c i e c1 I FIc N D FO H. destruct (not_early_data _ _ _ _ _ I N D) as [OV EA].
  assert (B : F <= tseg e <= F + qmax cfg - 1).
  { destruct I as [I1 I2 I3 I4 I4' I5]. destruct I5 as [(ctl & ds & Q & MS & E1 & E2 & E3)|[_ I6]]; [|congruence].
    pose proof (flow_bound _ _ _ _ _ _ _ _ Q N FO). rewrite (q_pend _ _ _ _ _ _ Q) in N. destruct (find_data _ _ _ _ (q_ctl _ _ _ _ _ _ Q) N D) as [_ ND].
    pose proof (numbered_nth _ _ _ _ (q_num _ _ _ _ _ _ Q) ND). lia. }
  pose proof (fr_st _ _ (tx_send_frame _ _ _ _ H)) as ST.
  destruct (tx_send_log _ _ _ _ H) as (e0 & p & g & N0 & L & G1 & G2 & D1 & _ & _ & _ & _ & _ & (e1 & P1 & E1 & _) & _ & K).
  cbn [getc cross] in *. assert (e0 = e) by congruence. subst e0. destruct (K CD) as (_ & _ & K3 & _ & K5 & K6 & K7 & K8 & _). cbn [getc] in *.
  destruct FIc as [A1 A2 A3 A4 A5]. destruct (A3 OV) as (X1 & X2 & T & X3 & X4 & X5).
  unfold flow_ok in FO. apply andb_true_iff in FO as [FO FL]. apply andb_true_iff in FO as [_ XON].
  assert (AG : agreed (flow (cdata c))). { destruct A4 as [A4|[A4|[A4|A4]]]; [exact A4| | |congruence]; rewrite A4 in EA; discriminate. }
  constructor; rewrite ?ST, ?K3, ?K5, ?K6, ?K7, ?K8, ?L, ?reqs_app; auto.
  - congruence.
  - intros _ y IN Y. destruct (upd_nondata _ _ _ e1 N ltac:(congruence) y ltac:(congruence) Y) as (y0 & Y1 & Y2). eauto.
  - intros _. cbn [reqs flat_map req app]. rewrite app_nil_r. split; [exact X1|]. split; [exact X2|]. exists T. auto.
  - eapply log_flow_data; [exact A5|exact AG| |exact X1|rewrite XON in X3; exact X3|]; rewrite ?G1; [lia|].
    unfold within. rewrite G1, G2. destruct (flow (cdata c) =? 0) eqn:M0; [left; lia|]. destruct (flow (cdata c) =? 1) eqn:M1; [right; left; split; [lia|]|].
    + assert (Y : maxseg (cdata c) = T) by (apply X4; lia). assert (flow (cdata c) =? 2 = false) as Z2 by lia. rewrite Z2 in FL. cbn [orb andb] in FL. rewrite orb_false_r in FL. lia.
    + destruct (flow (cdata c) =? 2) eqn:M2; [|cbn [orb andb] in FL; discriminate]. right. right. split; [lia|]. assert (Y : maxmsg (cdata c) = T) by (apply X5; lia). cbn [orb andb] in FL. lia.
Qed.
Lemma FI_ctl : forall F c i e c1, FI F c -> nth_error (pending (cdata c)) i = Some e -> is_data (tp e) = false -> tx_send c CD i = Ok c1 -> FI F c1.
Proof.
  intros F c i e c1 FIc N D H. pose proof (fr_st _ _ (tx_send_frame _ _ _ _ H)) as ST.
  destruct (tx_send_log _ _ _ _ H) as (e0 & p & g & N0 & L & _ & _ & D1 & _ & _ & _ & _ & _ & (e1 & P1 & E1 & _) & PX & K).
  cbn [getc cross] in *. assert (e0 = e) by congruence. subst e0. destruct (K CD) as (_ & _ & K3 & _ & K5 & K6 & K7 & K8 & _). cbn [getc] in *.
  apply (FI_keep F c c1 [OTx p g]); auto; [apply nodata_one; congruence|]. rewrite P1. apply (upd_nondata _ _ e); auto. congruence.
Qed.
Lemma tx_other_keep : forall F c i e c1, FI F c -> nth_error (pending (coth c)) i = Some e -> is_data (tp e) = false -> tx_send c CO i = Ok c1 -> FI F c1.
Proof.
  intros F c i e c1 FIc N D H. pose proof (fr_st _ _ (tx_send_frame _ _ _ _ H)) as ST.
  destruct (tx_send_log _ _ _ _ H) as (e0 & p & g & N0 & L & _ & _ & D1 & _ & _ & _ & _ & _ & (e1 & P1 & E1 & _) & PX & K).
  cbn [getc cross] in *. assert (e0 = e) by congruence. subst e0. destruct (K CD) as (_ & _ & K3 & _ & K5 & K6 & K7 & K8 & _). cbn [getc] in *.
  apply (FI_keep F c c1 [OTx p g]); auto; [apply nodata_one; congruence|]. rewrite PX. eauto.
Qed.
Lemma FI_cdata : forall F c s, FI F c -> pending s = pending (cdata c) -> flow s = flow (cdata c) -> xon s = xon (cdata c) -> maxseg s = maxseg (cdata c) ->
  maxmsg s = maxmsg (cdata c) -> maxackseg s = maxackseg (cdata c) -> FI F (set_cdata c s).
Proof.
  intros F c s H P A B C D E. eapply (FI_keep F c (set_cdata c s) []); eauto; [now rewrite app_nil_r|constructor|]. cbn [cdata set_cdata]. rewrite P. eauto.
Qed.
Lemma FI_coth : forall F c s, FI F c -> FI F (set_coth c s).
Proof. intros F c s H. eapply (FI_keep F c (set_coth c s) []); eauto; [now rewrite app_nil_r|constructor]. Qed.
Lemma FI_putc : forall F c ch s, FI F c -> pending s = pending (getc c ch) -> flow s = flow (getc c ch) -> xon s = xon (getc c ch) -> maxseg s = maxseg (getc c ch) ->
  maxmsg s = maxmsg (getc c ch) -> maxackseg s = maxackseg (getc c ch) -> FI F (putc c ch s).
Proof. intros F c [] s H P A B C D E; [now apply FI_cdata|now apply FI_coth]. Qed.
Lemma FI_emit : forall F c o, FI F c -> nodata [o] -> req o = [] -> FI F (emit c o).
Proof. intros F c o H N R. eapply (FI_keep F c (emit c o) [o]); eauto. cbn [reqs flat_map]. rewrite R. reflexivity. Qed.
Lemma FI_sendack : forall F c ch c', FI F c -> send_ack c ch = Ok c' -> FI F c'.
Proof.
  intros F c ch c' H E. pose proof (send_ack_sframe _ _ _ E) as [S1 _ _ _ _ _ S2]. destruct (sf_log _ _ (send_ack_sframe _ _ _ E)) as (l & L & N).
  destruct (fr_log _ _ (send_ack_frame _ _ _ E)) as (l' & L' & T). assert (l' = l) by (rewrite L in L'; now apply app_inv_head in L'). subst l'.
  unfold send_ack in E. destruct (set_acks _ ch true _ _) as [[c1 p1] g] eqn:SA. apply set_acks_frame in SA as (_ & _ & K). apply sendmsg_log in E. subst c'.
  destruct (K CD) as (_ & _ & _ & K3 & _ & K5 & K6 & K7 & K8 & _). cbn [getc] in *.
  assert (X : forall A (f : sub -> A), (forall s b, f (set_hold s b) = f s) -> f (cdata (putc c ch (set_hold (getc c ch) false))) = f (cdata c)) by (intros A f Hf; destruct ch; cbn; auto).
  rewrite X in K3, K5, K6, K7, K8 by reflexivity.
  eapply FI_keep; eauto; [now apply txonly_reqs|]. rewrite S1. eauto.
Qed.
Lemma FI_tosc : forall F c p r, FI F c -> FI F (to_sc c p r).
Proof.
  intros F c p r H. destruct (sf_log _ _ (to_sc_sframe c p r)) as (l & L & N). pose proof (to_sc_sframe c p r) as [S1 _ _ _ _ _ S2].
  assert (X : cdata (to_sc c p r) = cdata c).
  { destruct p; try reflexivity. cbn [to_sc]. destruct (casm c); repeat match goal with |- context [if ?b then _ else _] => destruct b end; reflexivity. }
  assert (R : reqs (clog (to_sc c p r)) = reqs (clog c)).
  { destruct p; cbn [to_sc]; try (cbn [emit clog set_clog]; rewrite reqs_app; cbn; now rewrite app_nil_r).
    destruct (casm c); repeat match goal with |- context [if ?b then _ else _] => destruct b end; cbn [emit clog set_clog set_casm]; rewrite ?reqs_app; cbn; now rewrite ?app_nil_r. }
  eapply FI_keep; eauto; rewrite ?X; auto; [|eauto]. rewrite L, reqs_app in R. rewrite <- (app_nil_r (reqs (clog c))) in R at 2. now apply app_inv_head in R.
Qed.
Lemma FI_other_send : forall F c p c' b, FI F c -> is_data p = false -> other_send c p = Ok (c', b) -> FI F c'.
Proof.
  intros F c p c' b H D E. unfold other_send in E. destruct (negb (is_ls p) && _); [injection E as <- <-; apply FI_emit; [exact H|apply nodata_one; exact I|reflexivity]|].
  set (e := mk_txe p 0 _ 0 false false None None) in *. set (c1 := set_coth c _) in *.
  destruct (tx_send c1 CO _) as [c2|] eqn:T; cbn [bind] in E; [|discriminate].
  destruct (bump c2 CO (segnum p)) as [c3|] eqn:B; cbn [bind] in E; [|discriminate]. injection E as <- <-.
  unfold bump in B. destruct (seqmax _ _); cbn [bind] in B; [|discriminate]. injection B as <-. apply FI_coth.
  eapply (tx_other_keep F c1 _ e); [now apply FI_coth| |exact D|exact T].
  unfold c1. cbn [coth set_coth pending set_pending]. rewrite nth_error_app2 by lia. now rewrite Nat.sub_diag.
Qed.
Lemma grant_valid : forall s m v, let T := if flow s =? 2 then maxmsg s else if flow s =? 1 then maxseg s else 0 in
  match grant s m v with
  | Some s1 => valid (flow s) (maxackseg s) T v = true /\ pending s1 = pending s /\ flow s1 = flow s /\ maxackseg s1 = maxackseg s /\ xon s1 = (if m =? 0 then xon s else m =? 2) /\
      (flow s = 1 -> maxseg s1 = T + v) /\ (flow s = 2 -> maxmsg s1 = T + v)
  | None => valid (flow s) (maxackseg s) T v = false /\ (flow s = 1 \/ flow s = 2)
  end.
Proof.
  intros s m v. cbv zeta. unfold grant, valid. destruct (flow s =? 2) eqn:F2; [|destruct (flow s =? 1) eqn:F1].
  - destruct (_ && _); [|split; [reflexivity|right; lia]]. destruct (m =? 0); cbn; repeat (split; [reflexivity|]); try split; intros; try reflexivity; lia.
  - destruct (_ && _); [|split; [reflexivity|left; lia]]. destruct (m =? 0); cbn; repeat (split; [reflexivity|]); try split; intros; try reflexivity; lia.
  - destruct (m =? 0); cbn; repeat (split; [reflexivity|]); try split; intros; lia.
Qed.
Lemma FI_acc : forall F c ch num p, FI F c -> runs (cst c) -> FI F (acc c ch num p).
Proof.
  intros F c ch num p H R. unfold acc. set (c0 := putc c ch _). assert (H0 : FI F c0) by (apply FI_putc; auto).
  assert (R0 : runs (cst c0)) by (unfold c0; destruct ch; exact R). clearbody c0. clear H R c.
  assert (G : req (ODeliver ch p) = [] -> FI F (emit c0 (ODeliver ch p))) by (intros Q; apply FI_emit; [exact H0|apply nodata_one; exact I|exact Q]).
  destruct ch; [apply FI_tosc; apply G; reflexivity|]. destruct (is_ls p) eqn:LS; [|apply FI_tosc; apply G; destruct p; try reflexivity; discriminate LS].
  destruct p as [|  |d s a1 a2 n m i v| | | | | | | | ]; try discriminate LS. cbn [credit]. clear LS G. set (o := ODeliver CO _).
  destruct (i =? 0) eqn:I0.
  2:{ assert (H1 : FI F (emit c0 o)) by (apply FI_emit; [exact H0|apply nodata_one; exact I|cbn; rewrite I0; reflexivity]). unfold other_ls. destruct (0 <=? v); [apply FI_coth; exact H1|exact H1]. }
  change (cdata (emit c0 o)) with (cdata c0). pose proof (grant_valid (cdata c0) m v) as GV. cbv zeta in GV.
  assert (RQ : reqs (clog c0 ++ [o]) = reqs (clog c0) ++ [(m, v)]) by (rewrite reqs_app; cbn; rewrite I0; reflexivity).
  assert (LF : log_flow (flow (cdata c0)) (clog c0 ++ [o])) by (apply log_flow_ext; [apply nodata_one; exact I|apply (f_log _ _ H0)]).
  assert (EA : early (cst c0) = false) by (destruct R0 as [-> | -> ]; reflexivity).
  destruct H0 as [A1 A2 A3 A4 A5]. destruct (grant (cdata c0) m v) as [s1|].
  - destruct GV as (G1 & G2 & G3 & G4 & G5 & G6 & G7). constructor; cbn [cst set_cdata emit set_clog cdata clog]; rewrite ?G2, ?G3, ?G4; auto; [congruence|].
    intros OV. destruct (A3 OV) as (X1 & X2 & T & X3 & X4 & X5). split; [exact X1|]. split; [exact X2|]. rewrite RQ, G5.
    destruct (Z.eq_dec (flow (cdata c0)) 1) as [M1|M1]; [|destruct (Z.eq_dec (flow (cdata c0)) 2) as [M2|M2]].
    + exists (T + v). rewrite M1 in G1. change (1 =? 2) with false in G1. change (1 =? 1) with true in G1. cbv iota in G1. rewrite (X4 M1), X2 in G1.
      pose proof (hon_req _ _ _ _ _ m v X3) as HR. rewrite M1 in *. rewrite G1 in HR. split; [exact HR|]. split; [|lia]. intros _. rewrite G6 by lia. change (1 =? 2) with false. change (1 =? 1) with true. cbv iota. rewrite X4 by lia. reflexivity.
    + exists (T + v). rewrite M2 in G1. change (2 =? 2) with true in G1. cbv iota in G1. rewrite (X5 M2), X2 in G1.
      pose proof (hon_req _ _ _ _ _ m v X3) as HR. rewrite M2 in *. rewrite G1 in HR. split; [exact HR|]. split; [lia|]. intros _. rewrite G7 by lia. change (2 =? 2) with true. cbv iota. rewrite X5 by lia. reflexivity.
    + exists (T + v). pose proof (hon_req _ _ _ _ _ m v X3) as HR. assert (V : valid (flow (cdata c0)) (F - 1) T v = true). { unfold valid. apply Z.eqb_neq in M1, M2. rewrite M1, M2. reflexivity. }
      rewrite V in HR. split; [exact HR|]. split; intros; congruence.
  - destruct GV as [G1 G2]. constructor; cbn [cst emit set_clog cdata clog]; auto; [congruence|].
    intros OV. destruct (A3 OV) as (X1 & X2 & T & X3 & X4 & X5). split; [exact X1|]. split; [exact X2|]. exists T. rewrite RQ. split; [|auto].
    pose proof (hon_req _ _ _ _ _ m v X3) as HR. assert (V : valid (flow (cdata c0)) (F - 1) T v = false).
    { rewrite <- G1, X2. destruct G2 as [M|M]; rewrite M.
      - change (1 =? 2) with false. change (1 =? 1) with true. cbv iota. rewrite X4 by exact M. reflexivity.
      - change (2 =? 2) with true. cbv iota. rewrite X5 by exact M. reflexivity. }
    rewrite V in HR. exact HR.
Qed.

Definition opening (s : cstate) : Prop := s = Sci \/ s = Scd.
Lemma bump_st : forall c ch n c', bump c ch n = Ok c' -> cst c' = cst c.
Proof. intros c ch n c' H. unfold bump in H. destruct (seqmax _ _); cbn [bind] in H; [|discriminate]. injection H as <-. destruct ch; reflexivity. Qed.
Lemma chan_ack_st : forall c ch n c', chan_ack c ch n = Ok c' -> cst c' = cst c.
Proof. intros c ch n c' H. unfold chan_ack in H. destruct (sub_ack _ _); cbn [bind] in H; [|discriminate]. injection H as <-. destruct ch; reflexivity. Qed.
Lemma other_send_st : forall c p c' b, other_send c p = Ok (c', b) -> cst c' = cst c.
Proof.
  intros c p c' b H. unfold other_send in H. destruct (_ && _); [injection H as <- <-; reflexivity|]. destruct (tx_send _ CO _) as [c2|] eqn:T; cbn [bind] in H; [|discriminate].
  destruct (bump c2 CO _) as [c3|] eqn:B; cbn [bind] in H; [|discriminate]. injection H as <- <-. rewrite (bump_st _ _ _ _ B), (fr_st _ _ (tx_send_frame _ _ _ _ T)). reflexivity.
Qed.
Lemma to_sc_st : forall c p r, cst (to_sc c p r) = cst c.
Proof. intros c p r. destruct p; cbn [to_sc]; try reflexivity. destruct (casm c); repeat match goal with |- context [if ?b then _ else _] => destruct b end; reflexivity. Qed.
Lemma acc_st : forall c ch num p, cst (acc c ch num p) = cst c.
Proof.
  intros c ch num p. unfold acc. destruct ch; rewrite ?to_sc_st; try reflexivity. destruct (is_ls p); rewrite ?to_sc_st; [|reflexivity].
  destruct p; try reflexivity. cbn [credit]. destruct (_ =? 0); [destruct (grant _ _ _); reflexivity|]. unfold other_ls. destruct (0 <=? _); reflexivity.
Qed.
Lemma put_st : forall c ch i e, cst (put_entry c ch i e) = cst c.
Proof. intros c [] i e; reflexivity. Qed.
Lemma opening_prim : forall arr b l c c', prim cfg arr b l c c' -> opening (cst c') -> opening (cst c).
Proof.
  intros arr b l c c' H O. destruct H.
  - destruct H. congruence.
  - cbn [cst set_cst] in O. destruct H as [H|[H|H]]; [left; exact H|right; exact H|]. rewrite (H2 H) in O. destruct O; discriminate.
  - destruct O; discriminate.
  - rewrite (fr_st _ _ (data_send_frame _ _ _ _ H0)) in O. destruct O; discriminate.
  - destruct O; discriminate.
  - destruct O; discriminate.
  - destruct O; discriminate.
  - exact O.
  - exact O.
  - rewrite (sendmsg_st _ _ _ _ H2) in O. exact O.
  - rewrite (fr_st _ _ (send_ack_frame _ _ _ H)) in O. exact O.
  - destruct ch; exact O.
  - exact O.
  - rewrite (bump_st _ _ _ _ H4), (fr_st _ _ (tx_send_frame _ _ _ _ H3)) in O. exact O.
  - rewrite (fr_st _ _ (tx_send_frame _ _ _ _ H2)) in O. exact O.
  - rewrite (bump_st _ _ _ _ H2) in O. exact O.
  - exact O.
  - cbn [cst set_coth] in O. rewrite (other_send_st _ _ _ _ H) in O. exact O.
  - rewrite (other_send_st _ _ _ _ H1) in O. exact O.
  - rewrite (chan_ack_st _ _ _ _ H) in O. exact O.
  - rewrite (chan_ack_st _ _ _ _ H0) in O. exact O.
  - destruct ch; exact O.
  - rewrite acc_st in O. exact O.
  - rewrite acc_st in O. destruct ch; exact O.
  - rewrite (fr_st _ _ (tx_send_frame _ _ _ _ H3)) in O. unfold c0 in O. rewrite put_st in O. exact O.
  - rewrite put_st in O. exact O.
  - rewrite put_st in O. exact O.
  - destruct O; discriminate.
Qed.
Lemma FI_prim : forall arr l c c' rest F, 1 <= qmax cfg <= 2047 -> closed l -> (opening (cst c) -> forall f, cc_arrives arr f -> agreed f) ->
  prim cfg arr false l c c' -> SI cfg rest F c -> FI F c -> exists F', SI cfg rest F' c' /\ FI F' c'.
Proof.
  intros arr l c c' rest F QM WL CA H I FIc.
  assert (SM : FI F c' -> l = [] \/ (exists n, l = [(CO, n)]) -> exists F', SI cfg rest F' c' /\ FI F' c').
  { intros X L. destruct (SI_prim _ _ _ _ _ rest F QM H I) as (F' & I' & [-> |(n & a & IN & _)]); [exists F; auto|]. exfalso. destruct L as [-> |(k & ->)]; [destruct IN|destruct IN as [IN|[]]; discriminate]. }
  destruct H.
  - apply SM; [|auto]. destruct H. apply (FI_keep F c c' []); try rewrite sc_data; rewrite ?app_nil_r; auto; [constructor|eauto].
  - apply SM; [|auto]. destruct FIc as [A1 A2 A3 A4 A5].
    assert (E : early (cst c) = true) by (destruct H as [-> |[-> | -> ]]; reflexivity). assert (O : over (cst c) = false) by (destruct H as [-> |[-> | -> ]]; reflexivity).
    constructor; cbn [cst set_cst cdata clog]; auto; [eauto|].
    assert (AC : cst c = Scc -> agreed (flow (cdata c))) by (intros SC; destruct A4 as [A4|[A4|[A4|A4]]]; [exact A4|congruence..]).
    destruct H1 as [H1|[H1|H1]]; [auto|auto|]. destruct H as [H|[H|H]]; [left; apply CA; [left; exact H|exact H1]|left; apply CA; [right; exact H|exact H1]|auto].
  - apply SM; [|auto]. destruct FIc as [A1 A2 A3 A4 A5]. rewrite H in *. constructor; cbn [cst set_cst cdata clog]; auto; try discriminate; try solve [eauto].
    destruct A4 as [A4|[A4|[A4|A4]]]; [auto|discriminate..].
  - apply SM; [|auto]. pose proof (fr_st _ _ (data_send_frame _ _ _ _ H0)) as ST. cbn [cst set_cst] in ST. destruct FIc as [A1 A2 A3 A4 A5].
    destruct (A1 ltac:(rewrite H; reflexivity)) as (F1 & RQ & X1 & X2 & X3 & X4).
    unfold data_send in H0. cbn [make_entry] in H0. set (e := mk_txe (NCC _ _ _ _ _ _) _ _ _ _ _ _ _) in *. set (c1 := set_cdata _ _) in *.
    assert (H1 : FI F c1).
    { assert (O : over (cst c) = false) by (rewrite H; reflexivity). constructor; unfold c1; cbn [cst set_cst set_cdata cdata clog set_pending pending flow xon maxseg maxmsg maxackseg]; auto; [auto 8|].
      destruct A4 as [A4|[A4|[A4|A4]]]; [auto|congruence|congruence|congruence]. }
    unfold send_qe in H0. assert (N : nth_error (pending (cdata c1)) (length (pending (cdata (set_cst c Scc)))) = Some e).
    { unfold c1. cbn [cdata set_cdata pending set_pending]. rewrite nth_error_app2 by lia. now rewrite Nat.sub_diag. }
    rewrite N in H0. cbn [is_data tp e andb] in H0. destruct (tx_send c1 CD _) as [c2|] eqn:T; cbn [bind andb] in H0; [|discriminate]. injection H0 as <-.
    eapply (FI_ctl F c1 _ e); eauto.
  - apply SM; [|auto]. apply (FI_over F c (set_cst c Sdi) []); auto; [cbn [clog set_cst]; now rewrite app_nil_r|constructor].
  - apply SM; [|auto]. unfold disc_rej in H0. destruct (_ || _ || _) in H0; [discriminate|]. set (c0 := set_coth _ _) in *.
    pose proof H0 as H1. apply ctl_new in H1 as (e & m & _ & _ & L & N & _); [|reflexivity|reflexivity].
    apply (FI_over F c (set_cst c1 Sdi) m); auto. cbn [cdata set_cst].
    unfold data_send in H0. cbn [make_entry] in H0. set (e1 := mk_txe (NDI _ _ _ _) _ _ _ _ _ _ _) in *. set (c2 := set_cdata c0 _) in *. unfold send_qe in H0.
    change (nth_error (pending (cdata c2)) (length (pending (cdata c0)))) with (Some e1) in H0. cbn [is_data tp e1 andb] in H0.
    destruct (tx_send c2 CD _) as [c3|] eqn:T; cbn [bind andb] in H0; [|discriminate]. injection H0 as <-.
    destruct (tx_send_log _ _ _ _ T) as (_ & _ & _ & _ & _ & _ & _ & _ & _ & _ & _ & _ & _ & _ & _ & K). destruct (K CD) as (_ & _ & _ & _ & _ & _ & _ & K8 & _). exact K8.
  - apply SM; [|auto]. apply (FI_over F c (conn_close c) []); auto; [cbn; now rewrite app_nil_r|constructor].
  - apply SM; [|auto]. apply FI_emit; [exact FIc|apply nodata_one; exact Logic.I|reflexivity].
  - apply SM; [|auto]. apply FI_emit; [exact FIc|apply nodata_one; exact Logic.I|reflexivity].
  - apply SM; [|auto]. apply sendmsg_log in H2. subst c'. apply FI_emit; [exact FIc|apply nodata_one; destruct p; try reflexivity; discriminate H|reflexivity].
  - apply SM; [|auto]. eapply FI_sendack; eauto.
  - apply SM; [|auto]. apply FI_putc; auto.
  - apply SM; [|auto]. assert (E : early (cst c) = true) by (destruct H as [-> | -> ]; reflexivity). destruct FIc as [A1 A2 A3 A4 A5]. destruct (A1 E) as (F1 & RQ & X1 & X2 & X3 & X4).
    constructor; cbn [cst set_cdata cdata clog set_flow flow xon maxseg maxmsg maxackseg pending]; auto.
    + intros O. destruct (A3 O) as (Y1 & Y2 & _). split; [exact Y1|]. split; [exact Y2|]. exists 0. rewrite RQ, X1, F1. split; [constructor|auto].
    + eapply no_data_log; eauto.
  - apply SM; [|auto]. pose proof (FI_tx rest F c i e c1 I FIc H H0 H2 H3) as X. unfold bump in H4. destruct (seqmax _ _); cbn [bind] in H4; [|discriminate]. injection H4 as <-. now apply FI_cdata.
  - apply SM; [|auto]. eapply FI_ctl; eauto.
  - apply SM; [|auto]. unfold bump in H2. destruct (seqmax _ _); cbn [bind] in H2; [|discriminate]. injection H2 as <-. now apply FI_cdata.
  - discriminate.
  - apply SM; [|auto]. apply FI_coth. eapply FI_other_send; [exact FIc| |exact H]; reflexivity.
  - apply SM; [|auto]. eapply FI_other_send; [|  |exact H1]; [now apply FI_coth|reflexivity].
  - destruct ch.
    + destruct (SI_ack _ _ _ _ _ _ QM I H) as (F' & I' & A). exists F'. split; [exact I'|].
      pose proof H as CK. unfold chan_ack in CK. cbn [getc] in CK. destruct (sub_ack (cdata c) n) as [s|] eqn:E; cbn [bind putc] in CK; [|discriminate]. injection CK as <-.
      apply sub_ack_spec in E as (k & P & _ & _ & _ & _ & E5 & E6 & E7 & E8 & _). cbn [cdata set_cdata] in A.
      assert (PI : forall e, In e (pending s) -> In e (pending (cdata c))) by (intros e X; rewrite P in X; rewrite <- (firstn_skipn k); apply in_or_app; auto).
      destruct FIc as [A1 A2 A3 A4 A5]. destruct A as [[-> A]|(a & B1 & B2 & -> & B4 & B5)].
      * assert (MX : over (cst c) = false -> maxackseg s = maxackseg (cdata c)).
        { intros O. destruct A as [A|[-> |[(e & X & Y) A]]]; [congruence|reflexivity|]. destruct (A3 O) as (_ & -> & _). rewrite (A2 O e X Y). exact A. }
        constructor; cbn [cst set_cdata cdata clog]; rewrite ?E5, ?E6, ?E7, ?E8; auto.
        -- intros EA. rewrite MX by (destruct (cst c); try reflexivity; discriminate EA). auto.
        -- eauto.
        -- intros O. rewrite (MX O). auto.
      * assert (NE : early (cst c) = false). { destruct (early (cst c)) eqn:EA; [|reflexivity]. exfalso. destruct (A1 eq_refl) as (F1 & _).
          pose proof I as [I1 I2 I3 I4 I4' I5]. destruct I5 as [(ctl & ds & Q & MS & Z1 & Z2 & Z3)|[_ I6]]; [|destruct (cst c); discriminate].
          pose proof (q_next _ _ _ _ _ _ Q). pose proof (q_hi2 _ _ _ _ _ _ Q). rewrite (Z1 EA), zlen_nil in *. lia. }
        constructor; cbn [cst set_cdata cdata clog]; rewrite ?E5, ?E6, ?E7, ?E8; auto.
        -- congruence.
        -- intros O e X Y. exfalso. rewrite Forall_forall in B5. rewrite (B5 e (PI e X)) in Y. discriminate.
        -- intros O. destruct (A3 O) as (Y1 & Y2 & T & Y3 & Y4 & Y5). replace (a + 1 - 1) with a by lia. split; [apply (WL n (F - 1)); [left; reflexivity|exact Y1|pose proof (si_hi _ _ _ _ I); lia|exact B1]|].
           split; [exact B4|]. exists T. split; [|auto]. eapply hon_ack; [exact Y3|lia].
    + apply SM; [|right; eauto]. unfold chan_ack in H. cbn [getc] in H. destruct (sub_ack (coth c) n) as [s|]; cbn [bind putc] in H; [|discriminate]. injection H as <-. now apply FI_coth.
  - destruct (SI_ack _ _ _ _ _ _ QM I H0) as (F' & I' & A).
    pose proof H0 as CK. unfold chan_ack in CK. cbn [getc] in CK. destruct (sub_ack (cdata c) 0) as [s|] eqn:E; cbn [bind putc] in CK; [|discriminate]. injection CK as <-.
    apply sub_ack_spec in E as (k & P & _ & _ & _ & _ & E5 & E6 & E7 & E8 & _). cbn [cdata set_cdata] in A.
    assert (PI : forall e, In e (pending s) -> In e (pending (cdata c))) by (intros e X; rewrite P in X; rewrite <- (firstn_skipn k); apply in_or_app; auto).
    destruct FIc as [A1 A2 A3 A4 A5]. destruct (A1 H) as (F1 & RQ & X1 & X2 & X3 & X4). assert (O : over (cst c) = false) by (destruct (cst c); try reflexivity; discriminate H).
    destruct A as [[-> A]|(a & B1 & B2 & -> & B4 & B5)].
    2:{ exfalso. pose proof I as [I1 I2 I3 I4 I4' I5]. destruct I5 as [(ctl & ds & Q & MS & Z1 & Z2 & Z3)|[_ I6]]; [|congruence].
        pose proof (q_next _ _ _ _ _ _ Q). pose proof (q_hi2 _ _ _ _ _ _ Q). rewrite (Z1 H), zlen_nil in *. lia. }
    exists F. split; [exact I'|].
    assert (MX : maxackseg s = maxackseg (cdata c)). { destruct A as [A|[-> |[_ A]]]; [congruence|reflexivity|congruence]. }
    constructor; cbn [cst set_cdata cdata clog]; rewrite ?E5, ?E6, ?E7, ?E8, ?MX; auto.
  - apply SM; [|auto]. apply FI_putc; auto.
  - apply SM; [|auto]. now apply FI_acc.
  - apply SM; [|auto]. apply FI_acc; [apply FI_putc; auto|]. destruct ch; exact H.
  - apply SM; [|auto]. destruct ch; cbn [getc] in *.
    + assert (N0 : nth_error (pending (cdata c0)) i = Some e1) by (unfold c0, put_entry; cbn [getc putc cdata set_cdata pending set_pending]; eapply upd_nth_same; exact H).
      assert (F0 : FI F c0).
      { apply (FI_keep F c c0 []); auto; [unfold c0; cbn; now rewrite app_nil_r|constructor|]. unfold c0. cbn [put_entry getc putc cdata set_cdata pending set_pending]. eapply upd_nondata; eauto. }
      destruct (is_data (tp e)) eqn:D.
      * assert (I0 : SI cfg rest F c0).
        { destruct (data_upd cfg rest F c i e e1 I H D) as (ctl & ds & Q & E1 & E2 & E3 & MS & TH); auto; [intros [X|X]; discriminate|].
          destruct I as [I1 I2 I3 I4 I4' I5]. constructor; auto. left. exists ctl, ds. auto. }
        eapply FI_tx; [exact I0|exact F0|exact N0|exact D|exact (H2 eq_refl)|exact H3].
      * eapply FI_ctl; [exact F0|exact N0|exact D|exact H3].
    + assert (D : is_data (tp e) = false) by (destruct I as [_ I2 _ _ _ _]; unfold nd in I2; rewrite Forall_forall in I2; apply I2; eapply nth_error_In; exact H).
      eapply (tx_other_keep F c0 i e1); [apply FI_coth; exact FIc| |exact D|exact H3]. unfold c0, put_entry. cbn [getc putc coth set_coth pending set_pending]. eapply upd_nth_same. exact H.
  - apply SM; [|auto]. destruct ch; [|apply FI_coth; exact FIc].
    apply (FI_keep F c (put_entry c CD i (set_tsent (set_ttimer e false) false)) []); auto; [cbn; now rewrite app_nil_r|constructor|]. cbn [put_entry getc putc cdata set_cdata pending set_pending]. eapply upd_nondata; eauto.
  - apply SM; [|auto]. destruct ch; [|apply FI_coth; exact FIc].
    apply (FI_keep F c (put_entry c CD i (set_ttimer e false)) []); auto; [cbn; now rewrite app_nil_r|constructor|]. cbn [put_entry getc putc cdata set_cdata pending set_pending]. eapply upd_nondata; eauto.
  - apply SM; [|auto]. eapply (FI_over F c _ [OSc (SPkt (NDI 0 0 UNREACH [])) false]); [reflexivity| | |apply nodata_one; exact Logic.I|exact FIc]; destruct ch; reflexivity.
Qed.
Lemma FI_star : forall arr l c c', star cfg arr false l c c' -> 1 <= qmax cfg <= 2047 -> closed l -> (opening (cst c) -> forall f, cc_arrives arr f -> agreed f) ->
  forall rest F, SI cfg rest F c -> FI F c -> exists F', SI cfg rest F' c' /\ FI F' c'.
Proof.
  intros arr l c c' H. induction H as [w|l m a b c H1 H2 IH]; intros QM WL CA rest F I X; [eauto|].
  assert (WL1 : closed l) by (intros n A a0 X1 X2 X3 X4; apply (WL n A); auto; apply in_or_app; auto). assert (WL2 : closed m) by (intros n A a0 X1 X2 X3 X4; apply (WL n A); auto; apply in_or_app; auto).
  destruct (FI_prim _ _ _ _ rest F QM WL1 CA H1 I X) as (F1 & I1 & X1).
  destruct (IH QM WL2 ltac:(intros OP; apply CA; eapply opening_prim; [exact H1|exact OP]) rest F1 I1 X1) as (F2 & I2 & X2). eauto.
Qed.
Lemma FI_segs : forall l F c c', 1 <= qmax cfg <= 2047 -> cst c = Srun -> SI cfg l F c -> FI F c -> send_segs cfg c l = Ok c' -> FI F c'.
Proof.
  induction l as [|[[bo eo] pl] l IH]; intros F c c' QM S I X H; cbn [send_segs] in H; [injection H as <-; exact X|].
  destruct (data_send cfg c _) as [c1|] eqn:E; cbn [bind] in H; [|discriminate].
  pose proof (SI_seg _ _ _ _ _ _ _ _ _ _ QM S I E) as I1.
  apply (IH F c1 c' QM); [rewrite (fr_st _ _ (data_send_frame _ _ _ _ E)); exact S|exact I1| |exact H].
  unfold data_send in E. destruct (make_entry cfg c _) as [e s1] eqn:ME. set (c2 := set_cdata c (set_pending s1 (pending (cdata c) ++ [e]))) in *.
  destruct (SI_enq cfg l F c _ _ bo eo pl e s1 S I ME) as [I2 D]. fold c2 in I2.
  assert (X2 : FI F c2).
  { unfold make_entry in ME. injection ME as ME1 ME2. apply (FI_keep F c c2 []); auto; try (unfold c2; rewrite <- ME2; reflexivity); [unfold c2; cbn; now rewrite app_nil_r|constructor|].
    unfold c2. cbn [cdata set_cdata pending set_pending]. intros y IN Y. apply in_app_or in IN as [IN|[<- |[]]]; [eauto|congruence]. }
  assert (N : nth_error (pending (cdata c2)) (length (pending (cdata c))) = Some e).
  { unfold c2. cbn [cdata set_cdata pending set_pending]. rewrite nth_error_app2 by lia. now rewrite Nat.sub_diag. }
  unfold send_qe in E. rewrite N, D in E. cbn [andb] in E. destruct (flow_ok cfg (cdata c2) e) eqn:FO; cbn [negb bind andb] in E; [|injection E as <-; exact X2].
  destruct (tx_send c2 CD _) as [c3|] eqn:T; cbn [bind andb] in E; [|discriminate].
  pose proof (FI_tx l F c2 _ e c3 I2 X2 N D FO T) as X3. unfold bump in E. destruct (seqmax _ _); cbn [bind] in E; [|discriminate]. injection E as <-. now apply FI_cdata.
Qed.
Lemma FI_step : forall c e c' F, 1 <= qmax cfg <= 2047 -> 1 <= phase cfg -> ev_ok e -> closed (ev_acks c e) -> (opening (cst c) -> forall f, cc_arrives (ev_arr e) f -> agreed f) ->
  SI cfg [] F c -> FI F c -> cstep cfg c e = Ok c' -> exists F', SI cfg [] F' c' /\ FI F' c'.
Proof.
  intros c e c' F QM PH EO WL CA I X H. destruct (is_send e) eqn:S.
  - destruct (SI_step _ _ _ _ _ QM PH EO I H) as (F' & I' & AD). destruct e; try discriminate S. cbn [cstep ev_acks] in *. inversion AD; subst F'. exists F. split; [exact I'|]. unfold conn_send in H.
    destruct (cst c) eqn:ST; cbn [cstate_eqb negb orb] in H; try (injection H as <-; apply FI_emit; [exact X|apply nodata_one; exact Logic.I|reflexivity]).
    destruct (cshut c); [injection H as <-; apply FI_emit; [exact X|apply nodata_one; exact Logic.I|reflexivity]|].
    destruct (csegsize c =? 0); [discriminate|]. eapply FI_segs; [exact QM| |apply SI_accept; [exact ST|exact I]| |exact H]; [exact ST|].
    set (o := OAccepted _ _). destruct X as [A1 A2 A3 A4 A5]. assert (RQ : reqs (clog c ++ [o]) = reqs (clog c)) by (rewrite reqs_app; cbn; now rewrite app_nil_r).
    constructor; cbn [emit cst set_clog cdata clog]; rewrite ?RQ; auto. intros pre p g post E D. apply split_snoc in E as [(-> & -> & E)|(post' & -> & E)]; [discriminate|exact (A5 pre p g post' E D)].
  - eapply FI_star; eauto. eapply step_star; eauto.
Qed.
End F.

(** * Interrupts *)
Definition noint (l : list out) : Prop := Forall (fun o => match o with OTx p _ => is_int p = false | _ => True end) l.
Definition oentry (s : sub) (e : txe) : Prop := segnum (tp e) = tmsg e mod 4096 /\ 1 <= tmsg e /\ (is_int (tp e) = true -> tmsg e <= maxmsg s).
Definition log_int (log : list out) : Prop :=
  forall pre p g post, log = pre ++ OTx p g :: post -> is_int p = true -> 1 <= g_msg g <= 1 + icredit pre /\ segnum p = g_msg g mod 4096.
Definition nint (l : list txe) : Prop := Forall (fun e => is_int (tp e) = false) l.
Record OI (k : Z) (c : conn) : Prop := mk_OI {
  oi_seq : seqnum (coth c) = (nextmsg (coth c) + k) mod 4096;
  oi_next : 1 <= nextmsg (coth c);
  oi_max : maxmsg (coth c) = 1 + icredit (clog c);
  oi_ent : Forall (oentry (coth c)) (pending (coth c));
  oi_data : nint (pending (cdata c));
  oi_log : log_int (clog c) }.

Lemma icredit_app : forall a b, icredit (a ++ b) = icredit a + icredit b.
Proof. induction a as [|o a IH]; intros b; cbn [app icredit fold_right]; [reflexivity|]. fold (icredit (a ++ b)). fold (icredit a). rewrite IH. lia. Qed.
Lemma log_int_ext : forall l log, noint l -> log_int log -> log_int (log ++ l).
Proof.
  induction l as [|o l IH]; intros log N H; [now rewrite app_nil_r|]. inversion N as [|? ? N1 N2]; subst. change (o :: l) with ([o] ++ l). rewrite app_assoc. apply IH; [exact N2|].
  intros pre p g post E D. apply split_snoc in E as [(-> & -> & E)|(post' & -> & E)]; [|exact (H pre p g post' E D)]. subst o. cbn in N1. congruence.
Qed.
Lemma OI_keep : forall k c c' l, seqnum (coth c') = seqnum (coth c) -> nextmsg (coth c') = nextmsg (coth c) -> maxmsg (coth c') = maxmsg (coth c) ->
  (forall e, In e (pending (coth c')) -> In e (pending (coth c))) -> (nint (pending (cdata c)) -> nint (pending (cdata c'))) ->
  clog c' = clog c ++ l -> noint l -> icredit l = 0 -> OI k c -> OI k c'.
Proof.
  intros k c c' l S N M P D L NI IC [A1 A2 A3 A4 A5 A6]. constructor; rewrite ?S, ?N, ?M, ?L, ?icredit_app, ?IC; auto; try lia.
  - rewrite Forall_forall in *. intros e X. destruct (A4 e (P e X)) as (B1 & B2 & B3). split; [exact B1|]. split; [exact B2|]. now rewrite M.
  - now apply log_int_ext.
Qed.
Lemma txonly_icredit : forall l, txonly l -> icredit l = 0.
Proof. induction l as [|o l IH]; intros H; [reflexivity|]. inversion H as [|? ? H1 H2]; subst. cbn [icredit fold_right]. fold (icredit l). rewrite (IH H2). destruct o; try destruct H1; reflexivity. Qed.
Lemma OI_cdata : forall k c s, OI k c -> (nint (pending (cdata c)) -> nint (pending s)) -> OI k (set_cdata c s).
Proof. intros k c s H N. apply (OI_keep k c (set_cdata c s) []); auto; [cbn; now rewrite app_nil_r|constructor]. Qed.
Lemma OI_coth : forall k c s, OI k c -> seqnum s = seqnum (coth c) -> nextmsg s = nextmsg (coth c) -> maxmsg s = maxmsg (coth c) -> (forall e, In e (pending s) -> In e (pending (coth c))) -> OI k (set_coth c s).
Proof. intros k c s H A B C D. apply (OI_keep k c (set_coth c s) []); auto; [cbn; now rewrite app_nil_r|constructor]. Qed.
Lemma OI_putc : forall k c ch s, OI k c -> pending s = pending (getc c ch) -> seqnum s = seqnum (getc c ch) -> nextmsg s = nextmsg (getc c ch) -> maxmsg s = maxmsg (getc c ch) -> OI k (putc c ch s).
Proof. intros k c [] s H P A B C; cbn [putc getc] in *; [apply OI_cdata; auto; congruence|apply OI_coth; auto]. rewrite P. auto. Qed.
Lemma OI_emit : forall k c o, OI k c -> noint [o] -> ireq o = 0 -> OI k (emit c o).
Proof. intros k c o H N R. apply (OI_keep k c (emit c o) [o]); auto. cbn [icredit fold_right]. lia. Qed.
Lemma noint_one : forall o, match o with OTx p _ => is_int p = false | _ => True end -> noint [o].
Proof. intros o H. constructor; [exact H|constructor]. Qed.
Lemma OI_tosc : forall k c p r, OI k c -> OI k (to_sc c p r).
Proof.
  intros k c p r H. destruct p; cbn [to_sc]; try (apply OI_emit; [exact H|apply noint_one; exact I|reflexivity]).
  destruct (casm c); repeat match goal with |- context [if ?b then _ else _] => destruct b end; try (apply OI_emit; [|apply noint_one; exact I|reflexivity]); try exact H; destruct H; constructor; auto.
Qed.
(** Entries are updated in place. *)
Lemma upd_all : forall (P : txe -> Prop) l i e1, Forall P l -> P e1 -> Forall P (upd i e1 l).
Proof. intros P l i e1 H X. rewrite Forall_forall in *. intros e IN. apply in_upd in IN as [-> |IN]; auto. Qed.
Lemma OI_put : forall k c ch i e e1, OI k c -> nth_error (pending (getc c ch)) i = Some e -> tp e1 = tp e -> tmsg e1 = tmsg e -> OI k (put_entry c ch i e1).
Proof.
  intros k c ch i e e1 H N T M. destruct H as [A1 A2 A3 A4 A5 A6]. destruct ch; cbn [put_entry getc putc] in *; constructor; cbn [coth cdata set_coth set_cdata clog seqnum nextmsg maxmsg pending set_pending]; auto.
  - apply upd_all; [exact A5|]. rewrite T. unfold nint in A5. rewrite Forall_forall in A5. apply A5. eapply nth_error_In; exact N.
  - apply upd_all; [exact A4|]. rewrite Forall_forall in A4. destruct (A4 e (nth_error_In _ _ N)) as (B1 & B2 & B3). unfold oentry. cbn [maxmsg set_pending]. rewrite T, M. auto.
Qed.
Lemma OI_tx : forall k c ch i c', OI k c -> tx_send c ch i = Ok c' -> OI k c'.
Proof.
  intros k c ch i c' H E. destruct (tx_send_log _ _ _ _ E) as (e & p & g & N & L & G1 & G2 & _ & _ & _ & SN & II & _ & (e1 & P1 & E1 & E2 & E3 & _) & PX & K).
  destruct (K CO) as (_ & _ & _ & K4 & _ & K6 & _ & _ & K9). cbn [getc] in *. destruct H as [A1 A2 A3 A4 A5 A6].
  assert (LI : log_int (clog c')).
  { rewrite L. destruct (is_int p) eqn:X; [|apply log_int_ext; [apply noint_one; exact X|exact A6]].
    intros pre q h post EQ D. apply split_snoc in EQ as [(-> & -> & EQ)|(post' & -> & EQ)]; [|exact (A6 pre q h post' EQ D)]. injection EQ as -> ->.
    destruct ch; cbn [getc] in N.
    - exfalso. unfold nint in A5. rewrite Forall_forall in A5. rewrite (A5 e (nth_error_In _ _ N)) in II. discriminate.
    - rewrite Forall_forall in A4. destruct (A4 e (nth_error_In _ _ N)) as (B1 & B2 & B3). specialize (B3 ltac:(congruence)). rewrite G2, SN. lia. }
  assert (IC : icredit (clog c') = icredit (clog c)) by (rewrite L, icredit_app; cbn; lia).
  constructor; rewrite ?K4, ?K6, ?K9, ?IC; auto; destruct ch; cbn [getc cross] in *; rewrite ?P1, ?PX; auto.
  - rewrite Forall_forall in *. intros x X. destruct (A4 x X) as (B1 & B2 & B3). unfold oentry. rewrite K6. auto.
  - assert (S : Forall (oentry (coth c')) (pending (coth c))).
    { rewrite Forall_forall in *. intros x X. destruct (A4 x X) as (B1 & B2 & B3). unfold oentry. rewrite K6. auto. }
    apply upd_all; [exact S|]. rewrite Forall_forall in A4. destruct (A4 e (nth_error_In _ _ N)) as (B1 & B2 & B3). unfold oentry. rewrite E1, E3, SN, II, K6. auto.
  - apply upd_all; [exact A5|]. rewrite E1, II. unfold nint in A5. rewrite Forall_forall in A5. apply A5. eapply nth_error_In; exact N.
Qed.
Lemma OI_bump : forall k c ch n c', OI k c -> bump c ch n = Ok c' -> OI k c'.
Proof. intros k c ch n c' H E. unfold bump in E. destruct (seqmax _ _); cbn [bind] in E; [|discriminate]. injection E as <-. apply OI_putc; auto. Qed.
Lemma OI_sendack : forall k c ch c', OI k c -> send_ack c ch = Ok c' -> OI k c'.
Proof.
  intros k c ch c' H E. pose proof (send_ack_frame _ _ _ E) as FR. destruct (fr_log _ _ FR) as (l & L & T).
  unfold send_ack in E. destruct (set_acks _ ch true _ _) as [[c1 p1] g] eqn:SA. pose proof SA as SA2. apply set_acks_frame in SA as (_ & CL & K). apply sendmsg_log in E. subst c'.
  destruct (K CO) as (K0 & _ & _ & _ & K4 & _ & K6 & _ & _ & K9). destruct (K CD) as (J0 & _). cbn [getc] in *.
  assert (X : forall A (f : sub -> A) k, (forall s b, f (set_hold s b) = f s) -> f (getc (putc c ch (set_hold (getc c ch) false)) k) = f (getc c k)) by (intros A f k0 Hf; destruct ch, k0; cbn; auto).
  assert (X1 := X _ pending CO ltac:(reflexivity)). assert (X2 := X _ pending CD ltac:(reflexivity)). assert (X3 := X _ nextmsg CO ltac:(reflexivity)). assert (X4 := X _ maxmsg CO ltac:(reflexivity)). assert (X5 := X _ seqnum CO ltac:(reflexivity)).
  cbn [getc] in X1, X2, X3, X4, X5.
  apply (OI_keep k c _ l); cbn [emit set_clog coth cdata]; rewrite ?K0, ?J0, ?K4, ?K6, ?K9, ?X1, ?X2; auto; [|now apply txonly_icredit].
  cbn [emit set_clog clog] in L. rewrite CL in L. replace (clog (putc c ch (set_hold (getc c ch) false))) with (clog c) in L by (destruct ch; reflexivity). apply app_inv_head in L. subst l.
  apply noint_one. unfold set_acks in SA2. destruct ch; cbn [getc putc cross orb] in SA2; repeat match type of SA2 with context [if ?b then _ else _] => destruct b end; injection SA2 as <- <- <-; reflexivity.
Qed.
Lemma OI_other_send : forall k c p c1 b, OI k c -> segnum p = nextmsg (coth c) mod 4096 -> other_send c p = Ok (c1, b) ->
  if b then OI (k - 1) c1 else OI k c1.
Proof.
  intros k c p c1 b H SN E. unfold other_send in E. destruct (negb (is_ls p) && _) eqn:NL; [injection E as <- <-; apply OI_emit; [exact H|apply noint_one; exact I|reflexivity]|].
  set (e := mk_txe p 0 _ 0 false false None None) in *. set (c0 := set_coth c _) in *.
  destruct (tx_send c0 CO _) as [c2|] eqn:T; cbn [bind] in E; [|discriminate].
  destruct (bump c2 CO (segnum p)) as [c3|] eqn:B; cbn [bind] in E; [|discriminate]. injection E as <- <-.
  eapply OI_bump; [|exact B]. eapply OI_tx; [|exact T]. destruct H as [A1 A2 A3 A4 A5 A6].
  constructor; unfold c0; cbn [coth cdata set_coth clog seqnum nextmsg maxmsg pending set_pending set_nextmsg]; auto; try lia.
  - apply Forall_app. split; [exact A4|]. constructor; [|constructor]. unfold oentry, e. cbn [tp tmsg maxmsg set_pending set_nextmsg]. split; [exact SN|]. split; [lia|].
    intros X. assert (LS : is_ls p = false) by (destruct p; try reflexivity; discriminate X). rewrite LS in NL. cbn [negb andb] in NL. lia.
Qed.
Lemma mod_add1 : forall a n, 0 <= a -> mod_add 4096 (a mod 4096) 1 = Ok n -> n = (a + 1) mod 4096.
Proof. intros a n A H. exact (mod_next a n A H). Qed.
Lemma OI_chan_ack : forall k c ch n c', OI k c -> chan_ack c ch n = Ok c' -> OI k c'.
Proof.
  intros k c ch n c' H E. unfold chan_ack in E. destruct (sub_ack (getc c ch) n) as [s|] eqn:S; cbn [bind] in E; [|discriminate]. injection E as <-.
  assert (Y : (exists j, pending s = skipn j (pending (getc c ch))) /\ seqnum s = seqnum (getc c ch) /\ nextmsg s = nextmsg (getc c ch) /\ maxmsg s = maxmsg (getc c ch)).
  { clear H. assert (PA : forall m s0 s1, pop_acked m s0 = Ok s1 -> (exists j, pending s1 = skipn j (pending s0)) /\ seqnum s1 = seqnum s0 /\ nextmsg s1 = nextmsg s0 /\ maxmsg s1 = maxmsg s0).
    { induction m as [|m IH]; intros s0 s1 X; cbn [pop_acked] in X; [injection X as <-; split; [exists 0%nat; reflexivity|auto]|].
      destruct (pending s0) as [|e t] eqn:P; [discriminate|]. destruct (IH _ _ X) as ((j & J) & R). split; [exists (Datatypes.S j); exact J|exact R]. }
    unfold sub_ack in S. destruct (pending (getc c ch)) as [|e t] eqn:P; [injection S as <-; split; [exists 0%nat; now rewrite P|auto]|]. rewrite <- P.
    repeat match type of S with
    | context [if ?b then _ else _] => destruct b
    | (let* _ := ?r in _) = _ => destruct r; cbn [bind] in S; [|discriminate]
    end; try (injection S as <-; split; [exists 0%nat; reflexivity|auto]); try discriminate; eapply PA; exact S. }
  destruct Y as ((j & J) & Y1 & Y2 & Y3). assert (SUB : forall e, In e (pending s) -> In e (pending (getc c ch))) by (intros e X; rewrite J in X; rewrite <- (firstn_skipn j); apply in_or_app; auto).
  destruct ch; cbn [putc getc] in *; [apply OI_cdata; [exact H|]|apply OI_coth; auto]. intros N. unfold nint in *. rewrite Forall_forall in *. auto.
Qed.
Lemma OI_acc : forall k c ch num p, OI k c -> OI k (acc c ch num p).
Proof.
  intros k c ch num p H. unfold acc. set (c0 := putc c ch _). assert (H0 : OI k c0) by (apply OI_putc; auto). clearbody c0. clear H c.
  assert (G : ireq (ODeliver ch p) = 0 -> OI k (emit c0 (ODeliver ch p))) by (intros Q; apply OI_emit; [exact H0|apply noint_one; exact I|exact Q]).
  destruct ch; [apply OI_tosc; apply G; reflexivity|]. destruct (is_ls p) eqn:LS; [|apply OI_tosc; apply G; destruct p; try reflexivity; discriminate LS].
  destruct p as [|  |d s a1 a2 n m i v| | | | | | | | ]; try discriminate LS. cbn [credit]. destruct (i =? 0) eqn:I0.
  - assert (H1 := G ltac:(cbn; rewrite I0; reflexivity)). destruct (grant _ m v) as [s1|] eqn:GR; [|exact H1]. apply OI_cdata; [exact H1|].
    unfold grant in GR. repeat match type of GR with context [if ?b then _ else _] => destruct b end; try discriminate; injection GR as <-; auto.
  - unfold other_ls. destruct H0 as [A1 A2 A3 A4 A5 A6]. assert (IC : icredit (clog c0 ++ [ODeliver CO (NLs d s a1 a2 n m i v)]) = icredit (clog c0) + Z.max 0 v) by (rewrite icredit_app; cbn; rewrite I0; lia).
    assert (LI : log_int (clog c0 ++ [ODeliver CO (NLs d s a1 a2 n m i v)])) by (apply log_int_ext; [apply noint_one; exact I|exact A6]).
    destruct (0 <=? v) eqn:V; constructor; cbn [emit coth cdata set_coth set_clog clog seqnum nextmsg maxmsg pending set_maxmsg]; rewrite ?IC; auto; try lia.
    rewrite Forall_forall in *. intros e X. destruct (A4 e X) as (B1 & B2 & B3). unfold oentry. cbn [maxmsg set_maxmsg]. split; [exact B1|]. split; [exact B2|]. intros Y. specialize (B3 Y). lia.
Qed.
Lemma OI_data_send : forall k cfg c p c', OI k c -> is_int p = false -> data_send cfg c p = Ok c' -> OI k c'.
Proof.
  intros k cfg c p c' H NI E. unfold data_send in E. destruct (make_entry cfg c p) as [e s1] eqn:ME. set (c1 := set_cdata c _) in *.
  assert (H1 : OI k c1).
  { apply OI_cdata; [exact H|]. intros N. cbn [pending set_pending]. apply Forall_app. split; [exact N|]. constructor; [|constructor]. destruct p; cbn [make_entry] in ME; injection ME as <- <-; try exact NI; reflexivity. }
  unfold send_qe in E. destruct (nth_error _ _) as [e0|] in E; [|discriminate]. destruct (_ && _) in E; cbn [bind andb] in E; [injection E as <-; exact H1|].
  destruct (tx_send c1 CD _) as [c2|] eqn:T; cbn [bind andb] in E; [|discriminate]. assert (H2 := OI_tx _ _ _ _ _ H1 T).
  destruct (is_data (tp e)); [eapply OI_bump; eauto|injection E as <-; exact H2].
Qed.
Lemma OI_scal : forall k c c', OI k c -> coth c' = coth c -> cdata c' = cdata c -> clog c' = clog c -> OI k c'.
Proof. intros k c c' H A B C. apply (OI_keep k c c' []); rewrite ?A, ?B, ?C, ?app_nil_r; auto. constructor. Qed.
Lemma OI_close : forall k c c', OI k c -> coth c' = sub_close (coth c) -> cdata c' = sub_close (cdata c) -> clog c' = clog c -> OI k c'.
Proof. intros k c c' H A B C. apply (OI_keep k c c' []); rewrite ?A, ?B, ?C, ?app_nil_r; auto; cbn [pending sub_close set_ooo set_pending]; [intros e []| |]; constructor. Qed.
Lemma OI_prim : forall cfg arr b l c c', prim cfg arr b l c c' -> OI 0 c -> OI 0 c'.
Proof.
  intros cfg arr b l c c' H O. destruct H.
  - destruct H. now apply (OI_scal 0 c).
  - now apply (OI_scal 0 c).
  - now apply (OI_scal 0 c).
  - eapply OI_data_send; [| |exact H0]; [now apply (OI_scal 0 c)|reflexivity].
  - now apply (OI_scal 0 c).
  - apply (OI_scal 0 c1); auto. unfold disc_rej in H0. destruct (_ || _ || _) in H0; [discriminate|]. eapply OI_data_send; [| |exact H0]; [now apply (OI_close 0 c)|reflexivity].
  - now apply (OI_close 0 c).
  - apply OI_emit; [exact O|apply noint_one; exact I|reflexivity].
  - apply OI_emit; [exact O|apply noint_one; exact I|reflexivity].
  - apply sendmsg_log in H2. subst c'. apply OI_emit; [exact O|apply noint_one; destruct p; try reflexivity; discriminate H|reflexivity].
  - eapply OI_sendack; eauto.
  - apply OI_putc; auto.
  - apply OI_cdata; auto.
  - eapply OI_bump; [|exact H4]. eapply OI_tx; eauto.
  - eapply OI_tx; eauto.
  - eapply OI_bump; eauto.
  - apply OI_cdata; [exact O|]. intros N. cbn [pending set_pending]. apply Forall_app. split; [exact N|]. constructor; [|constructor]. destruct p; try discriminate H0. cbn [make_entry] in H2. injection H2 as <- <-. reflexivity.
  - pose proof O as [A1 A2 _ _ _ _]. apply (OI_other_send 0) in H; [|exact O|]. 2:{ cbn [segnum]. rewrite A1. f_equal. lia. }
    destruct H as [B1 B2 B3 B4 B5 B6]. rewrite B1 in H0. apply mod_add1 in H0; [|lia]. constructor; cbn [coth cdata set_coth clog seqnum nextmsg maxmsg pending set_seqnum]; auto. rewrite H0. f_equal. lia.
  - pose proof O as [A1 A2 A3 A4 A5 A6]. assert (Q : OI 1 (set_coth c (set_seqnum (coth c) n))).
    { rewrite A1 in H. apply mod_add1 in H; [|lia]. constructor; cbn [coth cdata set_coth clog seqnum nextmsg maxmsg pending set_seqnum]; auto. rewrite H. f_equal. lia. }
    pose proof H1 as H2. apply (OI_other_send 1) in H1; [|exact Q|]. 2:{ cbn [segnum coth set_coth nextmsg set_seqnum]. rewrite A1. f_equal. lia. }
    destruct b0; [exact H1|]. unfold other_send in H2. cbn [is_ls negb andb] in H2. destruct (tx_send _ CO _); cbn [bind] in H2; [|discriminate]. destruct (bump _ CO _); cbn [bind] in H2; discriminate.
  - eapply OI_chan_ack; eauto.
  - eapply OI_chan_ack; eauto.
  - apply OI_putc; auto.
  - now apply OI_acc.
  - apply OI_acc. apply OI_putc; auto.
  - eapply OI_tx; [|exact H3]. eapply OI_put; eauto.
  - eapply OI_put; eauto.
  - eapply OI_put; eauto.
  - eapply (OI_close 0 (to_sc (put_entry c ch i (set_ttimer e false)) (NDI 0 0 UNREACH []) false)); try reflexivity. apply OI_tosc. eapply OI_put; eauto.
Qed.
Lemma OI_step : forall cfg c e c', 1 <= phase cfg -> ev_ok e -> OI 0 c -> cstep cfg c e = Ok c' -> OI 0 c'.
Proof.
  intros cfg c e c' PH EO O H. destruct (is_send e) eqn:S.
  - destruct e; try discriminate S. cbn [cstep] in H. unfold conn_send in H.
    destruct (cst c) eqn:ST; cbn [cstate_eqb negb orb] in H; try (injection H as <-; apply OI_emit; [exact O|apply noint_one; exact I|reflexivity]).
    destruct (cshut c); [injection H as <-; apply OI_emit; [exact O|apply noint_one; exact I|reflexivity]|]. destruct (csegsize c =? 0); [discriminate|].
    eapply (star_inv cfg None true); [intros l a b X; eapply OI_prim; exact X|eapply send_segs_star; [reflexivity| |exact H]; exact ST|]. apply OI_emit; [exact O|apply noint_one; exact I|reflexivity].
  - eapply (star_inv cfg (ev_arr e) false); [intros l a b X; eapply OI_prim; exact X|eapply step_star; eauto|exact O].
Qed.
