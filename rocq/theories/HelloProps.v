(** C75: hello messages are sent often enough, and a neighbour is dropped
    exactly when it is silent for its listen time. *)
From Verif Require Import Base UpdateModel UpdateProps HelloModel.

(** *** What is meant *)
(** From [t] on, something every [G] milliseconds. *)
Fixpoint paced (G t : Z) (o : list Z) : Prop := match o with [] => True | x :: r => t <= x <= t + G /\ paced G x r end.
(** The longest pause between hellos. *)
Definition pause (t3 lag : Z) : Z := Z.max (t3 * 1000) (2 * T2) + lag.
Definition fits (t3 : Z) : Prop := 1 <= t3 <= 3600.

(** *** Sending *)
Lemma tstart_ok : forall now d, d <= 3600000 -> tstart now d = Ok (Some (now, d)).
Proof. intros now d H. unfold tstart, places, ticks, jiffy. replace (36010 <=? Z.max 1 (d / 100)) with false; [reflexivity|]. symmetry. apply Z.leb_gt. pose proof (Z.div_le_mono d 3600000 100 ltac:(lia) H). change (3600000 / 100) with 36000 in *. lia. Qed.
Definition hinv (t3 now : Z) (s : hst) : Prop :=
  h_last s <= now /\ exists s0 d, h_timer s = Some (s0, d) /\ s0 <= now /\
    ((h_hold s = false /\ s0 = h_last s /\ d = t3 * 1000) \/ (h_hold s = true /\ h_last s <= s0 < h_last s + T2 /\ d = s0 - h_last s)).
Lemma hinv_due : forall t3 now s lag t f, fits t3 -> hinv t3 now s -> due lag now (h_timer s) t f -> now <= t <= h_last s + pause t3 lag.
Proof.
  intros t3 now s lag t f FT (L & s0 & d & TM & S0 & C) (D1 & D2). rewrite TM in D2. destruct D2 as (D2 & _). pose proof (ticks_bounds d) as TB. unfold pause, jiffy, T2, fits in *. lia.
Qed.
Lemma newhello_step : forall t3 now t s, fits t3 -> 0 <= t - h_last s -> hinv t3 now (mkH (h_last s) (h_hold s) (h_timer s)) -> now <= t -> exists s1 o, newhello t3 t s = Ok (s1, o) /\ hinv t3 t s1 /\
  ((o = [t] /\ h_last s1 = t) \/ (o = [] /\ h_last s1 = h_last s /\ h_hold s1 = true /\ (h_hold s = true -> s1 = s) /\ (h_hold s = false -> h_timer s1 = Some (t, t - h_last s)) /\ t - h_last s < T2)).
Proof.
  intros t3 now t s FT P (L & s0 & d & TM & S0 & C) NT. cbn [h_last h_hold h_timer] in *. unfold newhello. destruct (Z.ltb_spec (t - h_last s) T2) as [LT | GE].
  - destruct (h_hold s) eqn:H.
    + eexists. eexists. split; [reflexivity|]. split; [split; [lia|]; exists s0, d; rewrite H; split; [exact TM|]; split; [lia | exact C]|]. right. repeat split; auto; discriminate.
    + rewrite tstart_ok by (unfold T2 in *; lia). cbn [bind]. eexists. eexists. split; [reflexivity|]. split.
      * split; cbn [h_last h_hold h_timer]; [lia|]. exists t, (t - h_last s). split; [reflexivity|]. split; [lia|]. right. split; [reflexivity|]. lia.
      * right. cbn [h_last h_hold h_timer]. repeat split; auto; discriminate.
  - unfold sendhello. rewrite tstart_ok by (unfold fits in *; lia). cbn [bind]. eexists. eexists. split; [reflexivity|]. split; [|left; split; reflexivity].
    split; cbn [h_last h_hold h_timer]; [lia|]. exists t, (t3 * 1000). split; [reflexivity|]. split; [lia|]. left. auto.
Qed.
Lemma newhello_bare : forall t3 t s, fits t3 -> 0 <= t - h_last s -> exists s1 o, newhello t3 t s = Ok (s1, o) /\ (o = [] \/ o = [t]).
Proof.
  intros t3 t s FT P. unfold newhello. destruct (Z.ltb_spec (t - h_last s) T2).
  - destruct (h_hold s); [eauto|]. rewrite tstart_ok by (unfold T2 in *; lia). cbn [bind]. eauto.
  - unfold sendhello. rewrite tstart_ok by (unfold fits in *; lia). cbn [bind]. eauto.
Qed.
Lemma hstep_ok : forall t3 lag now s e, fits t3 -> hinv t3 now s -> due lag now (h_timer s) (hev_time e) (hfires e) ->
  exists s1 o, hstep t3 s e = Ok (s1, o) /\ hinv t3 (hev_time e) s1 /\ Forall (fun x => x = hev_time e) o /\ ((o = [] /\ h_last s1 = h_last s) \/ (o <> [] /\ h_last s1 = hev_time e)).
Proof.
  intros t3 lag now s e FT I D. pose proof (hinv_due t3 now s lag _ _ FT I D) as B. destruct e as [t | t c]; cbn [hstep hev_time hfires] in *.
  - destruct (newhello_step t3 now t s FT) as (s1 & o & E & I1 & C); [destruct I; lia | destruct s; exact I | lia|]. exists s1, o. split; [exact E|]. split; [exact I1|].
    destruct C as [(-> & C) | (-> & C & _)]; (split; [repeat constructor|]); [right; split; [discriminate | exact C] | left; auto].
  - assert (N : exists s1 o1, (if c then newhello t3 t (mkH (h_last s) (h_hold s) None) else Ok (mkH (h_last s) (h_hold s) None, [])) = Ok (s1, o1) /\ (o1 = [] \/ o1 = [t])).
    { destruct c; [|eauto]. apply newhello_bare; [exact FT|]. cbn [h_last]. destruct I; lia. }
    destruct N as (s1 & o1 & -> & N). cbn [bind]. unfold sendhello. rewrite tstart_ok by (unfold fits in *; lia). cbn [bind]. eexists. eexists. split; [reflexivity|].
    split; [split; cbn [h_last h_timer h_hold]; [lia|]; exists t, (t3 * 1000); split; [reflexivity|]; split; [lia|]; left; auto|]. split; [destruct N as [-> | ->]; repeat constructor|]. right. split; [destruct N as [-> | ->]; discriminate | reflexivity].
Qed.
Lemma last_cons : forall (o : list Z) x t, last (x :: o) t = last o x.
Proof.
  assert (D : forall (o : list Z) a b, o <> [] -> last o a = last o b) by (induction o as [|x o IH]; intros a b N; [contradiction N; reflexivity|]; destruct o; [reflexivity | apply IH; discriminate]).
  intros [|y o] x t; [reflexivity|]. change (last (y :: o) t = last (y :: o) x). apply D. discriminate.
Qed.
Lemma paced_app : forall G o1 o2 t, paced G t (o1 ++ o2) <-> paced G t o1 /\ paced G (last o1 t) o2.
Proof.
  intros G. induction o1 as [|x o1 IH]; intros o2 t; [cbn [app paced last]; tauto|]. rewrite last_cons. cbn [app paced]. rewrite IH. tauto.
Qed.
Lemma last_app : forall (o1 o2 : list Z) t, last (o1 ++ o2) t = last o2 (last o1 t).
Proof. induction o1 as [|x o1 IH]; intros o2 t; [reflexivity|]. cbn [app]. rewrite !last_cons. apply IH. Qed.
Lemma last_same : forall (o : list Z) (t x : Z), Forall (fun y => y = t) o -> o <> [] -> last o x = t.
Proof. induction o as [|y o IH]; intros t x F N; [contradiction N; reflexivity|]. rewrite last_cons. inversion F as [|? ? A F2]; subst. destruct o; [reflexivity|]. apply IH; [exact F2 | discriminate]. Qed.
Lemma hrun : forall t3 lag l now s, fits t3 -> 0 <= lag -> hinv t3 now s -> htimely t3 lag now s l -> exists s' o, hsteps t3 s l = Ok (s', o) /\ paced (pause t3 lag) (h_last s) o /\ h_last s' = last o (h_last s) /\
  Forall (fun e => hev_time e <= h_last s' + pause t3 lag) l /\ h_last s <= h_last s'.
Proof.
  intros t3 lag. induction l as [|e l IH]; intros now s FT LG I TI; cbn [hsteps]; [eexists; eexists; split; [reflexivity|]; repeat split; [constructor | lia]|].
  cbn [htimely] in TI. destruct TI as (D & TI). destruct (hstep_ok t3 lag now s e FT I D) as (s1 & o1 & E & I1 & F1 & C). rewrite E. cbn [bind]. destruct (IH _ s1 FT LG I1 (TI s1 o1 E)) as (s2 & o2 & E2 & P2 & L2 & A2 & M2). rewrite E2. cbn [bind].
  pose proof (hinv_due t3 now s lag _ _ FT I D) as B. assert (NL : h_last s <= now) by (destruct I; assumption). eexists. eexists. split; [reflexivity|]. destruct C as [(-> & C) | (NE & C)].
  - cbn [app]. rewrite C in *. split; [exact P2|]. split; [exact L2|]. split; [constructor; [lia | exact A2] | exact M2].
  - pose proof (last_same o1 (hev_time e) (h_last s) F1 NE) as LO. split; [|split].
    + apply paced_app. rewrite LO. rewrite C in P2. split; [|exact P2]. clear -F1 B NL LG FT. assert (PP : 0 <= pause t3 lag) by (unfold pause, T2, fits in *; lia).
      assert (Q : forall o x, Forall (fun y => y = hev_time e) o -> x <= hev_time e <= x + pause t3 lag -> paced (pause t3 lag) x o).
      { induction o as [|y o IH]; intros x F X; [exact Logic.I|]. inversion F as [|? ? A F2]; subst. cbn [paced]. split; [lia | apply IH; [exact F2 | lia]]. }
      apply Q; [exact F1 | lia].
    + rewrite L2, C, last_app, LO. reflexivity.
    + split; [|lia]. constructor; [|exact A2]. unfold pause, T2, fits in *. lia.
Qed.
(** From the start on, hellos are sent with pauses of at most T3 (at least two seconds),
    whatever changes when, and the last one is never longer ago. *)
Theorem hello_paced : forall t3 lag t0 l, fits t3 -> 0 <= lag -> exists s0, sendhello t3 t0 = Ok (s0, [t0]) /\ (htimely t3 lag t0 s0 l -> exists s o, hsteps t3 s0 l = Ok (s, o) /\
  paced (pause t3 lag) t0 o /\ Forall (fun e => hev_time e <= last o t0 + pause t3 lag) l).
Proof.
  intros t3 lag t0 l FT LG. unfold sendhello. rewrite tstart_ok by (unfold fits in *; lia). cbn [bind]. eexists. split; [reflexivity|]. intro TI.
  destruct (hrun t3 lag l t0 (mkH t0 false (Some (t0, t3 * 1000))) FT LG) as (s & o & E & P & L & A & _); [|exact TI|].
  { split; cbn [h_last h_hold h_timer]; [lia|]. exists t0, (t3 * 1000). split; [reflexivity|]. split; [lia|]. left. auto. }
  exists s, o. split; [exact E|]. split; [exact P|]. cbn [h_last] in L. rewrite <- L. exact A.
Qed.
Print Assumptions hello_paced.
(** A change is told within a second. *)
Lemma held_hello : forall t3 lag l now s D, fits t3 -> hinv t3 now s -> htimely t3 lag now s l -> h_hold s = true -> (forall s0 d, h_timer s = Some (s0, d) -> s0 + ticks d * jiffy + lag <= D) -> (exists e, In e l /\ D < hev_time e) ->
  exists s' o x, hsteps t3 s l = Ok (s', o) /\ In x o /\ now <= x <= D.
Proof.
  intros t3 lag. induction l as [|e l IH]; intros now s D FT I TI H TD (e0 & IE & LE); [contradiction IE|]. cbn [htimely hsteps] in *. destruct TI as (DU & TI).
  destruct (hstep_ok t3 lag now s e FT I DU) as (s1 & o1 & E & I1 & F1 & C). pose proof I as (_ & s0 & d & TM & _). pose proof DU as (D1 & D2). rewrite TM in D2. destruct D2 as (D2 & _). specialize (TD s0 d TM).
  assert (IE2 : In e0 l) by (destruct IE as [-> | IE]; [lia | exact IE]).
  assert (R : exists s' o, hsteps t3 s1 l = Ok (s', o)).
  { clear -FT I1 TI E. specialize (TI s1 o1 E). revert I1 TI. generalize (hev_time e). revert s1 E. intros s1 _. revert s1. induction l as [|f l IH]; intros s1 now I1 TI; cbn [hsteps htimely] in *; [eauto|]. destruct TI as (D & TI).
    destruct (hstep_ok t3 lag now s1 f FT I1 D) as (s2 & o2 & E & I2 & _). rewrite E. cbn [bind]. destruct (IH s2 _ I2 (TI s2 o2 E)) as (s3 & o3 & E3). rewrite E3. cbn [bind]. eauto. }
  destruct C as [(-> & C) | (NE & C)].
  - destruct e as [t | t c]; [|cbn [hstep] in E; destruct (if c then _ else _) as [[? ?]|]; cbn [bind] in E; [|discriminate E]; destruct (sendhello t3 t) as [[? [|]]|] eqn:SH; cbn [bind] in E; try discriminate E; [unfold sendhello in SH; destruct (tstart _ _); discriminate SH | injection E as _ E; destruct l0; discriminate E]].
    cbn [hstep hev_time] in *. assert (ES : s1 = s).
    { unfold newhello in E. rewrite H in E. destruct (t - h_last s <? T2); [congruence|]. unfold sendhello in E. destruct (tstart _ _); discriminate E. }
    subst s1. destruct (IH t s D FT I1 (TI s [] E) H) as (s' & o & x & E2 & IX & B); [intros a b AB; rewrite TM in AB; injection AB as <- <-; exact TD | exists e0; auto|]. rewrite E. cbn [bind]. rewrite E2. cbn [bind app]. exists s', o, x. split; [reflexivity|]. split; [exact IX | lia].
  - rewrite E. cbn [bind]. destruct R as (s' & o & R). rewrite R. cbn [bind]. destruct o1 as [|x o1]; [contradiction NE; reflexivity|]. inversion F1 as [|? ? EX _]; subst. exists s', ((hev_time e :: o1) ++ o), (hev_time e). split; [reflexivity|]. split; [left; reflexivity | lia].
Qed.
Theorem hello_prompt : forall t3 lag t0 s0 l1 c l2 s o, fits t3 -> 0 <= lag -> sendhello t3 t0 = Ok (s0, [t0]) -> htimely t3 lag t0 s0 (l1 ++ HChange c :: l2) -> hsteps t3 s0 l1 = Ok (s, o) -> (exists e, In e l2 /\ c + T2 + lag < hev_time e) ->
  exists s' o' x, hsteps t3 s (HChange c :: l2) = Ok (s', o') /\ In x o' /\ c <= x <= c + T2 + lag.
Proof.
  intros t3 lag t0 s0 l1 c l2 s o FT LG S0 TI E LATE. unfold sendhello in S0. rewrite tstart_ok in S0 by (unfold fits in *; lia). cbn [bind] in S0. injection S0 as <-.
  assert (W : forall l now a s o, hinv t3 now a -> htimely t3 lag now a (l ++ HChange c :: l2) -> hsteps t3 a l = Ok (s, o) -> exists now1, hinv t3 now1 s /\ htimely t3 lag now1 s (HChange c :: l2)).
  { clear -FT. induction l as [|e l IH]; intros now a s o I TI E; cbn [hsteps app] in E, TI; [injection E as <- <-; eauto|]. cbn [htimely] in TI. destruct TI as (D & TI). destruct (hstep_ok t3 lag now a e FT I D) as (s1 & o1 & E1 & I1 & _). rewrite E1 in E. cbn [bind] in E.
    destruct (hsteps t3 s1 l) as [[s2 o2]|] eqn:E2; cbn [bind] in E; [|discriminate E]. injection E as <- <-. exact (IH _ s1 s2 o2 I1 (TI s1 o1 E1) E2). }
  destruct (W l1 t0 (mkH t0 false (Some (t0, t3 * 1000))) s o) as (now1 & I & TI1); [|exact TI | exact E|].
  { split; cbn [h_last h_hold h_timer]; [lia|]. exists t0, (t3 * 1000). split; [reflexivity|]. split; [lia|]. left. auto. }
  clear TI E W. cbn [htimely hsteps] in *. destruct TI1 as (D & TI). cbn [hev_time hfires] in D. destruct (newhello_step t3 now1 c s FT) as (s1 & o1 & E & I1 & C); [destruct I, D; lia | destruct s; exact I | destruct D; lia|].
  specialize (TI s1 o1 E). cbn [hev_time] in TI. cbn [hstep]. destruct C as [(-> & _) | (-> & L1 & H1 & C1 & C2 & LT)].
  - rewrite E. cbn [bind]. destruct (hrun t3 lag l2 c s1 FT LG I1 TI) as (s' & o' & E' & _). rewrite E'. cbn [bind]. exists s', ([c] ++ o'), c. split; [reflexivity|]. split; [left; reflexivity | unfold T2; lia].
  - destruct (held_hello t3 lag l2 c s1 (c + T2 + lag) FT I1 TI H1) as (s' & o' & x & E' & IX & B); [|exact LATE|].
    + intros a d TM. destruct I1 as (NL & a' & d' & TM' & NA & [(HF & _) | (_ & RA & ->)]); [congruence|]. rewrite TM in TM'. injection TM' as -> ->. pose proof (ticks_bounds (a' - h_last s1)). unfold jiffy, T2 in *. lia.
    + rewrite E. cbn [bind]. rewrite E'. cbn [bind app]. exists s', o', x. auto.
Qed.
Print Assumptions hello_prompt.

(** Where nothing changes, as on point to point circuits and endnodes, T3 is the
    longest pause, and with it the shortest but for timer ticks. *)
Theorem hello_steady : forall t3 lag t0 s0 l, fits t3 -> 0 <= lag -> sendhello t3 t0 = Ok (s0, [t0]) -> Forall (fun e => exists t, e = HFire t false) l -> htimely t3 lag t0 s0 l ->
  exists s, hsteps t3 s0 l = Ok (s, map hev_time l) /\ paced (t3 * 1000 + lag) t0 (map hev_time l) /\ forall i, (S i < length (t0 :: map hev_time l))%nat -> t3 * 1000 - jiffy < nth (S i) (t0 :: map hev_time l) 0 - nth i (t0 :: map hev_time l) 0.
Proof.
  intros t3 lag t0 s0 l FT LG S0 F TI. unfold sendhello in S0. rewrite tstart_ok in S0 by (unfold fits in *; lia). cbn [bind] in S0. injection S0 as <-. revert t0 TI. induction F as [|e l (t & ->) F IH]; intros t0 TI.
  - eexists. split; [reflexivity|]. split; [exact I|]. intros i L. cbn in L. lia.
  - cbn [htimely hstep hev_time h_timer h_last h_hold hfires] in TI. destruct TI as ((D1 & D2 & D3) & TI). specialize (D3 eq_refl). cbn [bind] in TI. unfold sendhello in TI. rewrite tstart_ok in TI by (unfold fits in *; lia). cbn [bind] in TI. specialize (TI _ _ eq_refl).
    destruct (IH t TI) as (s & E & P & M). exists s. assert (TK : ticks (t3 * 1000) = t3 * 10) by (unfold ticks, jiffy, fits in *; replace (t3 * 1000) with (t3 * 10 * 100) by lia; rewrite Z.div_mul by lia; lia). rewrite TK in *.
    split; [cbn [hsteps hstep bind h_last h_hold]; unfold sendhello; rewrite tstart_ok by (unfold fits in *; lia); cbn [bind app]; rewrite E; reflexivity|].
    split; [cbn [map hev_time paced]; split; [unfold jiffy in *; lia | exact P]|].
    intros [|i] L; [cbn [nth map hev_time]; unfold jiffy in *; lia|]. apply (M i). cbn [map length] in *. lia.
Qed.
Print Assumptions hello_steady.

(** *** Listening *)
Lemma rtimely_after : forall t4 lag l now s e, rtimely t4 lag now s l -> t4 <= 3600 -> In e l -> now <= rev_time e.
Proof.
  intros t4 lag. induction l as [|x l IH]; intros now s e TI T4 I; [contradiction I|]. cbn [rtimely] in TI. destruct TI as (D & TI). destruct I as [-> | I]; [destruct D; assumption|].
  assert (R : exists s1, rstep t4 s x = Ok s1) by (destruct x, s; cbn [rstep]; try rewrite tstart_ok by lia; eauto). destruct R as (s1 & R). specialize (IH _ s1 e (TI s1 R) T4 I). destruct D. lia.
Qed.
(** A neighbour is dropped only after a silence of the listen time, but for
    timer ticks. *)
Lemma expire_after : forall t4 lag l1 now s0 l2 t, 1 <= t4 <= 3600 -> rtimely t4 lag now (Some (s0, t4 * 1000)) (l1 ++ RExpire t :: l2) -> s0 <= now -> (forall x, ~ In (RExpire x) l1) ->
  exists h, (h = s0 \/ In (RHeard h) l1) /\ s0 <= h /\ (forall a, In (RHeard a) (l1 ++ RExpire t :: l2) -> a < t -> a <= h) /\ h + t4 * 1000 - 2 * jiffy < t <= h + t4 * 1000 + lag.
Proof.
  intros t4 lag. induction l1 as [|e l1 IH]; intros now s0 l2 t T4 TI SN NE; cbn [app rtimely] in TI; destruct TI as (D & TI).
  - exists s0. split; [left; reflexivity|]. split; [lia|]. split.
    + intros a [A | A] LT; [discriminate A|]. specialize (TI None eq_refl). apply (rtimely_after _ _ _ _ _ _ TI ltac:(lia)) in A. cbn [rev_time] in A. lia.
    + destruct D as (D1 & D2 & D3). cbn [rev_time rfires] in *. specialize (D3 eq_refl). pose proof (ticks_bounds (t4 * 1000)). unfold jiffy in *. lia.
  - destruct e as [x | x]; [|contradiction (NE x); left; reflexivity]. cbn [rstep rev_time] in TI. rewrite tstart_ok in TI by lia. specialize (TI _ eq_refl). destruct D as (D1 & _). cbn [rev_time] in D1.
    destruct (IH x x l2 t T4 TI ltac:(lia)) as (h & H1 & H2 & H3 & H4); [intros y Y; apply (NE y); right; exact Y|]. exists h. split; [destruct H1 as [-> | H1]; right; [left; reflexivity | right; exact H1]|]. split; [lia|]. split; [|exact H4].
    intros a [A | A] LT; [injection A as ->; lia | apply H3; assumption].
Qed.
Theorem listen_silence : forall t4 lag s0 l1 l2 t, 1 <= t4 <= 3600 -> rtimely t4 lag s0 (Some (s0, t4 * 1000)) (l1 ++ RExpire t :: l2) -> (forall x, ~ In (RExpire x) l1) ->
  exists h, (h = s0 \/ In (RHeard h) l1) /\ (forall a, In (RHeard a) (l1 ++ RExpire t :: l2) -> a < t -> a <= h) /\ h + t4 * 1000 - 2 * jiffy < t <= h + t4 * 1000 + lag.
Proof. intros t4 lag s0 l1 l2 t T4 TI NE. destruct (expire_after t4 lag l1 s0 s0 l2 t T4 TI ltac:(lia) NE) as (h & A & _ & B). exists h. auto. Qed.
Print Assumptions listen_silence.
(** And it is: whatever is not dropped has been heard within the listen time. *)
Theorem listen_dropped : forall t4 lag s0 l e, 1 <= t4 <= 3600 -> rtimely t4 lag s0 (Some (s0, t4 * 1000)) (l ++ [e]) -> (forall x, ~ In (RExpire x) l) ->
  exists h, (h = s0 \/ In (RHeard h) l) /\ rev_time e <= h + t4 * 1000 + lag.
Proof.
  intros t4 lag s0 l e T4. assert (W : forall l now s0, rtimely t4 lag now (Some (s0, t4 * 1000)) (l ++ [e]) -> (forall x, ~ In (RExpire x) l) -> exists h, (h = s0 \/ In (RHeard h) l) /\ rev_time e <= h + t4 * 1000 + lag).
  { clear l. clear s0. induction l as [|x l IH]; intros now s0 TI NE; cbn [app rtimely] in TI; destruct TI as (D & TI).
    - exists s0. split; [left; reflexivity|]. destruct D as (_ & D & _). pose proof (ticks_bounds (t4 * 1000)). unfold jiffy in *. lia.
    - destruct x as [x | x]; [|contradiction (NE x); left; reflexivity]. cbn [rstep rev_time] in TI. rewrite tstart_ok in TI by lia. specialize (TI _ eq_refl). destruct (IH x x TI) as (h & H & B); [intros y Y; apply (NE y); right; exact Y|].
      exists h. split; [destruct H as [-> | H]; right; [left; reflexivity | right; exact H] | exact B]. }
  apply W.
Qed.
Print Assumptions listen_dropped.

(** *** Both together *)
(** The messages sent and when each arrives, if it does. *)
Definition msgs := list (Z * option Z).
Definition carried (delay : Z) (m : msgs) : Prop := Forall (fun x => match snd x with Some a => fst x <= a <= fst x + delay | None => True end) m.
(** Of any [k + 1] in a row one arrives. *)
Fixpoint lossy (k n : nat) (m : msgs) : Prop :=
  match m with [] => True | (_, Some _) :: t => lossy k k t | (_, None) :: t => match n with O => False | S n => lossy k n t end end.
(** The next to arrive. *)
Lemma next_arrival : forall k G m n t0 t, lossy k n m -> 0 <= G -> paced G t0 (map fst m) -> (exists s, In s (map fst m) /\ t <= s) ->
  (exists s a, In (s, Some a) m /\ t0 <= s <= t0 + (Z.of_nat n + 1) * G) \/ t <= t0 + Z.of_nat n * G.
Proof.
  intros k G. induction m as [|[s [a|]] m IH]; intros n t0 t L GP P (x & IX & LX); [contradiction IX | |]; cbn [map fst paced lossy] in *; destruct P as (P0 & P).
  - left. exists s, a. split; [left; reflexivity|]. nia.
  - destruct n as [|n]; [contradiction L|]. destruct IX as [-> | IX]; [right; nia|]. destruct (IH n s t L GP P) as [(s' & a & I & B) | B]; [exists x; auto | left; exists s', a; split; [right; exact I | nia] | right; nia].
Qed.
Lemma paced_ge : forall G o t x, paced G t o -> In x o -> t <= x.
Proof. intros G. induction o as [|y o IH]; intros t x P I; [contradiction I|]. cbn [paced] in P. destruct P as (P0 & P). destruct I as [-> | I]; [lia|]. specialize (IH y x P I). lia. Qed.
(** The latest sent of those that arrived before [t] (or the beginning), and
    what comes after it. *)
Lemma latest : forall k G m n t0 t, (n <= k)%nat -> lossy k n m -> paced G t0 (map fst m) ->
  exists s m2 n2, (s = t0 /\ m2 = m /\ n2 = n \/ (exists a, In (s, Some a) m /\ a < t) /\ n2 = k) /\ t0 <= s /\ lossy k n2 m2 /\ paced G s (map fst m2) /\ (forall x, In x m2 -> In x m) /\ (forall s' a, In (s', Some a) m2 -> t <= a) /\
    (forall x, In x (map fst m) -> In x (map fst m2) \/ x <= s).
Proof.
  intros k G. induction m as [|[s [a|]] m IH]; intros n t0 t NK L P.
  - exists t0, [], n. split; [left; auto|]. split; [lia|]. repeat split; auto; intros ? ? [].
  - cbn [map fst paced lossy] in *. destruct P as (P0 & P). destruct (IH k s t (le_n k) L P) as (s1 & m2 & n2 & C & S1 & L2 & P2 & I2 & A2 & X2).
    assert (DONE : (s1 = s /\ m2 = m /\ n2 = k) /\ t <= a \/ ((exists b, In (s1, Some b) ((s, Some a) :: m) /\ b < t) /\ n2 = k) \/ (s1 = s /\ m2 = m /\ n2 = k) /\ a < t).
    { destruct C as [C | ((b & B & BT) & C)]; [destruct (Z.le_gt_cases t a); [left; auto | right; right; auto] | right; left; split; [exists b; split; [right; exact B | exact BT] | exact C]]. }
    destruct DONE as [((-> & -> & ->) & TA) | [(B & ->) | ((-> & -> & ->) & TA)]].
    + exists t0, ((s, Some a) :: m), n. split; [left; auto|]. split; [lia|]. split; [exact L|]. split; [cbn [map fst paced]; split; [exact P0 | exact P]|]. split; [auto|]. split; [|auto].
      intros s' a' [E | I]; [injection E as <- <-; exact TA | exact (A2 s' a' I)].
    + exists s1, m2, k. split; [right|]. { destruct C as [(E1 & E2 & _) | ((b & IB & BT) & _)]; [|split; [exists b; split; [right; exact IB | exact BT] | reflexivity]]. subst. destruct B as (b & [E | IB] & BT); [injection E as <-; split; [exists a; split; [left; reflexivity | exact BT] | reflexivity] | split; [exists b; split; [right; exact IB | exact BT] | reflexivity]]. }
      split; [lia|]. split; [exact L2|]. split; [exact P2|]. split; [intros x X; right; apply I2, X|]. split; [exact A2|]. intros x [<- | X]; [right; lia | apply X2, X].
    + exists s, m, k. split; [right; split; [exists a; split; [left; reflexivity | exact TA] | reflexivity]|]. split; [lia|]. split; [exact L|]. split; [exact P|]. split; [intros x X; right; exact X|]. split; [exact A2|]. intros x [<- | X]; [right; lia | left; exact X].
  - cbn [map fst paced lossy] in *. destruct P as (P0 & P). destruct n as [|n]; [contradiction L|]. destruct (IH n s t ltac:(lia) L P) as (s1 & m2 & n2 & C & S1 & L2 & P2 & I2 & A2 & X2).
    destruct C as [(-> & -> & ->) | ((b & B & BT) & ->)].
    + exists t0, ((s, None) :: m), (S n). split; [left; auto|]. split; [lia|]. split; [exact L|]. split; [cbn [map fst paced]; split; [exact P0 | exact P]|]. split; [auto|]. split; [|auto].
      intros s' a' [E | I]; [discriminate E | exact (A2 s' a' I)].
    + exists s1, m2, k. split; [right; split; [exists b; split; [right; exact B | exact BT] | reflexivity]|]. split; [lia|]. split; [exact L2|]. split; [exact P2|]. split; [intros x X; right; apply I2, X|]. split; [exact A2|]. intros x [<- | X]; [right; lia | apply X2, X].
Qed.
(** A neighbour that goes on sending hellos is not dropped, though up to [k] in
    a row are lost, if the listen time allows for that many: when it is dropped all
    its hellos have been sent. *)
Theorem hello_keeps : forall t4 lag delay k G s0 m l1 t l2, 1 <= t4 <= 3600 -> 0 <= G -> (Z.of_nat k + 1) * G + delay <= t4 * 1000 - 2 * jiffy ->
  0 <= delay -> paced G s0 (map fst m) -> carried delay m -> lossy k k m -> (forall s a, In (s, Some a) m -> In (RHeard a) (l1 ++ RExpire t :: l2)) ->
  rtimely t4 lag s0 (Some (s0, t4 * 1000)) (l1 ++ RExpire t :: l2) -> (forall x, ~ In (RExpire x) l1) -> forall z, In z (map fst m) -> z < t.
Proof.
  intros t4 lag delay k G s0 m l1 t l2 T4 GP FIT DP P CA L HE TI NE z IZ. apply Z.nle_gt. intros LZ. unfold carried in CA. rewrite Forall_forall in CA.
  destruct (expire_after t4 lag l1 s0 s0 l2 t T4 TI ltac:(lia) NE) as (h & HH & HS & HM & HB & _).
  destruct (latest k G m k s0 t (le_n k) L P) as (s & m2 & n2 & C & S0 & L2 & P2 & I2 & A2 & X2).
  assert (SH : s <= h).
  { destruct C as [(-> & _) | ((a & A & AT) & _)]; [lia|]. pose proof (HM a (HE s a A) AT). specialize (CA _ A). cbn [fst snd] in CA. lia. }
  assert (NK : n2 = k) by (destruct C as [(_ & _ & C) | (_ & C)]; exact C). subst n2. clear C.
  destruct (X2 z IZ) as [IZ2 | ZS]; [|unfold jiffy in *; nia].
  destruct (next_arrival k G m2 k s t L2 GP P2 (ex_intro _ z (conj IZ2 LZ))) as [(s' & a & IA & B) | B].
  - pose proof (A2 s' a IA) as TA. pose proof (CA _ (I2 _ IA)) as CB. cbn [fst snd] in CB. unfold jiffy in *. lia.
  - unfold jiffy in *. nia.
Qed.
Print Assumptions hello_keeps.
(** How many hellos can be lost: on a LAN two, on a point to point circuit one,
    if T3 is large enough for the lags; without losses any T3 will do. *)
Theorem hello_margin : forall t3 own lag delay, 1 <= t3 -> 0 <= lag -> 0 <= delay ->
  (lag + delay <= 700 -> 1 * pause t3 lag + delay <= listen Lan t3 own * 1000 - 2 * jiffy /\ 1 * (t3 * 1000 + lag) + delay <= listen Ptp t3 own * 1000 - 2 * jiffy) /\
  (2 <= t3 -> 3 * lag + delay + 1100 <= 100 * t3 -> 3 * pause t3 lag + delay <= listen Lan t3 own * 1000 - 2 * jiffy) /\
  (2 * lag + delay + 1100 <= 100 * t3 -> 2 * (t3 * 1000 + lag) + delay <= listen Ptp t3 own * 1000 - 2 * jiffy).
Proof.
  intros t3 own lag delay T3 LG DL. unfold listen, mult, pause, T2, jiffy. pose proof (Z.div_mod (t3 * 31) 10 ltac:(lia)). pose proof (Z.mod_pos_bound (t3 * 31) 10 ltac:(lia)). pose proof (Z.div_mod (t3 * 21) 10 ltac:(lia)). pose proof (Z.mod_pos_bound (t3 * 21) 10 ltac:(lia)).
  destruct (Z.eqb_spec (t3 * 31 / 10) 0); [lia|]. destruct (Z.eqb_spec (t3 * 21 / 10) 0); [lia|]. repeat split; intros; lia.
Qed.
Print Assumptions hello_margin.

(** *** What does not hold *)
(** The timer that holds a hello off is started with the time since the last
    hello instead of what is left of T2 (route_eth.py 733-736): hellos can follow each
    other within a tenth of T2, and a change can be held off for nearly 2 T2. *)
Theorem hello_spacing_refuted : htimely 10 0 0 (mkH 0 false (Some (0, 10000))) [HChange 1; HFire 60 false; HChange 1050; HFire 1950 false] /\
  hsteps 10 (mkH 0 false (Some (0, 10000))) [HChange 1; HFire 60 false; HChange 1050; HFire 1950 false] = Ok (mkH 1950 false (Some (1950, 10000)), [60; 1950]).
Proof. split; [|vm_compute; reflexivity]. cbn [htimely]. repeat (split; [vm_compute; intuition discriminate | intros ? ? E; vm_compute in E; injection E as <- <-; cbn [hev_time]]). exact I. Qed.
Print Assumptions hello_spacing_refuted.
(** A neighbour that tells a long enough timer makes the start of the listen
    timer fail: 1162 seconds on a LAN, 1715 point to point. *)
Theorem hello_overflow_refuted : forall own now, 
  (forall told, 0 < told -> rstep (listen Lan told own) (Some (now, 1000)) (RHeard now) = Err EOverflow <-> 1162 <= told) /\
  (forall told, 0 < told -> rstep (listen Ptp told own) (Some (now, 1000)) (RHeard now) = Err EOverflow <-> 1715 <= told).
Proof.
  assert (X : forall t4 now, 0 <= t4 -> rstep t4 (Some (now, 1000)) (RHeard now) = Err EOverflow <-> 3601 <= t4).
  { intros t4 now P. cbn [rstep]. unfold tstart, ticks, jiffy, places. replace (t4 * 1000) with (t4 * 10 * 100) by lia. rewrite Z.div_mul by lia. destruct (Z.leb_spec 36010 (Z.max 1 (t4 * 10))); split; intros H'; try reflexivity; try discriminate H'; lia. }
  intros own now. split; intros told P; unfold listen, mult; [pose proof (Z.div_mod (told * 31) 10 ltac:(lia)); pose proof (Z.mod_pos_bound (told * 31) 10 ltac:(lia)); destruct (Z.eqb_spec (told * 31 / 10) 0) | pose proof (Z.div_mod (told * 21) 10 ltac:(lia)); pose proof (Z.mod_pos_bound (told * 21) 10 ltac:(lia)); destruct (Z.eqb_spec (told * 21 / 10) 0)]; try lia; rewrite X by lia; lia.
Qed.
Print Assumptions hello_overflow_refuted.
(** A Phase III neighbour tells no timer and is judged by the own one: with 15
    seconds here and 60 there it is dropped between two of its hellos. *)
Theorem listen_own_refuted : let l := [RHeard 60000; RExpire 91000; RHeard 120000] in
  listen Ptp 0 15 = 31 /\ listen Ptp 60 15 = 126 /\ paced 60000 0 [60000; 120000] /\ rtimely 31 0 60000 (Some (60000, 31000)) (skipn 1 l) /\ ~ exists t, t < 60000 + 126000 - 2 * jiffy /\ rtimely 126 0 60000 (Some (60000, 126000)) [RExpire t].
Proof.
  cbv zeta. split; [reflexivity|]. split; [reflexivity|]. split; [cbn [paced]; lia|]. split.
  - cbn [skipn rtimely]. repeat (split; [vm_compute; intuition discriminate | intros ? E; vm_compute in E; injection E as <-; cbn [rev_time]]). exact I.
  - intros (t & T & R). cbn [rtimely] in R. destruct R as ((_ & _ & R) & _). cbn [rfires rev_time] in R. specialize (R eq_refl). change (ticks 126000) with 1260 in R. unfold jiffy in *. lia.
Qed.
Print Assumptions listen_own_refuted.

(** *** A case *)
(** Hellos every ten seconds from 0 to 60, two in a row lost twice, then
    silence: dropped 31 seconds after the last. *)
Definition sent1 : list hev := [HFire 10000 false; HFire 20000 false; HFire 30000 true; HFire 40000 false; HFire 50000 false; HFire 60000 false].
Definition msgs1 : msgs := [(10000, None); (20000, None); (30000, Some 30001); (40000, None); (50000, None); (60000, Some 60001)].
Definition heard1 : list rev_ := [RHeard 30001; RHeard 60001].
Example sent_case : htimely 10 0 0 (mkH 0 false (Some (0, 10000))) sent1 /\ exists s, hsteps 10 (mkH 0 false (Some (0, 10000))) sent1 = Ok (s, [10000; 20000; 30000; 30000; 40000; 50000; 60000]).
Proof. split; [|eexists; vm_compute; reflexivity]. unfold sent1. cbn [htimely]. repeat (split; [vm_compute; intuition discriminate | intros ? ? E; vm_compute in E; injection E as <- <-; cbn [hev_time]]). exact I. Qed.
Example heard_case : paced 10000 0 (map fst msgs1) /\ carried 1 msgs1 /\ lossy 2 2 msgs1 /\ (Z.of_nat 2 + 1) * 10000 + 1 <= 31 * 1000 - 2 * jiffy /\ listen Lan 10 10 = 31 /\
  (forall s a, In (s, Some a) msgs1 -> In (RHeard a) (heard1 ++ [RExpire 91001])) /\ rtimely 31 0 0 (Some (0, 31 * 1000)) (heard1 ++ [RExpire 91001]).
Proof.
  split; [vm_compute; intuition discriminate|]. split; [repeat constructor; cbn; lia|]. split; [exact I|]. split; [unfold jiffy; lia|]. split; [reflexivity|]. split.
  - intros s a H. cbn in *. repeat (destruct H as [H | H]; [try discriminate H; injection H as <- <-; tauto|]). contradiction H.
  - unfold heard1. cbn [app rtimely]. repeat (split; [vm_compute; intuition discriminate | intros ? E; vm_compute in E; injection E as <-; cbn [rev_time]]). exact I.
Qed.
