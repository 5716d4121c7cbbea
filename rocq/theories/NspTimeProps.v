(** C76: how long NSP waits for an acknowledgement. *)
From Coq Require Import QArith Qround Lqa Lia Qpower.
From Verif Require Import Base NspTimeModel.
Open Scope Q_scope.

(** *** What is meant *)
Definition sound (c : tcfg) : Prop := (1 <= nweight c <= 255)%Z /\ 1 <= nfactor c /\ nfactor c <= 16 /\ (2 <= ntries c <= 15)%Z.
(** The measured times, one after the other. *)
Fixpoint estimates (c : tcfg) (d : Q) (l : list Q) : Q := match l with [] => d | x :: t => estimates c (update_delay c x d) t end.
Definition known (d : Q) : Prop := 1 <= d /\ d <= 5.
Definition valid (d : Q) : Prop := d == 0 \/ known d.

(** *** The estimate *)
Lemma inj_neq : forall z, (z <> 0)%Z -> ~ inject_Z z == 0.
Proof. intros z N E. unfold Qeq in E. cbn in E. lia. Qed.
Definition share (c : tcfg) : Q := / inject_Z (nweight c + 1).
Lemma share_range : forall c, sound c -> 0 < share c /\ share c <= 1 # 2.
Proof.
  intros c (W & _). unfold share. assert (P : 2 <= inject_Z (nweight c + 1)) by (change 2 with (inject_Z 2); rewrite <- Zle_Qle; lia).
  assert (P0 : 0 < inject_Z (nweight c + 1)) by lra. split; [apply Qinv_lt_0_compat, P0|]. apply Qmult_le_l with (inject_Z (nweight c + 1)); [exact P0|]. rewrite Qmult_inv_r by (intro E; rewrite E in P0; lra). lra.
Qed.
Definition atleast1 (x : Q) : Q := if Qle_bool 1 x then x else 1.
Lemma atleast1_spec : forall x, 1 <= atleast1 x /\ x <= atleast1 x /\ (1 <= x -> atleast1 x = x).
Proof. intros x. unfold atleast1. destruct (Qle_bool 1 x) eqn:E; [apply Qle_bool_iff in E; repeat split; lra|]. split; [lra|]. assert (N : ~ 1 <= x) by (rewrite <- Qle_bool_iff; congruence). split; [lra | intro; contradiction]. Qed.
Lemma update_spec : forall c x d, update_delay c x d = let d1 := if Qeq_bool d 0 then atleast1 x else d + (atleast1 x - d) * share c in if Qle_bool d1 5 then d1 else 5.
Proof. reflexivity. Qed.
Lemma cap_spec : forall y, (let z := if Qle_bool y 5 then y else 5 in z <= 5 /\ z <= y /\ (forall a, a <= y -> a <= 5 -> a <= z) /\ (y <= 5 -> z = y)).
Proof. intros y. cbv zeta. destruct (Qle_bool y 5) eqn:E; [apply Qle_bool_iff in E; repeat split; auto; lra|]. assert (N : ~ y <= 5) by (rewrite <- Qle_bool_iff; congruence). repeat split; auto; try lra; intro; contradiction. Qed.
Lemma mix : forall a b d x k, 0 <= k -> k <= 1 -> a <= d -> a <= x -> d <= b -> x <= b -> a <= d + (x - d) * k /\ d + (x - d) * k <= b.
Proof. intros a b d x k K0 K1 A1 A2 B1 B2. split; nra. Qed.
Lemma update_known : forall c x d, sound c -> valid d -> known (update_delay c x d).
Proof.
  intros c x d S V. pose proof (share_range c S) as (S0 & S1). pose proof (atleast1_spec x) as (A1 & A2 & _). rewrite update_spec. cbv zeta. set (d1 := if Qeq_bool d 0 then atleast1 x else d + (atleast1 x - d) * share c).
  assert (D1 : 1 <= d1). { unfold d1. destruct (Qeq_bool d 0) eqn:E; [exact A1|]. apply Qeq_bool_neq in E. destruct V as [V | (V & _)]; [contradiction|]. nra. }
  pose proof (cap_spec d1) as (C1 & C2 & C3 & _). split; [apply C3; lra | exact C1].
Qed.
Lemma estimates_valid : forall c l d, sound c -> valid d -> valid (estimates c d l).
Proof. induction l as [|x l IH]; intros d S V; [exact V|]. cbn [estimates]. apply IH; [exact S|]. right. apply update_known; assumption. Qed.
Lemma estimates_app : forall c a b d, estimates c d (a ++ b) = estimates c (estimates c d a) b.
Proof. induction a as [|x a IH]; intros b d; [reflexivity|]. cbn [app estimates]. apply IH. Qed.
(** Whatever is measured, the estimate is between one and five seconds, and the
    waiting time between one and five times the factor. *)
Theorem delay_range : forall c l, sound c -> (l = [] -> acktimeout c (estimates c 0 l) == 2) /\
  (l <> [] -> 1 <= estimates c 0 l /\ estimates c 0 l <= 5 /\ nfactor c <= acktimeout c (estimates c 0 l) /\ acktimeout c (estimates c 0 l) <= 5 * nfactor c).
Proof.
  intros c l S. split; [intros ->; cbn; lra|]. intros N. assert (K : known (estimates c 0 l)).
  { destruct l as [|x l] using rev_ind; [contradiction N; reflexivity|]. rewrite estimates_app. cbn [estimates]. apply update_known; [exact S|]. apply estimates_valid; [exact S | left; reflexivity]. }
  destruct K as (K1 & K2). unfold acktimeout. destruct (Qeq_bool _ 0) eqn:E; [apply Qeq_bool_iff in E; lra|]. destruct S as (_ & F & _). repeat split; nra.
Qed.
Print Assumptions delay_range.
(** The first measurement is the estimate; a later one moves the estimate
    towards it by the weight's share, never past it. *)
Theorem delay_moves : forall c x d, sound c -> 1 <= x -> x <= 5 ->
  (d == 0 -> update_delay c x d == x) /\
  (known d -> (update_delay c x d - x) * inject_Z (nweight c + 1) == (d - x) * inject_Z (nweight c) /\ (d <= x -> d <= update_delay c x d /\ update_delay c x d <= x) /\ (x <= d -> x <= update_delay c x d /\ update_delay c x d <= d)).
Proof.
  intros c x d S X1 X5. pose proof (share_range c S) as (S0 & S1). pose proof (atleast1_spec x) as (_ & _ & AX). specialize (AX X1). rewrite update_spec, AX. cbv zeta. split.
  - intros Z. apply Qeq_bool_iff in Z. rewrite Z. pose proof (cap_spec x) as (_ & _ & _ & C). cbv zeta in C. rewrite C by exact X5. reflexivity.
  - intros (D1 & D5). destruct (Qeq_bool d 0) eqn:E; [apply Qeq_bool_iff in E; lra|].
    assert (L : d + (x - d) * share c <= 5) by nra. pose proof (cap_spec (d + (x - d) * share c)) as (_ & _ & _ & C). cbv zeta in C. rewrite C by exact L.
    split; [|split; intro; split; nra]. assert (R : share c * inject_Z (nweight c + 1) == 1).
    { unfold share. rewrite Qmult_comm. apply Qmult_inv_r. destruct S as (W & _). assert (2 <= inject_Z (nweight c + 1)) by (change 2 with (inject_Z 2); rewrite <- Zle_Qle; lia). lra. }
    assert (N : inject_Z (nweight c + 1) == inject_Z (nweight c) + 1) by (rewrite inject_Z_plus; reflexivity).
    setoid_replace ((d + (x - d) * share c - x) * inject_Z (nweight c + 1)) with ((d - x) * inject_Z (nweight c + 1) - (d - x) * (share c * inject_Z (nweight c + 1))) by ring. rewrite R, N. ring.
Qed.
Print Assumptions delay_moves.
(** With a steady round trip the error shrinks geometrically: by
    w / (w + 1) each time. *)
Theorem delay_converges : forall c x n d, sound c -> 1 <= x -> x <= 5 -> known d -> known (estimates c d (repeat x n)) /\
  (estimates c d (repeat x n) - x) * Qpower (inject_Z (nweight c + 1)) (Z.of_nat n) == (d - x) * Qpower (inject_Z (nweight c)) (Z.of_nat n).
Proof.
  intros c x n d S X1 X5. revert d. induction n as [|n IH]; intros d K; [split; [exact K | cbn; ring]|]. cbn [repeat estimates]. destruct (IH (update_delay c x d)) as (V & E); [apply update_known; [exact S | right; exact K]|]. split; [exact V|].
  destruct (delay_moves c x d S X1 X5) as (_ & M). destruct (M K) as (M1 & _). destruct S as (W & _).
  assert (N0 : ~ inject_Z (nweight c) == 0) by (apply inj_neq; lia). assert (N1 : ~ inject_Z (nweight c + 1) == 0) by (apply inj_neq; lia).
  rewrite Nat2Z.inj_succ. unfold Z.succ. rewrite !Qpower_plus by assumption. change (Qpower (inject_Z (nweight c + 1)) 1) with (inject_Z (nweight c + 1)). change (Qpower (inject_Z (nweight c)) 1) with (inject_Z (nweight c)).
  rewrite Qmult_assoc, E. setoid_replace ((update_delay c x d - x) * Qpower (inject_Z (nweight c)) (Z.of_nat n) * inject_Z (nweight c + 1)) with ((update_delay c x d - x) * inject_Z (nweight c + 1) * Qpower (inject_Z (nweight c)) (Z.of_nat n)) by ring. rewrite M1. ring.
Qed.
Print Assumptions delay_converges.

(** *** One message *)
Lemma qticks_bounds : forall d, 1 <= d -> d - (1 # 10) < inject_Z (qticks d) / 10 /\ inject_Z (qticks d) / 10 <= d /\ d - (1 # 5) < inject_Z (qticks d - 1) / 10.
Proof.
  intros d D. unfold qticks. pose proof (Qfloor_le (d * 10)) as L. pose proof (Qlt_floor (d * 10)) as U. assert (G : (1 <= Qfloor (d * 10))%Z) by (change 1%Z with (Qfloor 1); apply Qfloor_resp_le; lra).
  rewrite Z.max_r by exact G. set (n := Qfloor (d * 10)) in *. rewrite inject_Z_plus in U. unfold Z.sub. rewrite inject_Z_plus. change (inject_Z (-(1))) with (-(1)). change (inject_Z 1) with 1 in U. unfold Qdiv. change (/ 10) with (1 # 10). lra.
Qed.
Lemma timeout_range : forall c d, sound c -> valid d -> (forall m, m <= 2 -> m <= nfactor c -> m <= acktimeout c d) /\ (forall M, 2 <= M -> 5 * nfactor c <= M -> acktimeout c d <= M).
Proof.
  intros c d (_ & F & _) V. unfold acktimeout. destruct (Qeq_bool d 0) eqn:E; [split; intros; lra|]. apply Qeq_bool_neq in E. destruct V as [V | (V1 & V2)]; [contradiction|]. split; intros; nra.
Qed.
Lemma measured_valid : forall c s now d, sound c -> valid d -> valid (measured c s now d).
Proof. intros c s now d S V. unfold measured. destruct (x_time s); [right; apply update_known; assumption | exact V]. Qed.
(** Sent at most so many times, whatever happens. *)
Definition xinv (c : tcfg) (s : xst) : Prop := (0 <= x_tries s <= ntries c)%Z /\ (x_sent s = false -> (x_tries s < ntries c)%Z).
Lemma xstep_inv : forall c p s d e s1 d1 o, sound c -> xinv c s -> xstep c p (s, d) e = ((s1, d1), o) -> xinv c s1 /\ x_tries s1 = (x_tries s + Z.of_nat (length o))%Z.
Proof.
  intros c p s d e s1 d1 o S (I1 & I2) E. destruct s as [n t tm st f]. unfold xinv, xstep, xsend in *. cbn [x_tries x_time x_timer x_sent x_fate] in *.
  destruct f, e; repeat match goal with H : context [if ?b then _ else _] |- _ => destruct b eqn:? end; injection E as <- <- <-; cbn [x_tries x_sent length]; try apply Z.leb_gt in Heqb; repeat split; try lia; try discriminate; intros; try (apply I2; assumption); try (specialize (I2 eq_refl); lia); try congruence.
Qed.
Theorem retry_count : forall c p l d s1 d1 o, sound c -> xsteps c p (xnew, d) l = ((s1, d1), o) -> (Z.of_nat (length o) <= ntries c)%Z.
Proof.
  intros c p l d s1 d1 o S. assert (W : forall l s d s1 d1 o, xinv c s -> xsteps c p (s, d) l = ((s1, d1), o) -> (x_tries s + Z.of_nat (length o) <= ntries c)%Z).
  { clear l d s1 d1 o. induction l as [|e l IH]; intros s d s1 d1 o I E; cbn [xsteps] in E; [injection E as <- <- <-; cbn [length]; destruct I; lia|].
    destruct (xstep c p (s, d) e) as ((s2 & d2) & o2) eqn:E1. destruct (xsteps c p (s2, d2) l) as ((s3 & d3) & o3) eqn:E2. injection E as <- <- <-. destruct (xstep_inv c p s d e s2 d2 o2 S I E1) as (I2 & T). specialize (IH s2 d2 s3 d3 o3 I2 E2). rewrite app_length. lia. }
  intros E. apply (W l xnew d s1 d1 o) in E; [cbn [xnew x_tries] in E; lia|]. split; cbn [xnew x_tries]; destruct S as (_ & _ & _ & S); lia.
Qed.
Print Assumptions retry_count.
(** Times at least [g] apart. *)
Fixpoint spaced (g : Q) (t : Q) (o : list Q) : Prop := match o with [] => True | x :: r => t + g < x /\ spaced g x r end.
(** What holds of a message last sent at [T]. *)
Definition ginv (m M T now : Q) (s : xst) : Prop :=
  x_fate s = Waiting -> match x_timer s with Some (t0, w) => t0 = T /\ m <= w /\ w <= M /\ x_sent s = true | None => T + (m - (1 # 5)) < now end.
Lemma gap_run : forall c p lag m M l T now s d, sound c -> valid d -> 1 <= m -> m <= 2 -> m <= nfactor c -> 2 <= M -> 5 * nfactor c <= M -> ginv m M T now s -> xtimely c p lag now (s, d) l -> spaced (m - (1 # 5)) T (snd (xsteps c p (s, d) l)).
Proof.
  intros c p lag m M. induction l as [|e l IH]; intros T now s d S V M1 M2 MF G2 GF G TI; [exact I|]. cbn [xtimely xsteps fst] in *. destruct TI as (D & TI).
  destruct (timeout_range c d S V) as (TR1 & TR2). specialize (TR1 m M2 MF). specialize (TR2 M G2 GF).
  assert (STEP : exists s1 d1 o, xstep c p (s, d) e = ((s1, d1), o) /\ valid d1 /\ ((o = [] /\ ginv m M T (xev_time e) s1) \/ (o = [xev_time e] /\ T + (m - (1 # 5)) < xev_time e /\ ginv m M (xev_time e) (xev_time e) s1))).
  { destruct s as [n t tm st f]. unfold ginv in *. cbn [x_fate x_timer x_sent] in *. destruct f; [|destruct e; (eexists; eexists; eexists; split; [reflexivity|]; split; [first [exact V | right; apply update_known; assumption] | left; split; [reflexivity | discriminate]])..].
    specialize (G eq_refl). destruct D as (D1 & D2).
    assert (FIRE : xfires e = true -> T + (m - (1 # 5)) < xev_time e).
    { intros F. destruct tm as [(t0 & w)|]; [|congruence]. destruct G as (-> & G1 & _). destruct D2 as (_ & D2). specialize (D2 F). pose proof (qticks_bounds w ltac:(lra)). lra. }
    destruct e as [x ok | x | x | x dl]; cbn [xstep x_tries x_time x_timer x_sent x_fate xev_time xfires] in *.
    - specialize (FIRE eq_refl). destruct (ntries c <=? n)%Z; [destruct (p_ci p)|destruct (negb (p_data p) || ok)].
      + do 3 eexists. split; [reflexivity|]. split; [exact V|]. left. split; [reflexivity|]. intros _. exact FIRE.
      + do 3 eexists. split; [reflexivity|]. split; [apply measured_valid; assumption|]. left. split; [reflexivity|]. discriminate.
      + do 3 eexists. split; [reflexivity|]. split; [exact V|]. right. split; [reflexivity|]. split; [exact FIRE|]. intros _. cbn [xsend x_timer x_sent]. repeat split; assumption.
      + do 3 eexists. split; [reflexivity|]. split; [exact V|]. left. split; [reflexivity|]. intros _. exact FIRE.
    - destruct st.
      + do 3 eexists. split; [reflexivity|]. split; [exact V|]. left. split; [reflexivity|]. cbn [x_fate x_timer x_sent]. intros _. destruct tm as [(t0 & w)|]; [exact G | lra].
      + do 3 eexists. split; [reflexivity|]. split; [exact V|]. right. split; [reflexivity|]. destruct tm as [(t0 & w)|]; [destruct G as (_ & _ & _ & G); discriminate G|]. split; [lra|]. intros _. cbn [xsend x_timer x_sent]. repeat split; assumption.
    - do 3 eexists. split; [reflexivity|]. split; [apply measured_valid; assumption|]. left. split; [reflexivity|]. discriminate.
    - do 3 eexists. split; [reflexivity|]. split; [right; apply update_known; assumption|]. left. split; [reflexivity|]. cbn [x_fate x_timer x_sent]. intros _. destruct tm as [(t0 & w)|]; [exact G | lra]. }
  destruct STEP as (s1 & d1 & o & E & V1 & C). rewrite E in *. cbn [fst] in TI. destruct C as [(-> & G1) | (-> & LT & G1)]; specialize (IH _ _ s1 d1 S V1 M1 M2 MF G2 GF G1 TI); destruct (xsteps c p (s1, d1) l) as (sd & o1); cbn [snd app spaced] in *; auto.
Qed.
(** A message is not sent again before the shortest waiting time is over, but
    for timer ticks, whatever else goes on. *)
Theorem retry_gap : forall c p lag d t0 l m, sound c -> valid d -> 1 <= m -> m <= 2 -> m <= nfactor c -> xtimely c p lag t0 (xsend c p d t0 xnew, d) l -> spaced (m - (1 # 5)) t0 (snd (xsteps c p (xsend c p d t0 xnew, d) l)).
Proof.
  intros c p lag d t0 l m S V M1 M2 MF TI. pose proof S as (_ & F1 & F2 & _). apply (gap_run c p lag m 80 l t0 t0); auto; try lra. intros _. cbn [xsend x_timer x_sent]. destruct (timeout_range c d S V) as (TR1 & TR2). split; [reflexivity|]. split; [apply TR1; assumption|]. split; [apply TR2; lra | reflexivity].
Qed.
Print Assumptions retry_gap.
(** A message that is acknowledged before its waiting time is over is sent once,
    and what the others measure in the meantime and this one then is all that
    becomes of the estimate. *)
Definition other_time (e : xev) : list Q := match e with XOther _ x => [x] | _ => [] end.
Theorem retry_none : forall c p lag d t0 l t, sound c -> valid d -> xtimely c p lag t0 (xsend c p d t0 xnew, d) (l ++ [XAck t]) -> (forall x, ~ In (XAck x) l) -> t <= t0 + acktimeout c d - (1 # 5) ->
  exists s, xsteps c p (xsend c p d t0 xnew, d) (l ++ [XAck t]) = ((s, estimates c d (flat_map other_time l ++ if p_dly p then [] else [t - t0])), []) /\ x_fate s = Acked /\ x_tries s = 1%Z /\ x_timer s = None.
Proof.
  intros c p lag d t0 l t S V. set (w := acktimeout c d). assert (W1 : 1 <= w) by (destruct (timeout_range c d S V) as (TR & _); apply TR; [lra | apply S]).
  set (s0 := xsend c p d t0 xnew). assert (S0 : s0 = mkX 1 (if p_dly p then None else Some t0) (Some (t0, w)) true Waiting) by reflexivity. rewrite S0. clearbody w. clear S0 s0.
  generalize t0 at 1 as now. revert d V. induction l as [|e l IH]; intros d V now TI NA LT.
  - cbn [app xsteps xstep x_fate flat_map]. unfold measured. cbn [x_time x_tries x_sent]. destruct (p_dly p); (eexists; split; [reflexivity | cbn; auto]).
  - assert (TB : xev_time e <= t).
    { clear - TI. cbn [app xtimely] in TI. destruct TI as (_ & TI). revert TI. generalize (fst (xstep c p (mkX 1 (if p_dly p then None else Some t0) (Some (t0, w)) true Waiting, d) e)). generalize (xev_time e). induction l as [|x l IH]; intros n sd TI; cbn [app xtimely] in TI; destruct TI as ((D & _) & TI); [exact D|]. specialize (IH _ _ TI). lra. }
    cbn [app xtimely fst x_timer] in TI. destruct TI as ((D1 & _ & D2) & TI).
    destruct e as [x ok | x | x | x dl]; cbn [xev_time xfires] in *.
    + exfalso. specialize (D2 eq_refl). pose proof (qticks_bounds w W1). lra.
    + cbn [xstep x_fate x_sent fst] in TI. destruct (IH d V x TI ltac:(intros y Y; apply (NA y); right; exact Y) LT) as (s & E & R). exists s. split; [|exact R]. cbn [app xsteps xstep x_fate x_sent]. rewrite E. reflexivity.
    + contradiction (NA x). left. reflexivity.
    + cbn [xstep x_fate x_sent fst] in TI. destruct (IH (update_delay c dl d) ltac:(right; apply update_known; assumption) x TI ltac:(intros y Y; apply (NA y); right; exact Y) LT) as (s & E & R). exists s. split; [|exact R]. cbn [app xsteps xstep x_fate x_sent]. rewrite E. reflexivity.
Qed.
Print Assumptions retry_none.
(** With a steady round trip time that the factor leaves room for, nothing is
    ever sent twice: the waiting time stays above the round trip. *)
Theorem retry_steady : forall c x n, sound c -> 1 <= x -> x <= 5 -> (1 # 5) <= (nfactor c - 1) * x -> estimates c 0 (repeat x (S n)) == x /\ x <= acktimeout c (estimates c 0 (repeat x (S n))) - (1 # 5).
Proof.
  intros c x n S X1 X5 R. assert (E : estimates c 0 (repeat x (Datatypes.S n)) == x).
  { cbn [repeat estimates]. destruct (delay_moves c x 0 S X1 X5) as (M & _). assert (K : known (update_delay c x 0)) by (apply update_known; [exact S | left; reflexivity]). destruct (delay_converges c x n _ S X1 X5 K) as (_ & C). specialize (M (Qeq_refl 0)).
    assert (Z : (estimates c (update_delay c x 0) (repeat x n) - x) * Qpower (inject_Z (nweight c + 1)) (Z.of_nat n) == 0) by (rewrite C, M; ring).
    apply Qmult_integral in Z as [Z | Z]; [lra|]. exfalso. apply Qpower_not_0 in Z; [exact Z|]. apply inj_neq. destruct S; lia. }
  split; [exact E|]. unfold acktimeout. destruct (Qeq_bool _ 0) eqn:B; [apply Qeq_bool_iff in B; lra|]. rewrite E. lra.
Qed.
Print Assumptions retry_steady.
(** A message that is never acknowledged, other than a Connect Initiate, is given
    up in time, after all the tries. *)
Lemma give_up : forall c p lag M l T0 T now s d, sound c -> valid d -> p_ci p = false -> 0 <= lag -> 2 <= M -> 5 * nfactor c <= M ->
  (x_fate s = Waiting -> (1 <= x_tries s <= ntries c)%Z /\ exists w, x_timer s = Some (T, w) /\ 1 <= w /\ w <= M /\ x_sent s = true) -> T <= T0 + inject_Z (x_tries s - 1) * (M + lag) ->
  (x_fate s = GivenUp -> x_tries s = ntries c) -> x_fate s <> Acked -> xtimely c p lag now (s, d) l -> (forall x, ~ In (XAck x) l) -> (p_data p = true -> forall x, ~ In (XTimeout x false) l) -> (x_fate s = GivenUp \/ exists e, In e l /\ T0 + inject_Z (ntries c) * (M + lag) < xev_time e) ->
  exists s1 d1 o, xsteps c p (s, d) l = ((s1, d1), o) /\ x_fate s1 = GivenUp /\ (x_tries s + Z.of_nat (length o) = ntries c)%Z.
Proof.
  intros c p lag M. induction l as [|e l IH]; intros T0 T now s d S V CI LG M2 MF WA TT GU NAK TI NA NF END.
  - destruct END as [END | (e & [] & _)]. exists s, d, []. split; [reflexivity|]. split; [exact END|]. rewrite (GU END). cbn [length]. lia.
  - destruct (x_fate s) eqn:F; [| contradiction NAK; reflexivity |].
    + destruct (WA eq_refl) as (NT & w & TM & W1 & W2 & SE). cbn [xtimely fst] in TI. rewrite TM in TI. destruct TI as ((D1 & D2 & D3) & TI). pose proof (qticks_bounds w W1) as (_ & QT & _).
      assert (EB : xev_time e <= T0 + inject_Z (x_tries s) * (M + lag)).
      { unfold Z.sub in TT. rewrite inject_Z_plus in TT. change (inject_Z (- (1))) with (- (1)) in TT. lra. }
      assert (TN : inject_Z (x_tries s) * (M + lag) <= inject_Z (ntries c) * (M + lag)) by (apply Qmult_le_compat_r; [rewrite <- Zle_Qle; lia | lra]).
      destruct END as [END | (z & [-> | IZ] & LZ)]; [discriminate END | exfalso; lra |].
      assert (END' : exists e, In e l /\ T0 + inject_Z (ntries c) * (M + lag) < xev_time e) by (exists z; auto).
      assert (NA' : forall x, ~ In (XAck x) l) by (intros y Y; apply (NA y); right; exact Y). assert (NF' : p_data p = true -> forall x, ~ In (XTimeout x false) l) by (intros PD y Y; apply (NF PD y); right; exact Y).
      destruct (timeout_range c d S V) as (TR1 & TR2). specialize (TR2 M M2 MF). assert (TR0 : 1 <= acktimeout c d) by (apply TR1; [lra | apply S]).
      destruct s as [n tt tm st f]. cbn [x_fate x_tries x_timer x_sent] in *. subst f tm st. destruct e as [x ok | x | x | x dl]; cbn [xstep x_fate x_tries x_sent x_time fst xev_time] in *.
      * destruct (Z.leb_spec (ntries c) n) as [L | L].
        -- rewrite CI in *. cbn [fst] in TI. edestruct (IH T0 T x (mkX n tt None true GivenUp) (measured c (mkX n tt None true Waiting) x d) S) as (s1 & d1 & o & E & R); cbn [x_fate x_tries]; try assumption; try (apply measured_valid; assumption); try discriminate; try (intros; lia); try (left; reflexivity).
           exists s1, d1, o. split; [|exact R]. cbn [xsteps xstep x_fate x_tries x_time x_sent]. replace (ntries c <=? n)%Z with true by (symmetry; apply Z.leb_le; exact L). rewrite CI, E. reflexivity.
        -- assert (OK : negb (p_data p) || ok = true). { destruct (p_data p) eqn:PD; [|reflexivity]. destruct ok; [reflexivity|]. contradiction (NF eq_refl x). left. reflexivity. }
           rewrite OK in TI. cbn [fst] in TI.
           destruct (IH T0 x x (xsend c p d x (mkX n tt None false Waiting)) d S V CI LG M2 MF) as (s1 & d1 & o & E & R1 & R2); [| | | |exact TI|exact NA'|exact NF'|right; exact END'|]; cbn [xsend x_fate x_tries x_timer x_sent x_time].
           ++ intros _. split; [lia|]. exists (acktimeout c d). auto.
           ++ replace (n + 1 - 1)%Z with n by lia. exact EB.
           ++ discriminate.
           ++ discriminate.
           ++ exists s1, d1, (x :: o). split; [|split; [exact R1|]]. { cbn [xsteps xstep x_fate x_tries x_time x_sent]. replace (ntries c <=? n)%Z with false by (symmetry; apply Z.leb_gt; exact L). rewrite OK, E. reflexivity. }
              cbn [xsend x_tries] in R2. cbn [length]. lia.
      * destruct (IH T0 T x (mkX n tt (Some (T, w)) true Waiting) d S V CI LG M2 MF ltac:(cbn [x_fate x_tries x_timer x_sent]; intros _; split; [lia|]; exists w; auto) TT ltac:(discriminate) ltac:(discriminate) TI NA' NF' (or_intror END')) as (s1 & d1 & o & E & R). exists s1, d1, o. split; [|exact R]. cbn [xsteps xstep x_fate x_sent]. rewrite E. reflexivity.
      * contradiction (NA x). left. reflexivity.
      * destruct (IH T0 T x (mkX n tt (Some (T, w)) true Waiting) (update_delay c dl d) S ltac:(right; apply update_known; assumption) CI LG M2 MF ltac:(cbn [x_fate x_tries x_timer x_sent]; intros _; split; [lia|]; exists w; auto) TT ltac:(discriminate) ltac:(discriminate) TI NA' NF' (or_intror END')) as (s1 & d1 & o & E & R). exists s1, d1, o. split; [|exact R]. cbn [xsteps xstep x_fate x_sent]. rewrite E. reflexivity.
    + assert (K : forall l d, exists d1, xsteps c p (s, d) l = ((s, d1), [])).
      { clear - F. induction l as [|e l IH]; intros d; [eexists; reflexivity|]. cbn [xsteps]. assert (X : exists d2, xstep c p (s, d) e = ((s, d2), [])) by (unfold xstep; rewrite F; destruct e; eexists; reflexivity). destruct X as (d2 & ->). destruct (IH d2) as (d1 & ->). exists d1. reflexivity. }
      destruct (K (e :: l) d) as (d1 & E). exists s, d1, []. split; [exact E|]. split; [exact F|]. rewrite (GU eq_refl). cbn [length]. lia.
Qed.
Theorem retry_ends : forall c p lag d t0 l, sound c -> valid d -> p_ci p = false -> 0 <= lag -> xtimely c p lag t0 (xsend c p d t0 xnew, d) l -> (forall x, ~ In (XAck x) l) -> (p_data p = true -> forall x, ~ In (XTimeout x false) l) ->
  (exists e, In e l /\ t0 + inject_Z (ntries c) * (5 * nfactor c + lag) < xev_time e) -> exists s1 d1 o, xsteps c p (xsend c p d t0 xnew, d) l = ((s1, d1), o) /\ x_fate s1 = GivenUp /\ (1 + Z.of_nat (length o) = ntries c)%Z.
Proof.
  intros c p lag d t0 l S V CI LG TI NA NF LATE. pose proof S as (_ & F1 & F2 & NT). destruct (timeout_range c d S V) as (TR1 & TR2).
  destruct (give_up c p lag (5 * nfactor c) l t0 t0 t0 (xsend c p d t0 xnew) d S V CI LG) as (s1 & d1 & o & E & R1 & R2); try lra; try exact TI; try exact NA; try exact NF; cbn [xsend xnew x_fate x_tries x_timer x_sent]; try discriminate.
  - intros _. split; [lia|]. exists (acktimeout c d). split; [reflexivity|]. split; [apply TR1; lra|]. split; [apply TR2; lra | reflexivity].
  - change (inject_Z (0 + 1 - 1)) with 0. lra.
  - right. exact LATE.
  - exists s1, d1, o. auto.
Qed.
Print Assumptions retry_ends.
(** A message that flow control held back, the first time or later, is sent as
    soon as it may: as long as a message (other than a Connect Initiate) is neither
    acknowledged nor given up, either its timer runs or flow control will send it. *)
Theorem retry_unblocked : forall c p l d s d1 o now, p_ci p = false -> xsteps c p (xnew, d) l = ((s, d1), o) -> x_fate s = Waiting ->
  (x_timer s = None <-> snd (xstep c p (s, d1) (XFlow now)) = [now]) /\ (x_timer s <> None <-> snd (xstep c p (s, d1) (XFlow now)) = []).
Proof.
  intros c p l d s d1 o now CI. assert (W : forall l s0 d s d1 o, (x_fate s0 = Waiting -> (x_timer s0 = None <-> x_sent s0 = false)) -> xsteps c p (s0, d) l = ((s, d1), o) -> x_fate s = Waiting -> (x_timer s = None <-> x_sent s = false)).
  { clear - CI. induction l as [|e l IH]; intros s0 d s d1 o I E; cbn [xsteps] in E; [injection E as <- <- <-; exact I|]. destruct (xstep c p (s0, d) e) as ((s2 & d2) & o2) eqn:E1. destruct (xsteps c p (s2, d2) l) as ((s3 & d3) & o3) eqn:E2. injection E as <- <- <-. apply (IH s2 d2 s3 d3 o3); [|exact E2].
    clear - I E1 CI. destruct s0 as [n t tm st f]. unfold xstep, xsend in E1. rewrite CI in E1. cbn [x_tries x_time x_timer x_sent x_fate] in *.
    destruct f, e; repeat match goal with H : context [if ?b then _ else _] |- _ => destruct b eqn:? end; injection E1 as <- <- <-; cbn [x_fate x_timer x_sent]; try discriminate; try exact I; intros _; split; intro; try discriminate; try reflexivity. }
  intros E F. apply (W l xnew d s d1 o) in E; [|intros _; cbn; tauto | exact F]. destruct s as [n t tm st f]. cbn [x_fate x_timer x_sent] in *. subst f. cbn [xstep x_fate x_sent]. destruct st; cbn [snd]; split; split; intro H; try discriminate; try reflexivity; try (apply E in H; discriminate H); try (apply E; reflexivity).
  - intro N. apply E in N. discriminate N.
  - contradiction H. apply E. reflexivity.
Qed.
Print Assumptions retry_unblocked.

(** *** What does not hold *)
Definition cfg0 : tcfg := mkT 3 2 5.
Definition data0 : xpkt := mkP false true false.
Ltac timely := cbn [xtimely]; repeat (split; [split; [vm_compute; intuition discriminate | vm_compute; intuition (try discriminate; auto)] |]); try exact I.
(** FALSE of the code: that the estimate is of the round trip.  The time is taken
    from the first sending, so a message that was lost once counts as slow; and a message
    that is given up, and so never made it, is counted as well: a node that cannot be
    reached for a while has the largest estimate. *)
Theorem delay_resent_refuted : let s0 := (xsend cfg0 data0 1 0 xnew, 1) in
  xtimely cfg0 data0 0 0 s0 [XTimeout 2 true; XAck 3] /\ snd (xsteps cfg0 data0 s0 [XTimeout 2 true; XAck 3]) = [2] /\ snd (fst (xsteps cfg0 data0 s0 [XTimeout 2 true; XAck 3])) == 3 # 2.
Proof. cbv zeta. split; [timely|]. split; vm_compute; reflexivity. Qed.
Print Assumptions delay_resent_refuted.
Definition dead : list xev := [XTimeout 2 true; XTimeout 4 true; XTimeout 6 true; XTimeout 8 true; XTimeout 10 true].
Theorem delay_givenup_refuted : let s0 := (xsend cfg0 data0 1 0 xnew, 1) in
  xtimely cfg0 data0 0 0 s0 dead /\ snd (xsteps cfg0 data0 s0 dead) = [2; 4; 6; 8] /\ x_fate (fst (fst (xsteps cfg0 data0 s0 dead))) = GivenUp /\ snd (fst (xsteps cfg0 data0 s0 dead)) == 13 # 4.
Proof. cbv zeta. split; [timely|]. repeat split; vm_compute; reflexivity. Qed.
Print Assumptions delay_givenup_refuted.
(** FALSE of the code: that a message is given up only after the tries have had
    time to be answered.  The factor is not checked (config.py 380); with 0 all is over in
    half a second once there is an estimate. *)
Theorem factor_refuted : let c := mkT 3 0 5 in let s0 := (xsend c data0 1 0 xnew, 1) in let l := [XTimeout (1 # 10) true; XTimeout (2 # 10) true; XTimeout (3 # 10) true; XTimeout (4 # 10) true; XTimeout (5 # 10) true] in
  xtimely c data0 0 0 s0 l /\ x_fate (fst (fst (xsteps c data0 s0 l))) = GivenUp.
Proof. cbv zeta. split; [timely | vm_compute; reflexivity]. Qed.
Print Assumptions factor_refuted.

(** *** Cases *)
Example sound0 : sound cfg0 /\ valid 0 /\ valid 1.
Proof. unfold sound, cfg0, valid, known. cbn [nweight nfactor ntries]. repeat split; try lia; try lra. Qed.
(** Blocked by flow control after the first timeout, and acknowledged in time
    in the end; other messages are measured. *)
Example blocked_case : let s0 := (xsend cfg0 data0 0 0 xnew, 0) in let l := [XOther 1 (3 # 2); XTimeout 2 false; XOther 3 7; XFlow 4; XAck 5] in
  xtimely cfg0 data0 0 0 s0 l /\ snd (xsteps cfg0 data0 s0 l) = [4] /\ snd (fst (xsteps cfg0 data0 s0 l)) == 109 # 32.
Proof. cbv zeta. split; [timely|]. split; vm_compute; reflexivity. Qed.
Example ends_case : exists e, In e (dead ++ [XOther 51 1]) /\ 0 + inject_Z (ntries cfg0) * (5 * nfactor cfg0 + 0) < xev_time e.
Proof. exists (XOther 51 1). split; [cbn; tauto | vm_compute; reflexivity]. Qed.
Example ends_timely : xtimely cfg0 data0 0 0 (xsend cfg0 data0 1 0 xnew, 1) (dead ++ [XOther 51 1]).
Proof. unfold dead. cbn [app]. timely. Qed.
Example none_case : xtimely cfg0 data0 0 0 (xsend cfg0 data0 1 0 xnew, 1) ([XOther 1 1] ++ [XAck (3 # 2)]) /\ (3 # 2) <= 0 + acktimeout cfg0 1 - (1 # 5) /\ (1 # 5) <= (nfactor cfg0 - 1) * 1.
Proof. cbn [app]. split; [timely|]. split; vm_compute; discriminate. Qed.
