(** Auxiliary results for AreaProps: what holds for one destination at one
    level, independently of the level. *)
From Coq Require Import Sorted.
From Verif Require Import Base Dict RoutingModel RoutingProps ForwardModel ForwardProps DvModel DvProps AreaModel.

(** ** Messages in order and columns
    mn t m is the value router m announces at time t, cl t k the column of
    link k, ch t k the messages on link k: when sent, and what they say about
    the destination, if anything. *)
Definition hopv (v : Z * Z) (w : Z) : Z * Z := (fst v + 1, snd v + w).
Definition sndr (k : link) : Z := fst (fst k).
Section Mid.
Variables (links : list link) (mn : nat -> Z -> Z * Z) (cl : nat -> link -> Z * Z) (w : link -> Z) (ch : nat -> link -> list (nat * option (Z * Z))).
Hypothesis H0 : forall k, In k links -> Forall (fun g => fst g = 0%nat) (ch 0%nat k).
Definition m_send t k := exists x, ch (S t) k = ch t k ++ [(S t, x)] /\ (x = None \/ x = Some (mn t (sndr k))) /\ cl (S t) k = cl t k.
Definition m_recv t k := exists g x rest, ch t k = (g, x) :: rest /\ ch (S t) k = rest /\ cl (S t) k = match x with Some v => hopv v (w k) | None => cl t k end.
Definition m_lose t k := ch (S t) k = tl (ch t k) /\ cl (S t) k = cl t k.
Definition m_none t k := ch (S t) k = ch t k /\ cl (S t) k = cl t k.
Hypothesis Hstep : forall t k, In k links -> m_send t k \/ m_recv t k \/ m_lose t k \/ m_none t k.
Hypothesis Hfair : forall k T, In k links -> exists t g v rest, (T <= t)%nat /\ ch t k = (g, Some v) :: rest /\ (S T <= g)%nat /\ ch (S t) k = rest /\ cl (S t) k = hopv v (w k).
Definition m_ok (t : nat) (k : link) (g : nat * option (Z * Z)) : Prop :=
  (fst g <= t)%nat /\ forall t' v, fst g = S t' -> snd g = Some v -> v = mn t' (sndr k).
Lemma mid_ch : forall t k, In k links -> StronglySorted le (map fst (ch t k)) /\ Forall (m_ok t k) (ch t k).
Proof.
  intros t k Hk. induction t as [|t (S & F)].
  - specialize (H0 k Hk). induction (ch 0%nat k) as [|g l IH]; [split; constructor|]. inversion_clear H0 as [|? ? G F]. destruct (IH F) as (S & M). split.
    + cbn [map]. constructor; [exact S|]. apply Forall_forall. intros x _. lia.
    + constructor; [|exact M]. split; [lia|]. intros t' v E. lia.
  - assert (F' : Forall (m_ok (Datatypes.S t) k) (ch t k)) by (eapply Forall_impl; [|exact F]; intros g (A & B); split; [lia|exact B]).
    destruct (Hstep t k Hk) as [(x & E & X & _)|[(g & x & rest & E & E' & _)|[(E & _)|(E & _)]]].
    + rewrite E. split.
      * rewrite map_app. cbn [map fst]. apply sorted_snoc_le; [auto|]. rewrite Forall_map. eapply Forall_impl; [|exact F']. intros g (A & _). exact A.
      * apply Forall_app. split; [exact F'|]. constructor; [|constructor]. split; cbn [fst snd]; [lia|]. intros t' v E1 E2. injection E1 as <-. destruct X as [X|X]; congruence.
    + rewrite E'. rewrite E in S, F'. cbn [map] in S. inversion_clear S. inversion_clear F'. auto.
    + rewrite E. destruct (ch t k) as [|g l]; cbn [tl]; [split; constructor|]. cbn [map] in S. inversion_clear S. inversion_clear F'. auto.
    + rewrite E. auto.
Qed.
Definition m_good (T t : nat) (k : link) : Prop :=
  (exists t', (T <= t')%nat /\ cl t k = hopv (mn t' (sndr k)) (w k)) /\ Forall (fun g => (S T <= fst g)%nat) (ch t k).
Lemma mid_good_step : forall T t k, In k links -> (T <= t)%nat -> m_good T t k -> m_good T (S t) k.
Proof.
  intros T t k Hk Ht ((t' & Ht' & Col) & F). unfold m_good. destruct (mid_ch t k Hk) as (_ & M).
  destruct (Hstep t k Hk) as [(x & E & X & C)|[(g & x & rest & E & E' & C)|[(E & C)|(E & C)]]].
  - rewrite E, C. split; [eauto|]. apply Forall_app. split; [exact F|]. constructor; [cbn [fst]; lia|constructor].
  - rewrite E', C. rewrite E in F, M. inversion_clear F as [|? ? F1 F2]. inversion_clear M as [|? ? (M1 & M2) M3]. cbn [fst snd] in *. split; [|exact F2].
    destruct x as [v|]; [|eauto]. destruct g as [|t2]; [lia|]. exists t2. split; [lia|]. rewrite (M2 t2 v eq_refl eq_refl). reflexivity.
  - rewrite E, C. split; [eauto|]. destruct (ch t k); cbn [tl]; [constructor|]. inversion_clear F. auto.
  - rewrite E, C. split; eauto.
Qed.
Lemma mid_good_some : forall T k, In k links -> exists t, (T <= t)%nat /\ m_good T t k.
Proof.
  intros T k Hk. destruct (Hfair k T Hk) as (t & g & v & rest & Ht & E & Hg & E' & C). exists (S t). split; [lia|]. destruct (mid_ch t k Hk) as (S & M).
  rewrite E in S, M. cbn [map fst] in S. inversion_clear S as [|? ? S1 S2]. inversion_clear M as [|? ? (M1 & M2) M3]. cbn [fst snd] in *.
  unfold m_good. rewrite E', C. split.
  - destruct g as [|t2]; [lia|]. exists t2. split; [lia|]. rewrite (M2 t2 v eq_refl eq_refl). reflexivity.
  - rewrite Forall_map in S2. eapply Forall_impl; [|exact S2]. intros g' X. cbn beta in X. lia.
Qed.
Lemma mid_fresh : forall T, exists T', (T <= T')%nat /\ forall t k, (T' <= t)%nat -> In k links -> exists t', (T <= t')%nat /\ cl t k = hopv (mn t' (sndr k)) (w k).
Proof.
  intros T. assert (G : forall l, (forall k, In k l -> In k links) -> exists T', (T <= T')%nat /\ forall t k, (T' <= t)%nat -> In k l -> m_good T t k).
  { induction l as [|k l IH]; intros H; [exists T; split; [lia|]; intros t k _ []|].
    destruct IH as (T1 & A & B); [intros; apply H; right; auto|]. assert (Hk : In k links) by (apply H; left; auto). destruct (mid_good_some T k Hk) as (T2 & A2 & B2).
    exists (max T1 T2). split; [lia|]. intros t k' Ht [<-|I]; [|apply B; [lia|auto]]. assert (L : (T2 <= t)%nat) by lia. clear Ht. induction L; [auto|]. apply mid_good_step; auto; lia. }
  destruct (G links ltac:(auto)) as (T' & A & B). exists T'. split; [auto|]. intros t k Ht Hk. apply (B t k Ht Hk).
Qed.
End Mid.

(** ** One destination at one level *)
Section Lev.
Variables (nd : Z -> Prop) (mh mc : Z -> Z) (rcost : Z -> Z -> Z) (lk : Z -> Z -> Z -> Prop).
Variables (keys : Z -> list key) (pre : Z -> list cand) (self : Z -> Z * Z).
Variables (mn : nat -> Z -> Z * Z) (out : nat -> Z -> option key) (colf : nat -> Z -> key -> Z * Z).
Definition lsk (n : Z) : list col :=
  map inl (pre n) ++ map (fun k => match k with ASelf => inl (self n, Some ASelf) | ANbr c a m => inr (nid a m, rcost n c, k) end) (keys n).
Definition lview (t : nat) (n : Z) : list cand := pre n ++ map (fun k => (colf t n k, Some k)) (keys n).
Hypothesis Hmc : forall n, nd n -> 0 <= mc n < INFCOST.
Hypothesis Hcost : forall n c, nd n -> 1 <= rcost n c.
Hypothesis Hself : forall t n, nd n -> colf t n ASelf = self n.
Hypothesis Hkeys : forall n c a m, nd n -> In (ANbr c a m) (keys n) -> nd (nid a m) /\ lk (nid a m) n c.
Hypothesis Hval : forall t n, nd n -> decide (mh n) (mc n) (lview t n) = (mn t n, out t n).
Hypothesis Hok : forall t n, nd n -> Forall cand_ok (lview t n).
Hypothesis Hpos : forall t n, nd n -> Forall (fun y => 0 <= ccost y) (lview t n).
Hypothesis Hrec : forall T, exists T', (T <= T')%nat /\ forall t n c a m, (T' <= t)%nat -> nd n -> In (ANbr c a m) (keys n) ->
  exists t', (T <= t')%nat /\ colf t n (ANbr c a m) = hopv (mn t' (nid a m)) (rcost n c).
Lemma lev_Hsk : forall n m w k, nd n -> In (inr (m, w, k)) (lsk n) -> nd m /\ 1 <= w.
Proof.
  intros n m w k Hn I. apply in_app_or in I as [I|I]; apply in_map_iff in I as (x & E & I); [discriminate|]. destruct x as [|c a j]; [discriminate|].
  injection E as <- <- <-. split; [apply (Hkeys n c a j Hn I)|auto].
Qed.
Lemma lev_link : forall n m w k, nd n -> In (inr (m, w, k)) (lsk n) -> exists c a j, k = ANbr c a j /\ m = nid a j /\ w = rcost n c /\ lk m n c /\ In k (keys n).
Proof.
  intros n m w k Hn I. apply in_app_or in I as [I|I]; apply in_map_iff in I as (x & E & I); [discriminate|]. destruct x as [|c a j]; [discriminate|].
  injection E as <- <- <-. exists c, a, j. repeat (split; [reflexivity|]). split; [apply (Hkeys n c a j Hn I)|auto].
Qed.
Lemma lev_val : forall t n, nd n -> val mh mc lview t n = (mn t n, out t n).
Proof. intros. unfold val. apply Hval. auto. Qed.
Lemma lev_fresh : forall T, exists T', (T <= T')%nat /\ fresh nd mh mc lsk lview T T'.
Proof.
  intros T. destruct (Hrec T) as (T' & A & B). exists T'. split; [auto|]. intros t n Ht Hn. unfold lsk, lview. apply Forall2_app.
  - induction (pre n); cbn [map]; constructor; [reflexivity|auto].
  - assert (K : forall k, In k (keys n) -> recent mh mc lview T (match k with ASelf => inl (self n, Some ASelf) | ANbr c a m => inr (nid a m, rcost n c, k) end) (colf t n k, Some k)).
    { intros k I. destruct k as [|c a m]; cbn [recent]; [rewrite Hself by auto; reflexivity|]. destruct (B t n c a m Ht Hn I) as (t' & Ht' & Col).
      exists t'. split; [exact Ht'|]. destruct (Hkeys n c a m Hn I) as (Hm & _). rewrite lev_val by auto. rewrite Col. unfold shift, chops, ccost, hopv. cbn [fst snd]. reflexivity. }
    revert K. induction (keys n) as [|k l IH]; intros K; cbn [map]; constructor; [apply K; left; reflexivity|apply IH; intros k' I; apply K; right; exact I].
Qed.
Lemma lev_rounds : forall r, exists T, rounds nd mh mc lsk lview r 0 T.
Proof. induction r as [|r (T & IH)]; [exists 0%nat; constructor|]. destruct (lev_fresh T) as (T' & A & B). exists T'. econstructor; eauto. Qed.
Lemma lev_pos : forall t n, nd n -> 0 <= snd (mn t n).
Proof.
  intros t n Hn. pose proof (Hval t n Hn) as V. destruct (mn t n) as (h, c). destruct (out t n) as [k|].
  - destruct (decision_reachable _ _ _ _ _ _ (proj2 (Hmc n Hn)) (Hok t n Hn) V) as (I & _). pose proof (Hpos t n Hn) as P. rewrite Forall_forall in P. exact (P _ I).
  - destruct (decision_unreachable _ _ _ _ _ _ (proj2 (Hmc n Hn)) (Hok t n Hn) V) as (X & _). specialize (X eq_refl). injection X as _ ->. cbn [snd]. unfold INFCOST. lia.
Qed.
(** The entries settle; routes are real paths along neighbours with smaller
    entries; where there is no path within the limits there is no route; and
    the cost is the least one if it and its paths are within all limits. *)
Lemma level_converges : exists T, forall t n, (T <= t)%nat -> nd n ->
  mn t n = mn T n /\ out t n = out T n /\
  (forall k, out t n = Some k ->
     apath lsk n (fst (mn t n)) (snd (mn t n)) /\ fst (mn t n) <= mh n /\ 0 <= snd (mn t n) <= mc n /\
     (In (inl (mn t n, Some k)) (lsk n) \/
      exists c a m, k = ANbr c a m /\ In k (keys n) /\ nd (nid a m) /\ lk (nid a m) n c /\ out t (nid a m) <> None /\ mn t (nid a m) = (fst (mn t n) - 1, snd (mn t n) - rcost n c))) /\
  ((forall h c, apath lsk n h c -> mh n < h \/ mc n < c) -> out t n = None /\ mn t n = INF) /\
  (forall Mh Mc h c, (forall x, nd x -> Mc <= mc x /\ Mh <= mh x) ->
     (forall x h' c', nd x -> apath lsk x h' c' -> (forall h2 c2, apath lsk x h2 c2 -> c' <= c2) -> c' <= Mc -> h' <= Mh) ->
     apath lsk n h c -> (forall h2 c2, apath lsk n h2 c2 -> c <= c2) -> c <= Mc -> out t n <> None /\ snd (mn t n) = c).
Proof.
  destruct (lev_rounds (Z.to_nat INFCOST)) as (T & Ro).
  destruct (converges nd mh mc lsk lview Hmc lev_Hsk Hok Hpos (INFCOST - 1) (Z.to_nat INFCOST) 0%nat T) as (D & HD);
    [intros n Hn; specialize (Hmc n Hn); lia|lia|exact Ro|unfold INFCOST; lia|].
  destruct (lev_fresh T) as (T' & A & Fr).
  pose proof (fixed_point nd mh mc lsk lview Hmc lev_Hsk Hok Hpos D T T' HD Fr) as Fix.
  assert (V : forall t x, (T <= t)%nat -> nd x -> D x = (mn t x, out t x)) by (intros t x Ht Hx; rewrite <- (HD t x Ht Hx); apply lev_val; auto).
  assert (Pos : forall x, nd x -> 0 <= ccost (D x)) by (intros x Hx; rewrite (V T x (le_n T) Hx); apply lev_pos; auto).
  exists T. intros t n Ht Hn. pose proof (V t n Ht Hn) as Vn. pose proof (V T n (le_n T) Hn) as VT. rewrite Vn in VT.
  assert (Reach : forall k, out t n = Some k -> D n = (fst (mn t n), snd (mn t n), Some k)) by (intros k E; rewrite Vn, E; destruct (mn t n); reflexivity).
  split; [congruence|]. split; [congruence|]. split; [|split].
  - intros k E. specialize (Reach k E). destruct (fixed_next _ _ _ _ _ Hmc lev_Hsk Pos Fix _ _ _ _ Hn Reach) as (B1 & B2 & _ & B4).
    split; [eapply fixed_sound; eauto; apply lev_Hsk|]. split; [exact B2|]. split; [split; [apply lev_pos; auto|exact B1]|].
    destruct B4 as [I|(m & w & k' & I & Em)].
    + left. destruct (mn t n). exact I.
    + right. destruct (lev_link n m w k Hn I) as (c & a & j & -> & -> & -> & L & Ik). destruct (lev_Hsk _ _ _ _ Hn I) as (Hm & _). exists c, a, j. split; [reflexivity|]. split; [auto|]. split; [auto|]. split; [auto|].
      rewrite (V t _ Ht Hm) in Em. destruct (mn t (nid a j)). split; congruence.
  - intros No. destruct (out t n) as [k|] eqn:E.
    + exfalso. specialize (Reach k eq_refl). destruct (fixed_next _ _ _ _ _ Hmc lev_Hsk Pos Fix _ _ _ _ Hn Reach) as (B1 & B2 & _).
      pose proof (fixed_sound _ _ _ _ _ Hmc lev_Hsk Pos Fix _ _ _ _ Hn Reach) as P. specialize (No _ _ P). lia.
    + split; [reflexivity|]. destruct (Fix n Hn) as (F & O). rewrite Vn in F. symmetry in F. destruct (mn t n) as (h0, c0).
      destruct (decision_unreachable _ _ _ _ _ _ (proj2 (Hmc n Hn)) O F) as (X & _). apply X. reflexivity.
  - intros Mh Mc h c HM HH P L HC.
    destruct (fixed_optimal nd mh mc lsk D Hmc lev_Hsk Pos Fix Mh Mc) with (n := n) (h := h) (c := c) as (h' & k & E); auto.
    + intros x Hx. apply HM. auto.
    + intros x Hx. apply HM. auto.
    + intros x h' c' k' Hx I. assert (Iy : In (h', c', Some k') (lview 0 x)).
      { apply in_app_or in I as [I|I]; apply in_map_iff in I as (y & Ey & I); apply in_or_app.
        - left. congruence.
        - right. destruct y; [|discriminate]. injection Ey as Ey <-. apply in_map_iff. exists ASelf. rewrite Hself by auto. rewrite Ey. auto. }
      pose proof (Hpos 0%nat x Hx) as Px. rewrite Forall_forall in Px. exact (Px _ Iy).
    + rewrite Vn in E. destruct (mn t n) as (h0, c0). cbn [snd]. split; congruence.
Qed.
End Lev.

(** ** The effect of the messages of each level on the columns of both *)
Definition colv2 (s : rst) (k : key) (i : Z) : Z * Z := match dget keqb (l2 s) k with Some v => v i | None => INF end.
Definition tabs2 (C : rcfg) (s : rst) : Prop := forall i, 1 <= i <= r_maxarea C -> tab2 C s i.
Lemma cands2_colv : forall C s i, cols2 C s -> cands2 s i = map (fun k => (colv2 s k i, Some k)) (dkeys (l2 s)).
Proof. intros C s i (N & _). unfold cands2. apply cands1_colv_gen. exact N. Qed.
Lemma route_frame : forall C s lo hi s' o, route C s lo hi = Ok (s', o) -> frame1 s s'.
Proof.
  intros C s lo hi s' o R. unfold route in R. destruct (check C s); [|discriminate R]. cbn [bind] in R.
  assert (R' : each (route1 C) s (span lo hi) = (s', o)) by congruence. apply (each1_ok _ _ _ _ _ R').
Qed.
Lemma msg1_frame : forall C k es s mr s' o, routemsg1 C s k mr es = Ok (s', o) -> l2 s' = l2 s /\ min2 s' = min2 s /\ out2 s' = out2 s /\ ecol s' = ecol s /\ eadj s' = eadj s.
Proof.
  intros C k es. induction es as [|(i, v) es IH]; intros s mr s' o E; cbn [routemsg1] in E; [injection E as <- _; auto|].
  destruct (r_maxn C <? i); [eauto|]. destruct (dget keqb (l1 s) k) as [old|]; [|discriminate E]. destruct (pair_eqb (old i) v); [eauto|].
  destruct (route C _ i i) as [(s1, o1)|] eqn:Ro; [|discriminate E]. cbn [bind] in E. destruct (routemsg1 C s1 k mr es) as [(s2, o2)|] eqn:E2; [|discriminate E]. cbn [bind] in E. injection E as <- _.
  apply route_frame in Ro. destruct Ro as (_ & A & B & D & F & G & _). destruct (IH _ _ _ _ E2) as (P & Q & R & U & V). cbn [setl1 l2 min2 out2 ecol eadj] in *. repeat split; congruence.
Qed.
Lemma aroute_frame : forall C s lo hi s' o, aroute C s lo hi = Ok (s', o) -> ecol s' = ecol s /\ eadj s' = eadj s.
Proof.
  intros C s lo hi s' o R. unfold aroute in R. destruct (negb (r_l2 C)); [injection R as <- _; auto|]. destruct (check C s); [|discriminate R]. cbn [bind] in R.
  destruct (each (route2 C) s (span lo hi)) as (s1, o1) eqn:E. destruct (each2_ok _ _ _ _ _ E) as ((_ & A & B & _) & _).
  destruct (Bool.eqb _ _); [injection R as <- _; auto|]. destruct (dget keqb (l1 s1) ASelf) as [v|]; [|discriminate R].
  destruct (route C _ 0 0) as [(s3, o3)|] eqn:Ro; [|discriminate R]. cbn [bind] in R. injection R as <- _. apply route_frame in Ro. destruct Ro as (_ & P & Q & _).
  cbn [setl1 setatt ecol eadj] in *. split; congruence.
Qed.
Lemma msg2_frame : forall C k es s mr s' o, routemsg2 C s k mr es = Ok (s', o) -> ecol s' = ecol s /\ eadj s' = eadj s.
Proof.
  intros C k es. induction es as [|(i, v) es IH]; intros s mr s' o E; cbn [routemsg2] in E; [injection E as <- _; auto|].
  destruct (r_maxarea C <? i); [eauto|]. destruct (dget keqb (l2 s) k) as [old|]; [|discriminate E]. destruct (pair_eqb (old i) v); [eauto|].
  destruct (aroute C _ i i) as [(s1, o1)|] eqn:Ro; [|discriminate E]. cbn [bind] in E. destruct (routemsg2 C s1 k mr es) as [(s2, o2)|] eqn:E2; [|discriminate E]. cbn [bind] in E. injection E as <- _.
  apply aroute_frame in Ro. destruct Ro as (A & B). destruct (IH _ _ _ _ E2) as (P & Q). cbn [setl2 ecol eadj] in *. split; congruence.
Qed.
Lemma aroute_effect : forall C s i s' o, r_l2 C = true -> aroute C s i i = Ok (s', o) -> tabs C s -> (forall j, 1 <= j <= r_maxarea C -> j <> i -> tab2 C s j) ->
  tabs C s' /\ tabs2 C s' /\ l2 s' = l2 s /\ dkeys (l1 s') = dkeys (l1 s) /\ forall k j, k <> ASelf -> colv s' k j = colv s k j.
Proof.
  intros C s i s' o L R T T2. unfold aroute in R. rewrite L in R. cbn [negb] in R. destruct (check C s); [|discriminate R]. cbn [bind] in R.
  destruct (each (route2 C) s (span i i)) as (s1, o1) eqn:E. destruct (each2_ok _ _ _ _ _ E) as (F & A & B & _).
  assert (T2' : tabs2 C s1).
  { intros j Hj. destruct (Z.eq_dec j i) as [->|N]; [apply A; apply span_in; lia|]. destruct (B j) as (B1 & B2); [rewrite span_in; lia|]. eapply tab2_keep; eauto. }
  assert (T' : tabs C s1). { destruct F as (F1 & F2 & F3 & _ & F5 & F6 & _). intros j Hj. specialize (T j Hj). unfold tab1, cands1 in *. rewrite F1, F2, F3, F5, F6. exact T. }
  destruct F as (F1 & F2 & F3 & F4 & F5 & F6 & F7).
  destruct (Bool.eqb _ _).
  { injection R as <- _. split; [auto|]. split; [auto|]. split; [auto|]. split; [congruence|]. intros k j _. unfold colv. rewrite F1. reflexivity. }
  destruct (dget keqb (l1 s1) ASelf) as [v|] eqn:Gv; [|discriminate R].
  set (s2 := setl1 _ _) in R. destruct (route C s2 0 0) as [(s3, o3)|] eqn:Ro; [|discriminate R]. cbn [bind] in R. injection R as <- _.
  destruct (route_tabs _ _ _ _ _ Ro) as (T3 & Fr).
  { intros j Hj Nj. specialize (T' j Hj). assert (Q : cands1 s2 j = cands1 s1 j) by (unfold cands1; cbn [s2 setl1 setatt l1 ecol eadj]; f_equal; apply map_dset_upd; [exact Gv|lia]).
    unfold tab1 in *. rewrite Q. exact T'. }
  destruct Fr as (K1 & K2 & K3 & K4 & K5 & K6 & K7). cbn [s2 setl1 setatt l1 l2 min2 out2] in K1, K4, K5, K6. split; [auto|]. split; [|split; [congruence|split]].
  - intros j Hj. specialize (T2' j Hj). unfold tab2, cands2 in *. rewrite K4, K5, K6. exact T2'.
  - rewrite K1. rewrite dkeys_dset_old by (eapply dget_keys; eauto). congruence.
  - intros k j Nk. unfold colv. rewrite K1. rewrite (dget_dset_other keqb keqb_decides) by auto. rewrite F1. reflexivity.
Qed.
Lemma msg2_effect : forall C k es s mr, cfg_ok C -> r_l2 C = true -> k <> ASelf -> inv1 C s -> inv2 C s -> In k (dkeys (l2 s)) ->
  Forall (fun e => 1 <= fst e /\ 1 <= snd (snd e)) es -> tabs C s -> tabs2 C s ->
  exists s' o, routemsg2 C s k mr es = Ok (s', o) /\ inv1 C s' /\ inv2 C s' /\ tabs C s' /\ tabs2 C s' /\
    dkeys (l1 s') = dkeys (l1 s) /\ dkeys (l2 s') = dkeys (l2 s) /\
    (forall i, 1 <= i <= r_maxarea C -> colv2 s' k i = lastv es i (colv2 s k i)) /\
    (forall k' i, k' <> k -> colv2 s' k' i = colv2 s k' i) /\ (forall k' i, k' <> ASelf -> colv s' k' i = colv s k' i).
Proof.
  intros C k es. induction es as [|(i, v) es IH]; intros s mr CF L Nk I1 I2 Hk F T T2.
  - eexists _, _. split; [reflexivity|]. repeat (split; [solve [auto]|]). auto.
  - pose proof (msg2_ok C k ((i, v) :: es) s mr CF L Nk I1 I2 Hk F) as (sf & of & Ef & _). inversion_clear F as [|? ? F1 F2]. cbn [fst snd] in F1.
    cbn [routemsg2] in *. unfold lastv. cbn [fold_left fst snd]. fold (lastv es).
    destruct (Z.ltb_spec (r_maxarea C) i) as [Hi|Hi].
    { edestruct (IH s) as (s' & o & E & J1 & J2 & J3 & J4 & J5 & J6 & J7 & J8 & J9); eauto. exists s', o. split; [exact E|].
      repeat (split; [solve [auto]|]). split; [|auto]. intros j Hj. destruct (Z.eqb_spec i j); [lia|]. apply J7. auto. }
    destruct (dget_some _ _ Hk) as (old & G). rewrite G in *. destruct (pair_eqb (old i) v) eqn:Ev.
    { edestruct (IH s) as (s' & o & E & J1 & J2 & J3 & J4 & J5 & J6 & J7 & J8 & J9); eauto. exists s', o. split; [exact E|].
      repeat (split; [solve [auto]|]). split; [|auto]. intros j Hj. destruct (Z.eqb_spec i j) as [->|]; [|apply J7; auto]. rewrite J7 by auto.
      unfold lastv. f_equal. unfold colv2. rewrite G. apply pair_eqb_eq. auto. }
    set (s0 := setl2 s (dset keqb (l2 s) k (upd old i v))) in *.
    destruct (aroute C s0 i i) as [(s1, o1)|] eqn:Ro; [|discriminate Ef]. cbn [bind] in *.
    assert (Inv : inv1 C s1 /\ inv2 C s1).
    { destruct (msg2_ok C k [(i, v)] s 0 CF L Nk I1 I2 Hk ltac:(constructor; auto)) as (sx & ox & Ex & Q1 & Q2 & _).
      cbn [routemsg2] in Ex. destruct (Z.ltb_spec (r_maxarea C) i); [lia|]. rewrite G, Ev in Ex. fold s0 in Ex. rewrite Ro in Ex. cbn [bind Z.eqb] in Ex.
      assert (s1 = sx) by congruence. subst sx. auto. }
    destruct Inv as (A & B).
    destruct (aroute_effect _ _ _ _ _ L Ro) as (T1 & T12 & K1 & K2 & K3).
    { exact T. }
    { intros j Hj N. specialize (T2 j Hj). assert (Q : cands2 s0 j = cands2 s j) by (unfold cands2; cbn [s0 setl2 l2]; apply map_dset_upd; [exact G|lia]).
      unfold tab2 in *. rewrite Q. exact T2. }
    change (dkeys (l1 s1) = dkeys (l1 s)) in K2.
    assert (D1 : dkeys (l2 s1) = dkeys (l2 s)) by (rewrite K1; cbn [s0 setl2 l2]; apply dkeys_dset_old; auto).
    assert (C1 : forall j, colv2 s1 k j = if i =? j then v else colv2 s k j).
    { intros j. unfold colv2. rewrite K1. cbn [s0 setl2 l2]. rewrite (dget_dset_same keqb keqb_decides). rewrite G. unfold upd. rewrite Z.eqb_sym. reflexivity. }
    assert (C2 : forall k' j, k' <> k -> colv2 s1 k' j = colv2 s k' j).
    { intros k' j N. unfold colv2. rewrite K1. cbn [s0 setl2 l2]. rewrite (dget_dset_other keqb keqb_decides); auto. }
    edestruct (IH s1) as (s' & o & E & J1 & J2 & J3 & J4 & J5 & J6 & J7 & J8 & J9); eauto. { rewrite D1. auto. }
    rewrite E. cbn [bind]. eexists _, _. split; [reflexivity|]. split; [auto|]. split; [auto|]. split; [auto|]. split; [auto|]. split; [congruence|]. split; [congruence|]. split; [|split].
    + intros j Hj. rewrite J7 by auto. rewrite C1. reflexivity.
    + intros k' j N. rewrite J8 by auto. auto.
    + intros k' j N. rewrite J9 by auto. rewrite K3 by auto. reflexivity.
Qed.
(** End nodes are one hop away, and have a node number. *)
Definition ends_ok (C : rcfg) (s : rst) : Prop := forall i k, eadj s i = Some k -> fst (ecol s i) = 1 /\ 1 <= i <= r_maxn C /\ exists c a, k = ANbr c a i.
Lemma step_ends : forall C u e l s s' o, hist C u (e :: l) -> rstep C s e = Ok (s', o) -> ends_ok C s -> ends_ok C s'.
Proof.
  intros C u e l s s' o H R E. assert (Sa : ecol s' = ecol s -> eadj s' = eadj s -> ends_ok C s') by (intros A B i k; rewrite A, B; apply E).
  inversion H as [|? c a n t ? H1 H2 HH|? c a n t ? H1 H2 HH|? c a n t ? es H1 H2 H3 HH|? c a n ? es H1 H3 HH]; subst; cbn [rstep] in R.
  - unfold adj_up in R. set (s0 := if r_l2 C && is_l2 t then setl2 s _ else s) in R.
    assert (A0 : ecol s0 = ecol s /\ eadj s0 = eadj s) by (unfold s0; destruct (r_l2 C && is_l2 t); auto). destruct A0 as (A0 & B0).
    destruct (is_router t) eqn:Rt.
    + destruct (negb (a =? r_home C)); cbn [bind] in R; injection R as <- _; apply Sa; cbn [setl1 ecol eadj]; auto.
    + destruct H2 as [H2|H2]; [discriminate H2|]. destruct (r_maxn C <? n); [discriminate R|]. destruct (route C _ n n) as [(s1, o1)|] eqn:Ro; [|discriminate R]. cbn [bind] in R. injection R as <- _.
      apply route_frame in Ro. destruct Ro as (_ & A & B & _). cbn [setend ecol eadj] in A, B. intros i k. rewrite A, B, A0, B0. unfold upd. destruct (Z.eqb_spec i n) as [->|]; [|apply E].
      intros X. injection X as <-. cbn [fst]. split; [reflexivity|]. split; [auto|eauto].
  - unfold adj_down in R. destruct (is_router t) eqn:Rt.
    + destruct (route C _ 0 _) as [(s1, o1)|] eqn:Ro; [|discriminate R]. cbn [bind] in R. apply route_frame in Ro. destruct Ro as (_ & A & B & _). cbn [setl1 ecol eadj] in A, B.
      destruct (r_l2 C && is_l2 t); [|injection R as <- _; apply Sa; auto]. destruct (aroute C _ 1 _) as [(s2, o2)|] eqn:Ra; [|discriminate R]. cbn [bind] in R. injection R as <- _.
      apply aroute_frame in Ra. destruct Ra as (A2 & B2). cbn [setl2 ecol eadj] in A2, B2. apply Sa; congruence.
    + destruct (r_maxn C <? n); [discriminate R|]. destruct (route C _ n n) as [(s1, o1)|] eqn:Ro; [|discriminate R]. cbn [bind] in R. apply route_frame in Ro. destruct Ro as (_ & A & B & _). cbn [setend ecol eadj] in A, B.
      assert (E1 : ends_ok C s1). { intros i k. rewrite A, B. unfold upd. destruct (i =? n); [discriminate|apply E]. }
      destruct (r_l2 C && is_l2 t); [|injection R as <- _; exact E1]. destruct (aroute C _ 1 _) as [(s2, o2)|] eqn:Ra; [|discriminate R]. cbn [bind] in R. injection R as <- _.
      apply aroute_frame in Ra. destruct Ra as (A2 & B2). cbn [setl2 ecol eadj] in A2, B2. intros i k. rewrite A2, B2. apply E1.
  - destruct (a =? r_home C); [|injection R as <- _; exact E]. apply msg1_frame in R. apply Sa; apply R.
  - destruct (r_l2 C); [|injection R as <- _; exact E]. apply msg2_frame in R. apply Sa; apply R.
Qed.
Lemma reached_ends : forall C s, reached C s -> ends_ok C s.
Proof.
  assert (G : forall C l u s s' o, hist C u l -> rsteps C s l = Ok (s', o) -> ends_ok C s -> ends_ok C s').
  { intros C l. induction l as [|e l IH]; intros u s s' o H R E; cbn [rsteps] in R; [injection R as <- _; exact E|].
    destruct (rstep C s e) as [(s1, o1)|] eqn:R1; [|discriminate R]. cbn [bind] in R. destruct (rsteps C s1 l) as [(s2, o2)|] eqn:R2; [|discriminate R]. cbn [bind] in R. injection R as <- _.
    pose proof (step_ends _ _ _ _ _ _ _ H R1 E) as E1. inversion H; subst; eapply IH; eauto. }
  intros C s (l & o & H & R). eapply G; eauto. intros i k X. discriminate X.
Qed.
