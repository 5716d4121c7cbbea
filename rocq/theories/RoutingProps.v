(** C20 and C21: the decision process and the consistency of the tables. *)
From Verif Require Import Base Dict RoutingModel.

Lemma keqb_decides : decides keqb.
Proof.
  intros a b. destruct a, b; cbn; split; intros H; try discriminate; try reflexivity.
  - apply andb_prop in H. destruct H as (H & H3). apply andb_prop in H. destruct H as (H1 & H2). f_equal; lia.
  - injection H as -> -> ->. rewrite !Z.eqb_refl. reflexivity.
Qed.
Lemma okeqb_eq : forall a b, okeqb a b = true <-> a = b.
Proof.
  intros [a|] [b|]; cbn; split; intros H; try discriminate; auto.
  - apply keqb_decides in H. congruence.
  - injection H as ->. apply keqb_decides. reflexivity.
Qed.
Lemma pair_eqb_eq : forall a b, pair_eqb a b = true <-> a = b.
Proof.
  intros [a1 a2] [b1 b2]. unfold pair_eqb. cbn [fst snd]. split; intros H.
  - apply andb_prop in H. f_equal; lia.
  - injection H as -> ->. rewrite !Z.eqb_refl. reflexivity.
Qed.
Lemma upd_same : forall A (f : Z -> A) i v, upd f i v i = v.
Proof. intros. unfold upd. rewrite Z.eqb_refl. reflexivity. Qed.
Lemma upd_other : forall A (f : Z -> A) i v j, j <> i -> upd f i v j = f j.
Proof. intros. unfold upd. destruct (Z.eqb_spec j i); [contradiction|reflexivity]. Qed.
Lemma span_in : forall lo hi i, In i (span lo hi) <-> lo <= i <= hi.
Proof.
  intros. unfold span. rewrite in_map_iff. split.
  - intros (k & <- & H). apply in_seq in H. lia.
  - intros H. exists (Z.to_nat (i - lo)). split; [lia|]. apply in_seq. lia.
Qed.

(** *** C20: the decision *)
(** Specification: the candidate used is the first one of least cost. *)
Definition cand : Type := Z * Z * option key.
Definition ccost (x : cand) : Z := snd (fst x).
Definition chops (x : cand) : Z := fst (fst x).
Definition first_least (l : list cand) (x : cand) : Prop :=
  exists a b, l = a ++ x :: b /\ Forall (fun y => ccost x < ccost y) a /\ Forall (fun y => ccost x <= ccost y) b.
(** A candidate without an adjacency has infinite cost. *)
Definition cand_ok (x : cand) : Prop := snd x = None -> INFCOST <= ccost x.

Lemma pick_none : forall l bh bc ba, Forall cand_ok l -> Forall (fun y => bc <= ccost y) l -> (ba = None -> INFCOST <= bc) ->
  exists h a, pick l bh bc ba = (h, bc, a) /\ (ba <> None -> h = bh /\ a = ba).
Proof.
  induction l as [|((h, c), a) l IH]; intros bh bc ba F G N; cbn [pick]; [exists bh, ba; auto|].
  inversion_clear F as [|? ? F1 F2]. inversion_clear G as [|? ? G1 G2]. unfold cand_ok, ccost in *. cbn [fst snd] in *.
  destruct (Z.ltb_spec c bc); [lia|]. cbn [orb]. destruct (Z.eqb_spec c bc) as [->|]; cbn [andb].
  - destruct ba as [b|].
    + apply IH; auto.
    + destruct (IH h bc a F2 G2 ltac:(auto)) as (h' & a' & E & _). exists h', a'. split; [exact E|congruence].
  - apply IH; auto.
Qed.
Lemma pick_some : forall l bh bc ba x, Forall cand_ok l -> first_least l x -> ccost x < bc -> ccost x < INFCOST ->
  pick l bh bc ba = x.
Proof.
  induction l as [|y l IH]; intros bh bc ba x F (p & q & E & Fp & Fq) L I; [destruct p; discriminate|].
  inversion_clear F as [|? ? F1 F2]. destruct y as ((h, c), a). destruct p as [|y p].
  - cbn [app] in E. injection E as <- <-. cbn [pick]. unfold ccost in L, I, Fq. cbn [fst snd] in L, I, Fq. destruct (Z.ltb_spec c bc); [|lia]. cbn [orb].
    assert (a <> None) by (intros ->; specialize (F1 eq_refl); unfold ccost in F1; cbn in F1; lia).
    destruct (pick_none l h c a F2 Fq ltac:(congruence)) as (h' & a' & -> & H'). destruct (H' H0) as (-> & ->). reflexivity.
  - cbn [app] in E. injection E as <- ->. inversion_clear Fp as [|? ? P1 P2]. unfold ccost in P1 at 2. cbn [fst snd] in P1. cbn [pick].
    assert (FL : first_least (p ++ x :: q) x) by (exists p, q; auto).
    destruct ((c <? bc) || ((c =? bc) && match ba with None => true | Some _ => false end)); apply IH; auto.
Qed.
Lemma has_first_least : forall l, l <> [] -> exists x, first_least l x.
Proof.
  induction l as [|y l IH]; intros N; [congruence|]. destruct l as [|z l].
  - exists y, [], []. repeat constructor.
  - destruct IH as (x & p & q & E & Fp & Fq); [discriminate|]. rewrite E. destruct (Z.le_gt_cases (ccost y) (ccost x)) as [L|G].
    + exists y, [], (p ++ x :: q). split; [reflexivity|]. split; [constructor|]. apply Forall_app. split; [eapply Forall_impl; [|exact Fp]; cbn; intros; lia|].
      constructor; [auto|]. eapply Forall_impl; [|exact Fq]. cbn. intros; lia.
    + exists x, (y :: p), q. split; [reflexivity|]. split; [constructor; auto|auto].
Qed.
Lemma first_least_all : forall l x y, first_least l x -> In y l -> ccost x <= ccost y.
Proof.
  intros l x y (p & q & -> & Fp & Fq) H. rewrite Forall_forall in *. apply in_app_or in H. destruct H as [H|[->|H]]; [apply Fp in H; lia|lia|apply Fq; auto].
Qed.
Lemma first_least_in : forall l x, first_least l x -> In x l.
Proof. intros l x (p & q & -> & _). apply in_or_app. right. left. reflexivity. Qed.

(** The decision takes the first candidate of least cost if it is within the
    limits, and unreachable with infinite hops and cost if not. *)
Theorem decision : forall maxhops maxcost l x, maxcost < INFCOST -> Forall cand_ok l -> first_least l x ->
  decide maxhops maxcost l = if (ccost x <=? maxcost) && (chops x <=? maxhops) then x else (INFHOPS, INFCOST, None).
Proof.
  intros mh mc l x Hm F L. unfold decide. destruct (Z.ltb_spec (ccost x) INFCOST) as [G|G].
  - rewrite (pick_some l INFHOPS INFCOST None x F L G G). destruct x as ((h, c), a). unfold ccost, chops. cbn [fst snd].
    destruct (Z.ltb_spec mc c), (Z.ltb_spec mh h), (Z.leb_spec c mc), (Z.leb_spec h mh); cbn [orb andb]; try lia; reflexivity.
  - destruct (pick_none l INFHOPS INFCOST None F) as (h & a & -> & _); [|auto with zarith|].
    + apply Forall_forall. intros y Hy. pose proof (first_least_all l x y L Hy). lia.
    + destruct (Z.ltb_spec mc INFCOST); [|lia]. destruct (Z.leb_spec (ccost x) mc); [lia|]. reflexivity.
Qed.
Print Assumptions decision.
(** A route that is chosen has least cost among all candidates and is within
    the limits. *)
Theorem decision_reachable : forall maxhops maxcost l h c k, maxcost < INFCOST -> Forall cand_ok l ->
  decide maxhops maxcost l = (h, c, Some k) ->
  In (h, c, Some k) l /\ (forall y, In y l -> c <= ccost y) /\ c <= maxcost /\ h <= maxhops.
Proof.
  intros mh mc l h c k Hm F E. destruct l as [|y l].
  - unfold decide in E. cbn in E. destruct ((mc <? INFCOST) || (mh <? INFHOPS)); discriminate E.
  - destruct (has_first_least (y :: l)) as (x & L); [discriminate|]. rewrite (decision mh mc (y :: l) x Hm F L) in E.
    destruct (Z.leb_spec (ccost x) mc); cbn [andb] in E; [|discriminate E]. destruct (Z.leb_spec (chops x) mh); [|discriminate E].
    subst x. split; [apply first_least_in; auto|]. split; [|auto]. intros z Hz. apply (first_least_all _ _ _ L Hz).
Qed.
(** Unreachable: infinite hops and cost are recorded; a destination all of
    whose candidates exceed the limits is unreachable; if one does not, it is
    reachable, provided no candidate exceeds the hops limit. *)
Theorem decision_unreachable : forall maxhops maxcost l h c a, maxcost < INFCOST -> Forall cand_ok l ->
  decide maxhops maxcost l = (h, c, a) ->
  (a = None -> (h, c) = (INFHOPS, INFCOST)) /\
  (Forall (fun y => maxcost < ccost y \/ maxhops < chops y) l -> a = None) /\
  (Forall (fun y => chops y <= maxhops \/ maxcost < ccost y) l -> a = None -> Forall (fun y => maxcost < ccost y) l).
Proof.
  intros mh mc l h c a Hm F E. destruct l as [|y l].
  - unfold decide in E. cbn [pick] in E. destruct (Z.ltb_spec mc INFCOST); [|lia]. cbn [orb] in E. injection E as <- <- <-. auto.
  - destruct (has_first_least (y :: l)) as (x & L); [discriminate|]. rewrite (decision mh mc (y :: l) x Hm F L) in E.
    pose proof (first_least_in _ _ L) as IN. rewrite Forall_forall in F. specialize (F x IN). unfold cand_ok in F.
    destruct (Z.leb_spec (ccost x) mc); cbn [andb] in E.
    + destruct (Z.leb_spec (chops x) mh).
      * assert (x = (h, c, a)) by congruence. subst x. unfold ccost, chops in *. cbn [fst snd] in *. split; [intros ->; specialize (F eq_refl); lia|].
        split; [|intros _ ->; specialize (F eq_refl); lia]. intros G. rewrite Forall_forall in G. specialize (G _ IN). cbn [fst snd] in G. lia.
      * injection E as <- <- <-. split; [auto|]. split; [auto|]. intros G. rewrite Forall_forall in G. specialize (G _ IN). lia.
    + injection E as <- <- <-. split; [auto|]. split; [auto|]. intros _ _. apply Forall_forall. intros z Hz. pose proof (first_least_all _ _ _ L Hz). lia.
Qed.
(** The third clause cannot be improved to the architecture's rule: a path
    within both limits is not used when a cheaper one has too many hops. *)
Theorem decision_refuted : exists l, Forall cand_ok l /\ decide 4 100 l = (INFHOPS, INFCOST, None) /\
  exists y, In y l /\ ccost y <= 100 /\ chops y <= 4.
Proof.
  exists [(5, 10, Some (ANbr 1 1 2)); (2, 20, Some (ANbr 2 1 3))]. split; [repeat constructor; discriminate|]. split; [reflexivity|].
  exists (2, 20, Some (ANbr 2 1 3)). cbn. intuition lia.
Qed.
(** Two paths of equal cost: the first in the order of the dictionary counts,
    so the destination may be unreachable although the other would do. *)
Theorem decision_tie_refuted : decide 4 100 [(5, 10, Some (ANbr 1 1 2)); (2, 10, Some (ANbr 2 1 3))] = (INFHOPS, INFCOST, None) /\
  decide 4 100 [(2, 10, Some (ANbr 2 1 3)); (5, 10, Some (ANbr 1 1 2))] = (2, 10, Some (ANbr 2 1 3)).
Proof. split; reflexivity. Qed.
Print Assumptions decision_reachable.
Print Assumptions decision_unreachable.
Example decision_example : let l := [(31, 1023, None); (3, 12, Some (ANbr 1 1 2)); (2, 9, Some (ANbr 2 1 3)); (2, 9, Some (ANbr 3 1 4))] in
  Forall cand_ok l /\ first_least l (2, 9, Some (ANbr 2 1 3)) /\ decide 4 100 l = (2, 9, Some (ANbr 2 1 3)).
Proof.
  split; [|split; [|reflexivity]].
  - repeat constructor; unfold cand_ok, ccost, INFCOST; cbn; intros; try discriminate; lia.
  - exists [(31, 1023, None); (3, 12, Some (ANbr 1 1 2))], [(2, 9, Some (ANbr 3 1 4))]. split; [reflexivity|].
    unfold ccost. split; repeat constructor; cbn; lia.
Qed.

(** *** C21: consistency of the tables *)
Definition cfg_ok (C : rcfg) : Prop :=
  1 <= r_tid C <= r_maxn C /\ 0 <= r_maxcost C < INFCOST /\ 0 <= r_maxhops C /\ (forall c, 1 <= r_cost C c) /\
  (r_l2 C = true -> 1 <= r_home C <= r_maxarea C).
(** The tables hold the decision for destination i. *)
Definition tab1 (C : rcfg) (s : rst) (i : Z) : Prop :=
  decide (r_maxhops C) (r_maxcost C) (cands1 s i) = (fst (min1 s i), snd (min1 s i), out1 s i).
Definition tab2 (C : rcfg) (s : rst) (i : Z) : Prop :=
  decide (r_maxhops C) (r_maxcost C) (cands2 s i) = (fst (min2 s i), snd (min2 s i), out2 s i).
(** The history: adjacencies come up when they are not up, with a node number
    in range for end nodes; routing messages come from a router adjacency
    that is up and carry costs that include a circuit cost. *)
Definition ups := list (key * ntype).
Definition drop (u : ups) (k : key) : ups := filter (fun x => negb (keqb k (fst x))) u.
Inductive hist (C : rcfg) : ups -> list rev -> Prop :=
  | h_nil : forall u, hist C u []
  | h_up : forall u c a n t l, ~ In (ANbr c a n) (map fst u) -> (is_router t = true \/ 1 <= n <= r_maxn C) ->
      hist C ((ANbr c a n, t) :: u) l -> hist C u (Up c a n t :: l)
  | h_down : forall u c a n t l, (forall t', In (ANbr c a n, t') u -> t' = t) -> (is_router t = true \/ 1 <= n <= r_maxn C) ->
      hist C (drop u (ANbr c a n)) l -> hist C u (Down c a n t :: l)
  | h_msg1 : forall u c a n t l es, In (ANbr c a n, t) u -> is_router t = true ->
      Forall (fun e => 0 <= fst e /\ 1 <= snd (snd e)) es -> hist C u l -> hist C u (Msg1 c a n es :: l)
  | h_msg2 : forall u c a n l es, In (ANbr c a n, NL2) u ->
      Forall (fun e => 1 <= fst e /\ 1 <= snd (snd e)) es -> hist C u l -> hist C u (Msg2 c a n es :: l).

(** Invariant of the vectors. *)
Definition self1 (C : rcfg) (att : bool) (v : vec) : Prop :=
  forall i, 0 <= i <= r_maxn C -> v i = if (i =? r_tid C) || (att && (i =? 0)) then (0, 0) else INF.
Definition self2 (C : rcfg) (v : vec) : Prop :=
  forall i, 1 <= i <= r_maxarea C -> v i = if i =? r_home C then (0, 0) else INF.
Definition cols1 (C : rcfg) (s : rst) : Prop :=
  NoDup (dkeys (l1 s)) /\ (exists v, dget keqb (l1 s) ASelf = Some v /\ self1 C (attached s) v) /\
  (forall k v, In (k, v) (l1 s) -> k <> ASelf -> forall i, 1 <= snd (v i)) /\
  (forall i, (eadj s i = None -> ecol s i = INF) /\ 1 <= snd (ecol s i) /\ eadj s i <> Some ASelf).
Definition cols2 (C : rcfg) (s : rst) : Prop :=
  NoDup (dkeys (l2 s)) /\ (exists v, dget keqb (l2 s) ASelf = Some v /\ self2 C v) /\
  (forall k v, In (k, v) (l2 s) -> k <> ASelf -> forall i, 1 <= snd (v i)).

Lemma cands1_ok : forall C s i, cols1 C s -> Forall cand_ok (cands1 s i).
Proof.
  intros C s i (_ & _ & _ & E). constructor.
  - intros N. unfold ccost. cbn [fst snd] in *. destruct (E i) as (E1 & _). rewrite (E1 N). cbn. lia.
  - apply Forall_forall. intros x Hx. apply in_map_iff in Hx. destruct Hx as (y & <- & _). intros N. discriminate N.
Qed.
Lemma cands2_ok : forall s i, Forall cand_ok (cands2 s i).
Proof. intros s i. apply Forall_forall. intros x Hx. apply in_map_iff in Hx. destruct Hx as (y & <- & _). intros N. discriminate N. Qed.
Lemma split_in : forall A (x : A) l, In x l -> exists a b, l = a ++ x :: b.
Proof. intros. apply in_split. auto. Qed.
(** Own address and own area: the self column wins. *)
Lemma least_self : forall (d : dict key vec) v i pre, NoDup (dkeys d) -> dget keqb d ASelf = Some v -> v i = (0, 0) ->
  (forall k w, In (k, w) d -> k <> ASelf -> forall j, 1 <= snd (w j)) -> Forall (fun y => 1 <= ccost y) pre ->
  first_least (pre ++ map (fun kv => (snd kv i, Some (fst kv))) d) (0, 0, Some ASelf).
Proof.
  intros d v i pre N G V F P. apply (dget_in keqb keqb_decides) in G. destruct (in_split _ _ G) as (a & b & ->).
  exists (pre ++ map (fun kv : key * vec => (snd kv i, Some (fst kv))) a), (map (fun kv : key * vec => (snd kv i, Some (fst kv))) b). split.
  - rewrite map_app. cbn [map fst snd]. rewrite V, app_assoc. reflexivity.
  - assert (K : forall k w, In (k, w) (a ++ b) -> k <> ASelf).
    { intros k w H ->. unfold dkeys in N. rewrite map_app in N. cbn [map fst] in N. apply NoDup_remove_2 in N. apply N. rewrite <- map_app.
      change ASelf with (fst (ASelf, w)). apply in_map. auto. }
    assert (Q : forall k w, In (k, w) (a ++ b) -> 1 <= snd (w i)).
    { intros k w H. apply (F k w); [|eapply K; eauto]. apply in_app_or in H. apply in_or_app. destruct H; [left|right; right]; auto. }
    unfold ccost. cbn [fst snd]. split.
    + apply Forall_app. split; [eapply Forall_impl; [|exact P]; unfold ccost; cbn; intros; lia|].
      apply Forall_forall. intros y Hy. apply in_map_iff in Hy. destruct Hy as ((k, w) & <- & H). cbn [fst snd]. specialize (Q k w ltac:(apply in_or_app; auto)). lia.
    + apply Forall_forall. intros y Hy. apply in_map_iff in Hy. destruct Hy as ((k, w) & <- & H). cbn [fst snd]. specialize (Q k w ltac:(apply in_or_app; auto)). lia.
Qed.
Lemma decide_self1 : forall C s i, cfg_ok C -> cols1 C s -> 0 <= i <= r_maxn C -> i = r_tid C \/ (attached s = true /\ i = 0) ->
  decide (r_maxhops C) (r_maxcost C) (cands1 s i) = (0, 0, Some ASelf).
Proof.
  intros C s i (K1 & K2 & K3 & _) Co Hi Hs. pose proof (cands1_ok C s i Co) as OK. destruct Co as (N & (v & G & S) & F & E).
  assert (V : v i = (0, 0)). { rewrite S by auto. destruct Hs as [->|(-> & ->)]; [rewrite Z.eqb_refl; reflexivity|]. rewrite andb_true_l, Z.eqb_refl, orb_true_r. reflexivity. }
  pose proof (least_self (l1 s) v i [(ecol s i, eadj s i)] N G V F) as L. cbn [app] in L. fold (cands1 s i) in L.
  rewrite (decision (r_maxhops C) (r_maxcost C) _ _ (proj2 K2) OK (L ltac:(constructor; [apply E|constructor]))).
  unfold ccost, chops. cbn [fst snd]. destruct (Z.leb_spec 0 (r_maxcost C)); [|lia]. destruct (Z.leb_spec 0 (r_maxhops C)); [|lia]. reflexivity.
Qed.
Lemma decide_self2 : forall C s, cfg_ok C -> r_l2 C = true -> cols2 C s ->
  decide (r_maxhops C) (r_maxcost C) (cands2 s (r_home C)) = (0, 0, Some ASelf).
Proof.
  intros C s (K1 & K2 & K3 & _ & K4) L2 Co. pose proof (cands2_ok s (r_home C)) as OK. destruct Co as (N & (v & G & S) & F).
  assert (V : v (r_home C) = (0, 0)) by (rewrite S by auto; rewrite Z.eqb_refl; reflexivity).
  pose proof (least_self (l2 s) v _ [] N G V F) as L. cbn [app] in L. fold (cands2 s (r_home C)) in L.
  rewrite (decision (r_maxhops C) (r_maxcost C) _ _ (proj2 K2) OK (L ltac:(constructor))).
  unfold ccost, chops. cbn [fst snd]. destruct (Z.leb_spec 0 (r_maxcost C)); [|lia]. destruct (Z.leb_spec 0 (r_maxhops C)); [|lia]. reflexivity.
Qed.
(** A column of infinite entries does not matter. *)
Lemma pick_app : forall l bh bc ba l', pick (l ++ l') bh bc ba = let '(h, c, a) := pick l bh bc ba in pick l' h c a.
Proof.
  induction l as [|((h, c), a) l IH]; intros bh bc ba l'; cbn [app pick]; [reflexivity|].
  destruct ((c <? bc) || ((c =? bc) && match ba with None => true | Some _ => false end)); apply IH.
Qed.
Lemma decide_inf : forall mh mc l k, mc < INFCOST -> decide mh mc (l ++ [(INF, Some k)]) = decide mh mc l.
Proof.
  intros mh mc l k M. unfold decide. rewrite pick_app.
  assert (B : forall l bh bc ba, bc <= INFCOST -> snd (fst (pick l bh bc ba)) <= INFCOST).
  { induction l0 as [|((h, c), a) l0 IH]; intros bh bc ba H; cbn [pick]; [cbn; lia|].
    destruct (Z.ltb_spec c bc); cbn [orb]; [apply IH; lia|]. destruct (Z.eqb_spec c bc); cbn [andb]; [destruct ba; apply IH; lia|apply IH; lia]. }
  specialize (B l INFHOPS INFCOST None ltac:(lia)). destruct (pick l INFHOPS INFCOST None) as ((h, c), a). cbn [fst snd] in B.
  unfold INF. cbn [pick]. destruct (Z.ltb_spec INFCOST c); [lia|]. cbn [orb]. destruct (Z.eqb_spec INFCOST c) as [<-|]; cbn [andb]; [|reflexivity].
  destruct a; [reflexivity|]. destruct (Z.ltb_spec mc INFCOST); [|lia]. reflexivity.
Qed.
Definition frame1 (s s' : rst) : Prop :=
  l1 s' = l1 s /\ ecol s' = ecol s /\ eadj s' = eadj s /\ l2 s' = l2 s /\ min2 s' = min2 s /\ out2 s' = out2 s /\ attached s' = attached s.
Definition frame2 (s s' : rst) : Prop :=
  l1 s' = l1 s /\ ecol s' = ecol s /\ eadj s' = eadj s /\ l2 s' = l2 s /\ min1 s' = min1 s /\ out1 s' = out1 s /\ attached s' = attached s.
Lemma frame1_cands : forall s s' i, frame1 s s' -> cands1 s' i = cands1 s i.
Proof. intros s s' i (A & B & D & _). unfold cands1. rewrite A, B, D. reflexivity. Qed.
Lemma frame2_cands : forall s s' i, frame2 s s' -> cands2 s' i = cands2 s i.
Proof. intros s s' i (_ & _ & _ & A & _). unfold cands2. rewrite A. reflexivity. Qed.
Lemma frame1_trans : forall a b c, frame1 a b -> frame1 b c -> frame1 a c.
Proof. unfold frame1. intuition congruence. Qed.
Lemma frame2_trans : forall a b c, frame2 a b -> frame2 b c -> frame2 a c.
Proof. unfold frame2. intuition congruence. Qed.
Lemma route1_ok : forall C s i s' o, route1 C s i = (s', o) ->
  frame1 s s' /\ tab1 C s' i /\ (forall j, j <> i -> min1 s' j = min1 s j /\ out1 s' j = out1 s j) /\
  (min1 s' i <> min1 s i -> In (OSrm i) o).
Proof.
  intros C s i s' o E. unfold route1 in E. destruct (decide (r_maxhops C) (r_maxcost C) (cands1 s i)) as ((h, c), a) eqn:D.
  set (ch := negb (fst (min1 s i) =? h) || negb (snd (min1 s i) =? c)) in E.
  assert (M : forall m o1, (if ch then (upd (min1 s) i (h, c), [OSrm i]) else (min1 s, [])) = (m, o1) ->
     m i = (h, c) /\ (forall j, j <> i -> m j = min1 s j) /\ (m i <> min1 s i -> In (OSrm i) o1)).
  { unfold ch. intros m o1 X. destruct (Z.eqb_spec (fst (min1 s i)) h), (Z.eqb_spec (snd (min1 s i)) c); cbn [negb orb] in X; injection X as <- <-;
      rewrite ?upd_same; (split; [|split]); try reflexivity; try (intros; apply upd_other; auto); try (intros; left; reflexivity); auto.
    - destruct (min1 s i). cbn [fst snd] in *. congruence.
    - intros X. exfalso. apply X. reflexivity. }
  destruct (if ch then _ else _) as (m, o1). destruct (M m o1 eq_refl) as (M1 & M2 & M3). clear M.
  destruct (okeqb a (out1 s i)) eqn:K; injection E as <- <-.
  - apply okeqb_eq in K. split; [repeat split|]. split.
    { unfold tab1. change (cands1 (set1 s m (out1 s)) i) with (cands1 s i). rewrite D. cbn [set1 min1 out1]. rewrite M1, K. reflexivity. }
    split; [intros j Hj; split; [apply M2; auto|reflexivity]|exact M3].
  - split; [repeat split|]. split.
    { unfold tab1. change (cands1 (set1 s m (upd (out1 s) i a)) i) with (cands1 s i). rewrite D. cbn [set1 min1 out1]. rewrite M1, upd_same. reflexivity. }
    split; [intros j Hj; split; [apply M2; auto|cbn [set1 out1]; apply upd_other; auto]|].
    intros N. apply in_or_app. left. apply M3. exact N.
Qed.
Lemma route2_ok : forall C s i s' o, route2 C s i = (s', o) ->
  frame2 s s' /\ tab2 C s' i /\ (forall j, j <> i -> min2 s' j = min2 s j /\ out2 s' j = out2 s j) /\
  (min2 s' i <> min2 s i -> In (OASrm i) o).
Proof.
  intros C s i s' o E. unfold route2 in E. destruct (decide (r_maxhops C) (r_maxcost C) (cands2 s i)) as ((h, c), a) eqn:D.
  set (ch := negb (fst (min2 s i) =? h) || negb (snd (min2 s i) =? c)) in E.
  assert (M : forall m o1, (if ch then (upd (min2 s) i (h, c), [OASrm i]) else (min2 s, [])) = (m, o1) ->
     m i = (h, c) /\ (forall j, j <> i -> m j = min2 s j) /\ (m i <> min2 s i -> In (OASrm i) o1)).
  { unfold ch. intros m o1 X. destruct (Z.eqb_spec (fst (min2 s i)) h), (Z.eqb_spec (snd (min2 s i)) c); cbn [negb orb] in X; injection X as <- <-;
      rewrite ?upd_same; (split; [|split]); try reflexivity; try (intros; apply upd_other; auto); try (intros; left; reflexivity); auto.
    - destruct (min2 s i). cbn [fst snd] in *. congruence.
    - intros X. exfalso. apply X. reflexivity. }
  destruct (if ch then _ else _) as (m, o1). destruct (M m o1 eq_refl) as (M1 & M2 & M3). clear M.
  destruct (okeqb a (out2 s i)) eqn:K; injection E as <- <-.
  - apply okeqb_eq in K. split; [repeat split|]. split.
    { unfold tab2. change (cands2 (set2 s m (out2 s)) i) with (cands2 s i). rewrite D. cbn [set2 min2 out2]. rewrite M1, K. reflexivity. }
    split; [intros j Hj; split; [apply M2; auto|reflexivity]|exact M3].
  - split; [repeat split|]. split.
    { unfold tab2. change (cands2 (set2 s m (upd (out2 s) i a)) i) with (cands2 s i). rewrite D. cbn [set2 min2 out2]. rewrite M1, upd_same. reflexivity. }
    split; [intros j Hj; split; [apply M2; auto|cbn [set2 out2]; apply upd_other; auto]|].
    intros N. apply in_or_app. left. apply M3. exact N.
Qed.
Lemma tab1_keep : forall C s s' i, frame1 s s' -> min1 s' i = min1 s i -> out1 s' i = out1 s i -> tab1 C s i -> tab1 C s' i.
Proof. intros C s s' i F A B T. unfold tab1. rewrite (frame1_cands s s' i F), A, B. exact T. Qed.
Lemma tab2_keep : forall C s s' i, frame2 s s' -> min2 s' i = min2 s i -> out2 s' i = out2 s i -> tab2 C s i -> tab2 C s' i.
Proof. intros C s s' i F A B T. unfold tab2. rewrite (frame2_cands s s' i F), A, B. exact T. Qed.
Lemma pair_dec : forall a b : Z * Z, a = b \/ a <> b.
Proof. intros a b. destruct (pair_eqb a b) eqn:E; [left; apply pair_eqb_eq; auto|right; intros ->; rewrite (proj2 (pair_eqb_eq b b) eq_refl) in E; discriminate]. Qed.
Lemma each1_ok : forall C l s s' o, each (route1 C) s l = (s', o) ->
  frame1 s s' /\ (forall i, In i l -> tab1 C s' i) /\ (forall j, ~ In j l -> min1 s' j = min1 s j /\ out1 s' j = out1 s j) /\
  (forall i, min1 s' i <> min1 s i -> In (OSrm i) o).
Proof.
  induction l as [|i l IH]; intros s s' o E; cbn [each] in E.
  - injection E as <- <-. split; [repeat split|]. split; [intros i []|]. split; [auto|]. intros i N. exfalso. apply N. reflexivity.
  - destruct (route1 C s i) as (s1, o1) eqn:R1. destruct (each (route1 C) s1 l) as (s2, o2) eqn:R2. injection E as <- <-.
    destruct (route1_ok _ _ _ _ _ R1) as (A1 & A2 & A3 & A4). destruct (IH _ _ _ R2) as (B1 & B2 & B3 & B4).
    split; [eapply frame1_trans; eauto|]. split; [|split].
    + intros j [<-|Hj]; [|auto]. destruct (in_dec Z.eq_dec i l) as [Hi|Hi]; [auto|]. destruct (B3 i Hi). eapply tab1_keep; eauto.
    + intros j Hj. destruct (B3 j ltac:(intros X; apply Hj; right; auto)). destruct (A3 j ltac:(intros ->; apply Hj; left; auto)). split; congruence.
    + intros j Hj. apply in_or_app. destruct (pair_dec (min1 s2 j) (min1 s1 j)) as [Q|Q]; [|right; auto].
      left. destruct (Z.eq_dec j i) as [->|N]; [apply A4; congruence|]. exfalso. apply Hj. destruct (A3 j N). congruence.
Qed.
Lemma each2_ok : forall C l s s' o, each (route2 C) s l = (s', o) ->
  frame2 s s' /\ (forall i, In i l -> tab2 C s' i) /\ (forall j, ~ In j l -> min2 s' j = min2 s j /\ out2 s' j = out2 s j) /\
  (forall i, min2 s' i <> min2 s i -> In (OASrm i) o).
Proof.
  induction l as [|i l IH]; intros s s' o E; cbn [each] in E.
  - injection E as <- <-. split; [repeat split|]. split; [intros i []|]. split; [auto|]. intros i N. exfalso. apply N. reflexivity.
  - destruct (route2 C s i) as (s1, o1) eqn:R1. destruct (each (route2 C) s1 l) as (s2, o2) eqn:R2. injection E as <- <-.
    destruct (route2_ok _ _ _ _ _ R1) as (A1 & A2 & A3 & A4). destruct (IH _ _ _ R2) as (B1 & B2 & B3 & B4).
    split; [eapply frame2_trans; eauto|]. split; [|split].
    + intros j [<-|Hj]; [|auto]. destruct (in_dec Z.eq_dec i l) as [Hi|Hi]; [auto|]. destruct (B3 i Hi). eapply tab2_keep; eauto.
    + intros j Hj. destruct (B3 j ltac:(intros X; apply Hj; right; auto)). destruct (A3 j ltac:(intros ->; apply Hj; left; auto)). split; congruence.
    + intros j Hj. apply in_or_app. destruct (pair_dec (min2 s2 j) (min2 s1 j)) as [Q|Q]; [|right; auto].
      left. destruct (Z.eq_dec j i) as [->|N]; [apply A4; congruence|]. exfalso. apply Hj. destruct (A3 j N). congruence.
Qed.
Lemma check_ok : forall C s, cols1 C s -> (r_l2 C = true -> cols2 C s) -> check C s = Ok tt.
Proof.
  intros C s (_ & (v & G & S) & _) C2. unfold check.
  assert (E1 : check1 C s = true).
  { unfold check1. rewrite G. apply forallb_forall. intros i Hi. apply span_in in Hi. rewrite (S i Hi).
    destruct ((i =? r_tid C) || (attached s && (i =? 0))); reflexivity. }
  assert (E2 : check2 C s = true).
  { unfold check2. destruct (r_l2 C) eqn:L; [|reflexivity]. destruct (C2 eq_refl) as (_ & (w & G2 & S2) & _). rewrite G2. cbn [negb orb].
    apply forallb_forall. intros i Hi. apply span_in in Hi. rewrite (S2 i Hi). destruct (i =? r_home C); reflexivity. }
  rewrite E1, E2. reflexivity.
Qed.
(** The state between events. *)
Definition good1 (C : rcfg) (s : rst) (i : Z) : Prop := tab1 C s i \/ (i = r_tid C /\ min1 s i = INF /\ out1 s i = Some ASelf).
Definition good2 (C : rcfg) (s : rst) (i : Z) : Prop := tab2 C s i \/ (i = r_home C /\ min2 s i = INF /\ out2 s i = Some ASelf).
Definition inv2 (C : rcfg) (s : rst) : Prop :=
  (r_l2 C = false -> attached s = false) /\
  (r_l2 C = true -> cols2 C s /\ (forall i, 1 <= i <= r_maxarea C -> good2 C s i) /\ out2 s 0 = None /\ attached s = is_attached C s).
Definition inv1 (C : rcfg) (s : rst) : Prop := cols1 C s /\ forall i, 0 <= i <= r_maxn C -> good1 C s i.
Lemma frame1_cols : forall C s s', frame1 s s' -> cols1 C s -> cols1 C s'.
Proof. intros C s s' (A & B & D & E & F & G & H) K. unfold cols1 in *. rewrite A, B, D, H. exact K. Qed.
Lemma frame1_inv2 : forall C s s', frame1 s s' -> inv2 C s -> inv2 C s'.
Proof.
  intros C s s' (A & B & D & E & F & G & H) (K & K2). split; [intros; rewrite H; auto|]. intros L. specialize (K2 L).
  unfold cols2, good2, tab2, cands2, is_attached in *. rewrite E, F, G, H. exact K2.
Qed.
Lemma route_ok : forall C s lo hi, cols1 C s -> inv2 C s -> 0 <= lo ->
  (forall i, 0 <= i <= r_maxn C -> ~ lo <= i <= hi -> good1 C s i) ->
  exists s' o, route C s lo hi = Ok (s', o) /\ inv1 C s' /\ inv2 C s' /\ l1 s' = l1 s /\ l2 s' = l2 s /\
    (forall i, min1 s' i <> min1 s i -> In (OSrm i) o) /\ min2 s' = min2 s.
Proof.
  intros C s lo hi Co I2 Hlo G. unfold route. rewrite check_ok; auto. 2: { intros L. destruct I2 as (_ & I2). apply I2. auto. }
  cbn [bind]. destruct (each (route1 C) s (span lo hi)) as (s', o) eqn:E. destruct (each1_ok _ _ _ _ _ E) as (F & T & U & W).
  exists s', o. split; [reflexivity|]. split; [|split; [eapply frame1_inv2; eauto|split; [apply F|split; [apply F|split; [exact W|apply F]]]]].
  split; [eapply frame1_cols; eauto|]. intros i Hi. destruct (in_dec Z.eq_dec i (span lo hi)) as [X|X]; [left; auto|].
  destruct (U i X) as (U1 & U2). rewrite span_in in X. destruct (G i Hi X) as [Q|(Q1 & Q2 & Q3)].
  - left. eapply tab1_keep; eauto.
  - right. rewrite U1, U2. auto.
Qed.
Lemma dset_new : forall (d : dict key vec) k v, ~ In k (dkeys d) -> dset keqb d k v = d ++ [(k, v)].
Proof.
  induction d as [|(k', v') d IH]; intros k v N; cbn [dset app]; [reflexivity|]. destruct (keqb k k') eqn:E.
  - exfalso. apply N. left. apply keqb_decides in E. auto.
  - rewrite IH; auto. intros X. apply N. right. auto.
Qed.
Lemma in_dset : forall (d : dict key vec) k v k' w, In (k', w) (dset keqb d k v) -> (k' = k /\ w = v) \/ (k' <> k /\ In (k', w) d) \/ (In (k', w) d).
Proof.
  induction d as [|(k0, v0) d IH]; intros k v k' w H; cbn [dset] in H.
  - destruct H as [H|[]]. injection H as <- <-. auto.
  - destruct (keqb k k0) eqn:E.
    + apply keqb_decides in E. subst k0. destruct H as [H|H]; [injection H as <- <-; auto|]. right. right. right. auto.
    + destruct H as [H|H]; [right; right; left; auto|]. destruct (IH _ _ _ _ H) as [Q|[(Q1 & Q2)|Q]]; auto; right; right; right; auto.
Qed.
Lemma map_dset_upd : forall (d : dict key vec) k old i v j, dget keqb d k = Some old -> j <> i ->
  map (fun kv : key * vec => (snd kv j, Some (fst kv))) (dset keqb d k (upd old i v)) = map (fun kv : key * vec => (snd kv j, Some (fst kv))) d.
Proof.
  induction d as [|(k0, v0) d IH]; intros k old i v j G N; cbn [dget dset] in *; [discriminate|]. destruct (keqb k k0).
  - injection G as <-. cbn [map fst snd]. rewrite upd_other by auto. reflexivity.
  - cbn [map fst snd]. rewrite (IH k old i v j G N). reflexivity.
Qed.
Lemma dkeys_dset_old : forall (d : dict key vec) k v, In k (dkeys d) -> dkeys (dset keqb d k v) = dkeys d.
Proof.
  induction d as [|(k0, v0) d IH]; intros k v H; cbn [dset]; [destruct H|]. destruct (keqb k k0) eqn:E.
  - reflexivity.
  - cbn [dkeys map fst]. f_equal. apply IH. destruct H as [H|H]; auto. cbn [fst] in H. subst k0. rewrite (proj2 (keqb_decides k k) eq_refl) in E. discriminate.
Qed.
Lemma dget_keys : forall (d : dict key vec) k v, dget keqb d k = Some v -> In k (dkeys d).
Proof. intros d k v H. apply (dget_in keqb keqb_decides) in H. change k with (fst (k, v)). apply in_map. auto. Qed.
Definition flags (s s' : rst) (o : list rout) : Prop :=
  (forall i, min1 s' i <> min1 s i -> In (OSrm i) o) /\ (forall i, min2 s' i <> min2 s i -> In (OASrm i) o).
Lemma aroute_ok : forall C s lo hi, cfg_ok C -> r_l2 C = true -> inv1 C s -> cols2 C s -> out2 s 0 = None -> 1 <= lo ->
  (forall i, 1 <= i <= r_maxarea C -> ~ lo <= i <= hi -> good2 C s i) ->
  exists s' o, aroute C s lo hi = Ok (s', o) /\ inv1 C s' /\ inv2 C s' /\ dkeys (l1 s') = dkeys (l1 s) /\ l2 s' = l2 s /\ flags s s' o.
Proof.
  intros C s lo hi CF L (Co & G1) C2 Z0 Hlo G. unfold aroute. rewrite L. cbn [negb]. rewrite check_ok; auto. cbn [bind].
  destruct (each (route2 C) s (span lo hi)) as (s1, o1) eqn:E. destruct (each2_ok _ _ _ _ _ E) as (F & T & U & W).
  destruct F as (F1 & F2 & F3 & F4 & F5 & F6 & F7).
  assert (CF' : frame2 s s1) by (repeat split; auto).
  assert (Co1 : cols1 C s1) by (unfold cols1 in *; rewrite F1, F2, F3, F7; exact Co).
  assert (G1' : forall i, 0 <= i <= r_maxn C -> good1 C s1 i).
  { intros i Hi. specialize (G1 i Hi). unfold good1, tab1, cands1 in *. rewrite F1, F2, F3, F5, F6. exact G1. }
  assert (C2' : cols2 C s1) by (unfold cols2 in *; rewrite F4; exact C2).
  assert (Z0' : out2 s1 0 = None). { destruct (U 0) as (_ & Q); [rewrite span_in; lia|]. congruence. }
  assert (G2' : forall i, 1 <= i <= r_maxarea C -> good2 C s1 i).
  { intros i Hi. destruct (in_dec Z.eq_dec i (span lo hi)) as [X|X]; [left; auto|]. destruct (U i X) as (U1 & U2). rewrite span_in in X.
    destruct (G i Hi X) as [Q|(Q1 & Q2 & Q3)]; [left; eapply tab2_keep; eauto|right; rewrite U1, U2; auto]. }
  destruct (Bool.eqb (is_attached C s1) (attached s1)) eqn:B.
  - apply eqb_prop in B. exists s1, o1. split; [reflexivity|]. split; [split; auto|]. split; [split; [congruence|intros _; repeat split; auto; apply C2']|].
    split; [congruence|]. split; [auto|]. split; [intros i N; congruence|exact W].
  - pose proof Co1 as (N & (v & Gv & S) & Fc & Ec). rewrite Gv.
    set (att := is_attached C s1) in *. set (x := if att then (0, 0) else INF).
    set (s2 := setl1 (setatt s1 att) (dset keqb (l1 s1) ASelf (upd v 0 x))).
    assert (Co2 : cols1 C s2).
    { split; [apply NoDup_dset; [apply keqb_decides|auto]|]. split; [|split; [|exact Ec]].
      - exists (upd v 0 x). split; [apply dget_dset_same; apply keqb_decides|]. intros i Hi. cbn [s2 setl1 setatt attached].
        destruct CF as (CF1 & _). destruct (Z.eq_dec i 0) as [->|Ni].
        + rewrite upd_same. destruct (Z.eqb_spec 0 (r_tid C)); [lia|]. rewrite Z.eqb_refl. cbn [orb]. rewrite andb_true_r. reflexivity.
        + rewrite upd_other by auto. rewrite (S i Hi). destruct (Z.eqb_spec i 0); [lia|]. rewrite !andb_false_r. reflexivity.
      - intros k w Hk Nk i. cbn [s2 setl1 l1] in Hk. apply in_dset in Hk. destruct Hk as [(-> & _)|[(_ & Q)|Q]]; [contradiction| |]; apply (Fc k w Q Nk). }
    assert (I2 : inv2 C s2).
    { split; [congruence|]. intros _. split; [exact C2'|]. split; [exact G2'|]. split; [exact Z0'|]. reflexivity. }
    destruct (route_ok C s2 0 0 Co2 I2 ltac:(lia)) as (s3 & o3 & R & I1' & I2' & K1 & K2 & K3 & K4).
    { intros i Hi Ni. specialize (G1' i Hi).
      assert (Q : cands1 s2 i = cands1 s1 i) by (unfold cands1; cbn [s2 setl1 setatt l1 ecol eadj]; f_equal; apply map_dset_upd; [exact Gv|lia]).
      unfold good1, tab1 in *. rewrite Q. exact G1'. }
    rewrite R. cbn [bind]. exists s3, (o1 ++ OSrm 0 :: o3). split; [reflexivity|]. split; [auto|]. split; [auto|].
    split. { rewrite K1. cbn [s2 setl1 l1]. rewrite dkeys_dset_old by (eapply dget_keys; eauto). congruence. }
    split; [rewrite K2; cbn [s2 setl1 setatt l2]; auto|]. split.
    + intros i Ni. apply in_or_app. right. right. apply K3. cbn [s2 setl1 setatt min1]. congruence.
    + intros i Ni. apply in_or_app. left. apply W. rewrite K4 in Ni. exact Ni.
Qed.
Definition ghost (C : rcfg) (u : ups) (s : rst) : Prop :=
  (forall k, In k (dkeys (l1 s)) -> k = ASelf \/ exists t, In (k, t) u /\ is_router t = true) /\
  (r_l2 C = true -> forall k, In k (dkeys (l2 s)) -> k = ASelf \/ In (k, NL2) u) /\
  (forall c a n t, In (ANbr c a n, t) u -> is_router t = true -> a = r_home C -> In (ANbr c a n) (dkeys (l1 s))) /\
  (r_l2 C = true -> forall c a n, In (ANbr c a n, NL2) u -> In (ANbr c a n) (dkeys (l2 s))).
Lemma add1 : forall C s k, cfg_ok C -> k <> ASelf -> inv1 C s -> ~ In k (dkeys (l1 s)) -> inv1 C (setl1 s (dset keqb (l1 s) k infvec)).
Proof.
  intros C s k CF Nk ((N & (v & G & S) & F & E) & T) Nin. split.
  - split; [apply NoDup_dset; [apply keqb_decides|auto]|]. split; [|split; [|exact E]].
    + exists v. split; [|exact S]. cbn [setl1 l1]. rewrite dget_dset_other; auto. apply keqb_decides.
    + intros k' w H Nk' i. cbn [setl1 l1] in H. apply in_dset in H. destruct H as [(_ & ->)|[(_ & Q)|Q]]; [unfold infvec, INF, INFCOST; cbn [snd]; lia| |]; apply (F k' w Q Nk').
  - intros i Hi. specialize (T i Hi).
    assert (Q : decide (r_maxhops C) (r_maxcost C) (cands1 (setl1 s (dset keqb (l1 s) k infvec)) i) = decide (r_maxhops C) (r_maxcost C) (cands1 s i)).
    { unfold cands1. cbn [setl1 l1 ecol eadj]. rewrite dset_new by auto. rewrite map_app. cbn [map fst snd]. unfold infvec at 1.
      rewrite app_comm_cons. apply decide_inf. apply CF. }
    unfold good1, tab1 in *. rewrite Q. exact T.
Qed.
Lemma add2 : forall C s k, cfg_ok C -> k <> ASelf -> r_l2 C = true -> inv2 C s -> ~ In k (dkeys (l2 s)) -> inv2 C (setl2 s (dset keqb (l2 s) k infvec)).
Proof.
  intros C s k CF Nk L (_ & I) Nin. destruct (I L) as ((N & (v & G & S) & F) & T & Z0 & A). split; [congruence|]. intros _. split; [|split; [|split; [exact Z0|exact A]]].
  - split; [apply NoDup_dset; [apply keqb_decides|auto]|]. split.
    + exists v. split; [|exact S]. cbn [setl2 l2]. rewrite dget_dset_other; auto. apply keqb_decides.
    + intros k' w H Nk' i. cbn [setl2 l2] in H. apply in_dset in H. destruct H as [(_ & ->)|[(_ & Q)|Q]]; [unfold infvec, INF, INFCOST; cbn [snd]; lia| |]; apply (F k' w Q Nk').
  - intros i Hi. specialize (T i Hi).
    assert (Q : decide (r_maxhops C) (r_maxcost C) (cands2 (setl2 s (dset keqb (l2 s) k infvec)) i) = decide (r_maxhops C) (r_maxcost C) (cands2 s i)).
    { unfold cands2. cbn [setl2 l2]. rewrite dset_new by auto. rewrite map_app. cbn [map fst snd]. unfold infvec at 1. apply decide_inf. apply CF. }
    unfold good2, tab2 in *. rewrite Q. exact T.
Qed.
(** End node entries. *)
Lemma end_ok : forall C s tid f a, inv1 C s -> inv2 C s -> 1 <= tid <= r_maxn C -> (a = None -> f = INF) -> 1 <= snd f -> a <> Some ASelf ->
  exists s' o, route C (setend s (upd (ecol s) tid f) (upd (eadj s) tid a)) tid tid = Ok (s', o) /\ inv1 C s' /\ inv2 C s' /\
    l1 s' = l1 s /\ l2 s' = l2 s /\ flags s s' o.
Proof.
  intros C s tid f a ((N & S & F & E) & T) I2 Hn H0 H1 H1'.
  destruct (route_ok C (setend s (upd (ecol s) tid f) (upd (eadj s) tid a)) tid tid) as (s' & o & R & A & B & K1 & K2 & K3 & K4).
  - split; [exact N|]. split; [exact S|]. split; [exact F|]. intros i. cbn [setend ecol eadj]. unfold upd. destruct (i =? tid); [auto|apply E].
  - exact I2.
  - lia.
  - intros i Hi Ni. specialize (T i Hi). unfold good1, tab1, cands1 in *. cbn [setend ecol eadj l1 min1 out1]. rewrite !upd_other by lia. exact T.
  - exists s', o. split; [exact R|]. split; [auto|]. split; [auto|]. split; [auto|]. split; [auto|]. split; [exact K3|]. intros i X. rewrite K4 in X. exfalso. apply X. reflexivity.
Qed.
Lemma flags_refl : forall s o, flags s s o.
Proof. intros. split; intros i N; exfalso; apply N; reflexivity. Qed.
Lemma up_ok : forall C u s c a n t, cfg_ok C -> inv1 C s -> inv2 C s -> ghost C u s -> ~ In (ANbr c a n) (map fst u) ->
  (is_router t = true \/ 1 <= n <= r_maxn C) ->
  exists s' o, adj_up C s c a n t = Ok (s', o) /\ inv1 C s' /\ inv2 C s' /\ ghost C ((ANbr c a n, t) :: u) s' /\ flags s s' o.
Proof.
  intros C u s c a n t CF I1 I2 (H1 & H2 & H3 & H4) Nu R. set (k := ANbr c a n) in *.
  assert (Nu' : forall t', ~ In (k, t') u) by (intros t' X; apply Nu; change k with (fst (k, t')); apply in_map; auto).
  assert (N1 : ~ In k (dkeys (l1 s))) by (intros X; apply H1 in X; destruct X as [X|(t' & X & _)]; [discriminate|eapply Nu'; eauto]).
  assert (N2 : r_l2 C = true -> ~ In k (dkeys (l2 s))) by (intros L X; apply H2 in X; auto; destruct X; [discriminate|eapply Nu'; eauto]).
  unfold adj_up. fold k. set (s0 := if r_l2 C && is_l2 t then setl2 s (dset keqb (l2 s) k infvec) else s).
  assert (J1 : inv1 C s0) by (unfold s0; destruct (r_l2 C && is_l2 t); exact I1).
  assert (J2 : inv2 C s0).
  { unfold s0. destruct (r_l2 C) eqn:L; [|exact I2]. destruct (is_l2 t); [|exact I2]. apply add2; auto. discriminate. }
  assert (E1 : l1 s0 = l1 s) by (unfold s0; destruct (r_l2 C && is_l2 t); reflexivity).
  assert (M1 : min1 s0 = min1 s) by (unfold s0; destruct (r_l2 C && is_l2 t); reflexivity).
  assert (M2 : min2 s0 = min2 s) by (unfold s0; destruct (r_l2 C && is_l2 t); reflexivity).
  assert (E2 : forall x, In x (dkeys (l2 s0)) <-> (r_l2 C = true /\ is_l2 t = true /\ x = k) \/ In x (dkeys (l2 s))).
  { intros x. unfold s0. destruct (r_l2 C), (is_l2 t); cbn [andb setl2 l2]; rewrite ?(dkeys_dset keqb keqb_decides); intuition congruence. }
  destruct (is_router t) eqn:Rt.
  - destruct (Z.eqb_spec a (r_home C)) as [Ea|Ea]; cbn [negb bind].
    + eexists _, _. split; [reflexivity|]. split; [apply add1; auto; [discriminate|congruence]|]. split; [exact J2|]. split.
      2: { split; cbn [setl1 min1 min2]; rewrite ?M1, ?M2; intros i X; exfalso; apply X; reflexivity. }
      split; [|split; [|split]].
      * intros x Hx. cbn [setl1 l1] in Hx. apply (dkeys_dset keqb keqb_decides) in Hx. rewrite E1 in Hx. destruct Hx as [->|Hx]; [right; exists t; split; [left; auto|auto]|]. destruct (H1 x Hx) as [|(t' & Q & Q')]; auto. right. exists t'. split; [right; auto|auto].
      * intros L x Hx. cbn [setl1 l2] in Hx. apply E2 in Hx. destruct Hx as [(_ & Tt & ->)|Hx]; [right; left; destruct t; try discriminate Tt; reflexivity|]. destruct (H2 L x Hx); auto. right. right. auto.
      * intros c' a' n' t' [X|X] Rr Ea'; cbn [setl1 l1]; apply (dkeys_dset keqb keqb_decides); [left; injection X as X1 X2 X3 X4; unfold k; congruence|right; rewrite E1; eapply H3; eauto].
      * intros L c' a' n' [X|X]; cbn [setl1 l2]; apply E2; [left; injection X as X1 X2 X3 X4; subst t; repeat split; auto; unfold k; congruence|right; apply H4; auto].
    + eexists _, _. split; [reflexivity|]. split; [auto|]. split; [auto|]. split.
      2: { split; rewrite ?M1, ?M2; intros i X; exfalso; apply X; reflexivity. }
      split; [|split; [|split]].
      * intros x Hx. rewrite E1 in Hx. destruct (H1 x Hx) as [|(t' & Q & Q')]; auto. right. exists t'. split; [right; auto|auto].
      * intros L x Hx. apply E2 in Hx. destruct Hx as [(_ & Tt & ->)|Hx]; [right; left; destruct t; try discriminate Tt; reflexivity|]. destruct (H2 L x Hx); auto. right. right. auto.
      * intros c' a' n' t' [X|X] Rr Ea'; [injection X as X1 X2 X3 X4; congruence|rewrite E1; eapply H3; eauto].
      * intros L c' a' n' [X|X]; apply E2; [left; injection X as X1 X2 X3 X4; subst t; repeat split; auto; unfold k; congruence|right; apply H4; auto].
  - destruct R as [R|R]; [discriminate|]. destruct (Z.ltb_spec (r_maxn C) n); [lia|].
    destruct (end_ok C s0 n (1, r_cost C c) (Some k) J1 J2 R) as (s' & o & Ro & A & B & K1 & K2 & K3); [discriminate|apply CF|discriminate|].
    rewrite Ro. cbn [bind]. eexists _, _. split; [reflexivity|]. split; [auto|]. split; [auto|].
    assert (T2 : is_l2 t = false) by (destruct t; try reflexivity; discriminate). split.
    + split; [|split; [|split]].
      * intros x Hx. rewrite K1, E1 in Hx. destruct (H1 x Hx) as [|(t' & Q & Q')]; auto. right. exists t'. split; [right; auto|auto].
      * intros L x Hx. rewrite K2 in Hx. apply E2 in Hx. destruct Hx as [(_ & X & _)|Hx]; [congruence|]. destruct (H2 L x Hx); auto. right. right. auto.
      * intros c' a' n' t' [X|X] Rr Ea'; [injection X as X1 X2 X3 X4; congruence|rewrite K1, E1; eapply H3; eauto].
      * intros L c' a' n' [X|X]; rewrite K2; apply E2; [injection X as X1 X2 X3 X4; subst t; discriminate|right; apply H4; auto].
    + destruct K3 as (K3 & K4). split; intros i X; apply in_or_app; left; [apply K3|apply K4]; rewrite ?M1, ?M2; auto.
Qed.
Lemma in_ddel : forall (d : dict key vec) k k' w, In (k', w) (ddel keqb d k) -> In (k', w) d.
Proof.
  induction d as [|(k0, v0) d IH]; intros k k' w H; cbn [ddel] in H; [destruct H|]. destruct (keqb k k0); [right; eapply IH; eauto|].
  destruct H as [H|H]; [left; auto|right; eapply IH; eauto].
Qed.
Lemma in_drop : forall u k x t, In (x, t) (drop u k) <-> In (x, t) u /\ x <> k.
Proof.
  intros. unfold drop. rewrite filter_In. cbn [fst]. split; intros (A & B); split; auto.
  - intros ->. rewrite (proj2 (keqb_decides k k) eq_refl) in B. discriminate.
  - rewrite (decides_neq _ keqb keqb_decides k x); auto.
Qed.
Lemma in_drop_keys : forall u k x, In x (map fst u) -> x <> k -> In x (map fst (drop u k)).
Proof. intros u k x H N. apply in_map_iff in H. destruct H as ((y, t) & <- & H). cbn [fst] in *. change y with (fst (y, t)). apply in_map. apply in_drop. auto. Qed.
Lemma flags_trans : forall a b c o o', flags a b o -> flags b c o' -> flags a c (o ++ o').
Proof.
  intros a b c o o' (A1 & A2) (B1 & B2). split; intros i N; apply in_or_app.
  - destruct (pair_dec (min1 b i) (min1 a i)) as [E|E]; [right; apply B1; congruence|left; auto].
  - destruct (pair_dec (min2 b i) (min2 a i)) as [E|E]; [right; apply B2; congruence|left; auto].
Qed.
Lemma down_ok : forall C u s c a n t, cfg_ok C -> inv1 C s -> inv2 C s -> ghost C u s ->
  (forall t', In (ANbr c a n, t') u -> t' = t) -> (is_router t = true \/ 1 <= n <= r_maxn C) ->
  exists s' o, adj_down C s c a n t = Ok (s', o) /\ inv1 C s' /\ inv2 C s' /\ ghost C (drop u (ANbr c a n)) s' /\ flags s s' o.
Proof.
  intros C u s c a n t CF I1 I2 (H1 & H2 & H3 & H4) Ty R. set (k := ANbr c a n) in *.
  unfold adj_down. fold k.
  (* level 1 *)
  assert (P : exists s1 o1, (if is_router t then route C (setl1 s (ddel keqb (l1 s) k)) 0 (r_maxn C)
       else if r_maxn C <? n then Err EIndex
       else route C (setend s (upd (ecol s) n INF) (upd (eadj s) n None)) n n) = Ok (s1, o1) /\
     inv1 C s1 /\ inv2 C s1 /\ flags s s1 o1 /\ l2 s1 = l2 s /\ l1 s1 = if is_router t then ddel keqb (l1 s) k else l1 s).
  { destruct (is_router t) eqn:Rt.
    - destruct (route_ok C (setl1 s (ddel keqb (l1 s) k)) 0 (r_maxn C)) as (s1 & o1 & Ro & A & B & K1 & K2 & K3 & K4).
      + destruct I1 as ((N & (v & G & S) & F & E) & _). split; [apply NoDup_ddel; [apply keqb_decides|auto]|]. split; [|split; [|exact E]].
        * exists v. split; [|exact S]. cbn [setl1 l1]. rewrite dget_ddel_other; auto; [apply keqb_decides|discriminate].
        * intros k' w Hk. cbn [setl1 l1] in Hk. apply in_ddel in Hk. apply F. auto.
      + exact I2.
      + lia.
      + intros i Hi Ni. lia.
      + exists s1, o1. split; [exact Ro|]. split; [auto|]. split; [auto|]. split; [split; [exact K3|intros i X; rewrite K4 in X; exfalso; apply X; reflexivity]|]. auto.
    - destruct R as [R|R]; [discriminate|]. destruct (Z.ltb_spec (r_maxn C) n); [lia|].
      destruct (end_ok C s n INF None I1 I2 R) as (s' & o & Ro & A & B & K1 & K2 & K3); [auto|unfold INF, INFCOST; cbn [snd]; lia|discriminate|].
      exists s', o. auto 10. }
  destruct P as (s1 & o1 & -> & J1 & J2 & Fl & E2 & E1). cbn [bind].
  assert (Hl1 : forall x, In x (dkeys (l1 s1)) -> x = ASelf \/ exists t, In (x, t) (drop u k) /\ is_router t = true).
  { intros x Hx. rewrite E1 in Hx. destruct (is_router t) eqn:Rt.
    - apply (dkeys_ddel keqb keqb_decides) in Hx. destruct Hx as (Nx & Hx). destruct (H1 x Hx) as [|(t' & Q & Q')]; auto. right. exists t'. split; [apply in_drop; auto|auto].
    - destruct (H1 x Hx) as [|(t' & Q & Q')]; auto. right. exists t'. split; [apply in_drop; split; auto|auto]. intros ->. rewrite (Ty t' Q) in Q'. congruence. }
  assert (Hl1' : forall c' a' n' t', In (ANbr c' a' n', t') (drop u k) -> is_router t' = true -> a' = r_home C -> In (ANbr c' a' n') (dkeys (l1 s1))).
  { intros c' a' n' t' Q Q' Ea. apply in_drop in Q. destruct Q as (Q & Nk). pose proof (H3 _ _ _ _ Q Q' Ea) as W. rewrite E1.
    destruct (is_router t); auto. apply (dkeys_ddel keqb keqb_decides). auto. }
  destruct (r_l2 C) eqn:L; cbn [andb].
  2: { exists s1, o1. split; [reflexivity|]. split; auto. split; auto. split; auto. split; [exact Hl1|]. split; [congruence|]. split; [exact Hl1'|]. congruence. }
  destruct (is_l2 t) eqn:T2.
  2: { exists s1, o1. split; [reflexivity|]. split; auto. split; auto. split; auto. split; [exact Hl1|]. split; [|split; [exact Hl1'|]].
    - intros _ x Hx. rewrite E2 in Hx. destruct (H2 eq_refl x Hx) as [|Q]; auto. right. apply in_drop. split; auto. intros ->. rewrite <- (Ty NL2 Q) in T2. discriminate.
    - intros _ c' a' n' Q. rewrite E2. apply in_drop in Q. apply H4; auto. apply Q. }
  destruct J2 as (_ & J2). destruct (J2 L) as ((N & (v & G & S) & F) & T & Z0 & A).
  destruct (aroute_ok C (setl2 s1 (ddel keqb (l2 s1) k)) 1 (r_maxarea C) CF L) as (s2 & o2 & Ro & B1 & B2 & K1 & K2 & K3); auto.
  - split; [apply NoDup_ddel; [apply keqb_decides|auto]|]. split.
    + exists v. split; [|exact S]. cbn [setl2 l2]. rewrite dget_ddel_other; auto; [apply keqb_decides|discriminate].
    + intros k' w Hk. cbn [setl2 l2] in Hk. apply in_ddel in Hk. apply F. auto.
  - lia.
  - intros i Hi Ni. lia.
  - rewrite Ro. cbn [bind]. exists s2, (o1 ++ o2). split; [reflexivity|]. split; auto. split; auto. split.
    + split; [|split; [|split]].
      * rewrite K1. exact Hl1.
      * intros _ x Hx. rewrite K2 in Hx. cbn [setl2 l2] in Hx. apply (dkeys_ddel keqb keqb_decides) in Hx. rewrite E2 in Hx. destruct Hx as (Nx & Hx).
        destruct (H2 eq_refl x Hx) as [|Q]; auto. right. apply in_drop. auto.
      * rewrite K1. exact Hl1'.
      * intros _ c' a' n' Q. rewrite K2. cbn [setl2 l2]. apply (dkeys_ddel keqb keqb_decides). rewrite E2. apply in_drop in Q. split; [apply Q|apply H4; auto; apply Q].
    + eapply flags_trans; eauto.
Qed.
Lemma dget_some : forall (d : dict key vec) k, In k (dkeys d) -> exists v, dget keqb d k = Some v.
Proof. intros d k H. destruct (dget keqb d k) as [v|] eqn:E; [eauto|]. apply (dget_none keqb keqb_decides) in E. contradiction. Qed.
Lemma msg1_ok : forall C k es s mr, cfg_ok C -> k <> ASelf -> inv1 C s -> inv2 C s -> In k (dkeys (l1 s)) ->
  Forall (fun e => 0 <= fst e /\ 1 <= snd (snd e)) es ->
  exists s' o, routemsg1 C s k mr es = Ok (s', o) /\ inv1 C s' /\ inv2 C s' /\ dkeys (l1 s') = dkeys (l1 s) /\ l2 s' = l2 s /\ flags s s' o.
Proof.
  intros C k es. induction es as [|(i, v) es IH]; intros s mr CF Nk I1 I2 Hk F; cbn [routemsg1].
  - eexists _, _. split; [reflexivity|]. split; auto. split; auto. split; auto. split; auto. apply flags_refl.
  - inversion_clear F as [|? ? F1 F2]. cbn [fst snd] in F1. destruct (Z.ltb_spec (r_maxn C) i); [apply IH; auto|].
    destruct (dget_some _ _ Hk) as (old & G). rewrite G. destruct (pair_eqb (old i) v); [apply IH; auto|].
    set (s0 := setl1 s (dset keqb (l1 s) k (upd old i v))).
    destruct (route_ok C s0 i i) as (s1 & o1 & Ro & A & B & K1 & K2 & K3 & K4).
    + destruct I1 as ((N & (w & Gw & S) & Fc & E) & _). split; [apply NoDup_dset; [apply keqb_decides|auto]|]. split; [|split; [|exact E]].
      * exists w. split; [|exact S]. cbn [s0 setl1 l1]. rewrite dget_dset_other; auto. apply keqb_decides.
      * intros k' w' H' Nk' j. cbn [s0 setl1 l1] in H'. apply in_dset in H'. destruct H' as [(-> & ->)|[(_ & Q)|Q]]; [|apply (Fc k' w' Q Nk')|apply (Fc k' w' Q Nk')].
        unfold upd. destruct (j =? i); [apply F1|]. apply (Fc k old); auto. apply (dget_in keqb keqb_decides). auto.
    + exact I2.
    + lia.
    + intros j Hj Nj. destruct I1 as (_ & T). specialize (T j Hj).
      assert (Q : cands1 s0 j = cands1 s j) by (unfold cands1; cbn [s0 setl1 l1 ecol eadj]; f_equal; apply map_dset_upd; [exact G|lia]).
      unfold good1, tab1 in *. rewrite Q. exact T.
    + rewrite Ro. cbn [bind]. assert (D1 : dkeys (l1 s1) = dkeys (l1 s)) by (rewrite K1; cbn [s0 setl1 l1]; apply dkeys_dset_old; auto).
      destruct (IH s1 mr CF Nk A B ltac:(rewrite D1; auto) F2) as (s2 & o2 & E2 & A2 & B2 & D2 & L2 & Fl). rewrite E2. cbn [bind].
      exists s2, (o1 ++ o2). split; [reflexivity|]. split; auto. split; auto. split; [congruence|]. split; [rewrite L2, K2; reflexivity|].
      eapply flags_trans; [|exact Fl]. split; [exact K3|]. intros j X. rewrite K4 in X. exfalso. apply X. reflexivity.
Qed.
Lemma msg2_ok : forall C k es s mr, cfg_ok C -> r_l2 C = true -> k <> ASelf -> inv1 C s -> inv2 C s -> In k (dkeys (l2 s)) ->
  Forall (fun e => 1 <= fst e /\ 1 <= snd (snd e)) es ->
  exists s' o, routemsg2 C s k mr es = Ok (s', o) /\ inv1 C s' /\ inv2 C s' /\ dkeys (l1 s') = dkeys (l1 s) /\ dkeys (l2 s') = dkeys (l2 s) /\ flags s s' o.
Proof.
  intros C k es. induction es as [|(i, v) es IH]; intros s mr CF L Nk I1 I2 Hk F; cbn [routemsg2].
  - eexists _, _. split; [reflexivity|]. split; auto. split; auto. split; auto. split; auto. apply flags_refl.
  - inversion_clear F as [|? ? F1 F2]. cbn [fst snd] in F1. destruct (Z.ltb_spec (r_maxarea C) i); [apply IH; auto|].
    destruct (dget_some _ _ Hk) as (old & G). rewrite G. destruct (pair_eqb (old i) v); [apply IH; auto|].
    set (s0 := setl2 s (dset keqb (l2 s) k (upd old i v))).
    destruct I2 as (_ & I2). destruct (I2 L) as ((N & (w & Gw & S) & Fc) & T & Z0 & At).
    destruct (aroute_ok C s0 i i CF L) as (s1 & o1 & Ro & A & B & K1 & K2 & K3); auto.
    + split; [apply NoDup_dset; [apply keqb_decides|auto]|]. split.
      * exists w. split; [|exact S]. cbn [s0 setl2 l2]. rewrite dget_dset_other; auto. apply keqb_decides.
      * intros k' w' H' Nk' j. cbn [s0 setl2 l2] in H'. apply in_dset in H'. destruct H' as [(-> & ->)|[(_ & Q)|Q]]; [|apply (Fc k' w' Q Nk')|apply (Fc k' w' Q Nk')].
        unfold upd. destruct (j =? i); [apply F1|]. apply (Fc k old); auto. apply (dget_in keqb keqb_decides). auto.
    + lia.
    + intros j Hj Nj. specialize (T j Hj).
      assert (Q : cands2 s0 j = cands2 s j) by (unfold cands2; cbn [s0 setl2 l2]; apply map_dset_upd; [exact G|lia]).
      unfold good2, tab2 in *. rewrite Q. exact T.
    + rewrite Ro. cbn [bind]. assert (D2 : dkeys (l2 s1) = dkeys (l2 s)) by (rewrite K2; cbn [s0 setl2 l2]; apply dkeys_dset_old; auto).
      destruct (IH s1 mr CF L Nk A B ltac:(rewrite D2; auto) F2) as (s2 & o2 & E2 & A2 & B2 & D1 & D2' & Fl). rewrite E2. cbn [bind].
      exists s2, (o1 ++ o2). split; [reflexivity|]. split; auto. split; auto. split; [rewrite D1, K1; reflexivity|]. split; [congruence|].
      eapply flags_trans; [|exact Fl]. exact K3.
Qed.
Lemma step_ok : forall C e l u s, cfg_ok C -> hist C u (e :: l) -> inv1 C s -> inv2 C s -> ghost C u s ->
  exists s' o u', rstep C s e = Ok (s', o) /\ inv1 C s' /\ inv2 C s' /\ ghost C u' s' /\ hist C u' l /\ flags s s' o.
Proof.
  intros C e l u s CF H I1 I2 Gh. inversion H as [|? c a n t ? H1 H2 HH|? c a n t ? H1 H2 HH|? c a n t ? es H1 H2 H3 HH|? c a n ? es H1 H3 HH]; subst; cbn [rstep].
  - destruct (up_ok C u s c a n t CF I1 I2 Gh H1 H2) as (s1 & o1 & -> & J1 & J2 & G & Fl). eauto 12.
  - destruct (down_ok C u s c a n t CF I1 I2 Gh H1 H2) as (s1 & o1 & -> & J1 & J2 & G & Fl). eauto 12.
  - destruct (Z.eqb_spec a (r_home C)) as [Ea|Ea].
    + pose proof Gh as (G1 & G2 & G3 & G4). destruct (msg1_ok C (ANbr c a n) es s 0 CF ltac:(discriminate) I1 I2 (G3 _ _ _ _ H1 H2 Ea) H3) as (s1 & o1 & -> & J1 & J2 & D1 & D2 & Fl).
      exists s1, o1, u. split; [reflexivity|]. split; auto. split; auto. split; [unfold ghost in *; rewrite D1, D2; exact Gh|]. auto.
    + exists s, [], u. split; [reflexivity|]. split; auto. split; auto. split; auto. split; auto. apply flags_refl.
  - destruct (r_l2 C) eqn:L.
    + pose proof Gh as (G1 & G2 & G3 & G4). destruct (msg2_ok C (ANbr c a n) es s 0 CF L ltac:(discriminate) I1 I2 (G4 L _ _ _ H1) H3) as (s1 & o1 & -> & J1 & J2 & D1 & D2 & Fl).
      exists s1, o1, u. split; [reflexivity|]. split; auto. split; auto. split; [unfold ghost in *; rewrite D1, D2; exact Gh|]. auto.
    + exists s, [], u. split; [reflexivity|]. split; auto. split; auto. split; auto. split; auto. apply flags_refl.
Qed.
Lemma steps_ok : forall C l l' u s, cfg_ok C -> hist C u (l ++ l') -> inv1 C s -> inv2 C s -> ghost C u s ->
  exists s' o u', rsteps C s l = Ok (s', o) /\ inv1 C s' /\ inv2 C s' /\ ghost C u' s' /\ hist C u' l' /\ flags s s' o.
Proof.
  intros C l l'. induction l as [|e l IH]; intros u s CF H I1 I2 Gh; cbn [app rsteps] in *.
  - exists s, [], u. split; [reflexivity|]. split; auto. split; auto. split; auto. split; auto. apply flags_refl.
  - destruct (step_ok C e (l ++ l') u s CF H I1 I2 Gh) as (s1 & o1 & u1 & -> & J1 & J2 & G & HH & Fl). cbn [bind].
    destruct (IH u1 s1 CF HH J1 J2 G) as (s2 & o2 & u2 & -> & A & B & D & E & F). cbn [bind]. exists s2, (o1 ++ o2), u2.
    split; [reflexivity|]. split; auto. split; auto. split; auto. split; auto. eapply flags_trans; eauto.
Qed.
Lemma start_ok : forall C, cfg_ok C -> inv1 C (start C) /\ inv2 C (start C) /\ ghost C [] (start C).
Proof.
  intros C (K1 & K2 & K3 & K4 & K5).
  assert (DI : forall l, Forall (fun x : cand => ccost x = INFCOST /\ chops x = INFHOPS) l -> l <> [] -> Forall cand_ok l ->
     decide (r_maxhops C) (r_maxcost C) l = (INFHOPS, INFCOST, None)).
  { intros l F N O. destruct (has_first_least l N) as (x & L). rewrite (decision _ _ _ _ (proj2 K2) O L).
    rewrite Forall_forall in F. destruct (F x (first_least_in _ _ L)) as (-> & _). destruct (Z.leb_spec INFCOST (r_maxcost C)); [lia|reflexivity]. }
  split; [|split].
  - split.
    + split; [repeat constructor; intros []|]. split; [|split].
      * exists (upd infvec (r_tid C) (0, 0)). split; [reflexivity|]. intros i Hi. cbn [start attached andb]. rewrite orb_false_r. reflexivity.
      * intros k v [H|[]] N. injection H as <- <-. contradiction.
      * intros i. cbn. split; [auto|]. unfold INFCOST. split; [lia|discriminate].
    + intros i Hi. destruct (Z.eq_dec i (r_tid C)) as [->|N].
      * right. split; [auto|]. split; [reflexivity|]. cbn [start out1]. apply upd_same.
      * left. unfold tab1, cands1. cbn [start l1 ecol eadj map fst snd min1 out1]. rewrite !upd_other by auto. apply DI; [repeat constructor|discriminate|].
        repeat constructor; unfold cand_ok; cbn; unfold INFCOST; intros; try discriminate; lia.
  - split; [reflexivity|]. intros L. specialize (K5 L). unfold start. rewrite L. split; [|split; [|split]].
    + split; [repeat constructor; intros []|]. split.
      * exists (upd infvec (r_home C) (0, 0)). split; [reflexivity|]. intros i Hi. reflexivity.
      * intros k v [H|[]] N. injection H as <- <-. contradiction.
    + intros i Hi. destruct (Z.eq_dec i (r_home C)) as [->|N].
      * right. split; [auto|]. split; [reflexivity|]. cbn [out2]. apply upd_same.
      * left. unfold tab2, cands2. cbn [l2 map fst snd min2 out2]. rewrite !upd_other by auto. apply DI; [repeat constructor|discriminate|].
        repeat constructor; unfold cand_ok; cbn; intros; discriminate.
    + cbn [out2]. apply upd_other. lia.
    + cbn [attached]. unfold is_attached. symmetry. apply not_true_iff_false. intros X. apply existsb_exists in X. destruct X as (i & Hi & X). cbn [out2] in X.
      unfold upd in X. destruct (Z.eqb_spec i (r_home C)); discriminate.
  - split; [|split; [|split]].
    + intros k [<-|[]]. auto.
    + intros L k H. cbn [start l2] in H. rewrite L in H. destruct H as [<-|[]]; auto.
    + intros c a n t [].
    + intros _ c a n [].
Qed.
(** After any history the routing tables hold the decision computed from the
    vectors then stored, at both levels, and the self check passes (the
    result is Ok).  For the node's own address and area, whose route is
    always to the node itself, the entry of the minimum vectors is either the
    decision or still the initial infinity. *)
Theorem routing_tables : forall C l, cfg_ok C -> hist C [] l ->
  exists s o, rsteps C (start C) l = Ok (s, o) /\
    (forall i, 0 <= i <= r_maxn C -> i <> r_tid C -> tab1 C s i) /\
    out1 s (r_tid C) = Some ASelf /\ (min1 s (r_tid C) = (0, 0) \/ min1 s (r_tid C) = INF) /\
    (r_l2 C = true ->
      (forall i, 1 <= i <= r_maxarea C -> i <> r_home C -> tab2 C s i) /\
      out2 s (r_home C) = Some ASelf /\ (min2 s (r_home C) = (0, 0) \/ min2 s (r_home C) = INF) /\
      (attached s = true <-> exists i k, 1 <= i <= r_maxarea C /\ i <> r_home C /\ out2 s i = Some k)).
Proof.
  intros C l CF H. destruct (start_ok C CF) as (A & B & D).
  destruct (steps_ok C l [] [] (start C) CF ltac:(rewrite app_nil_r; auto) A B D) as (s & o & u & E & (I1a & I1) & I2 & _ & _ & _). exists s, o. split; [exact E|].
  pose proof CF as (K1 & K2 & K3 & K4 & K5). split; [|split; [|split]].
  - intros i Hi N. destruct (I1 i Hi) as [Q|(Q & _)]; [auto|contradiction].
  - destruct (I1 (r_tid C) ltac:(lia)) as [Q|(_ & _ & Q)]; auto. unfold tab1 in Q. rewrite decide_self1 in Q by (auto; lia). congruence.
  - destruct (I1 (r_tid C) ltac:(lia)) as [Q|(_ & Q & _)]; auto. unfold tab1 in Q. rewrite decide_self1 in Q by (auto; lia). left.
    destruct (min1 s (r_tid C)). cbn [fst snd] in Q. congruence.
  - intros L. specialize (K5 L). destruct I2 as (_ & I2). destruct (I2 L) as (C2 & G2 & Z0 & At). split; [|split; [|split]].
    + intros i Hi N. destruct (G2 i Hi) as [Q|(Q & _)]; [auto|contradiction].
    + destruct (G2 (r_home C) ltac:(lia)) as [Q|(_ & _ & Q)]; auto. unfold tab2 in Q. rewrite decide_self2 in Q by auto. congruence.
    + destruct (G2 (r_home C) ltac:(lia)) as [Q|(_ & Q & _)]; auto. unfold tab2 in Q. rewrite decide_self2 in Q by auto. left.
      destruct (min2 s (r_home C)). cbn [fst snd] in Q. congruence.
    + rewrite At. unfold is_attached. rewrite existsb_exists. split.
      * intros (i & Hi & X). apply span_in in Hi. destruct (out2 s i) as [k|] eqn:Eo; [|discriminate]. destruct (Z.eqb_spec i (r_home C)); [discriminate|].
        exists i, k. assert (i <> 0) by (intros ->; congruence). split; [lia|auto].
      * intros (i & k & Hi & N & X). exists i. split; [apply span_in; lia|]. rewrite X. destruct (Z.eqb_spec i (r_home C)); [contradiction|reflexivity].
Qed.
Print Assumptions routing_tables.
(** Every entry of the minimum vectors that an event changes is flagged for
    transmission in a routing update on all circuits. *)
Theorem routing_changes_flagged : forall C l l', cfg_ok C -> hist C [] (l ++ l') ->
  exists s o s' o', rsteps C (start C) l = Ok (s, o) /\ rsteps C s l' = Ok (s', o') /\
    (forall i, min1 s' i <> min1 s i -> In (OSrm i) o') /\ (forall i, min2 s' i <> min2 s i -> In (OASrm i) o').
Proof.
  intros C l l' CF H. destruct (start_ok C CF) as (A & B & D).
  destruct (steps_ok C l l' [] (start C) CF H A B D) as (s & o & u & E & I1 & I2 & G & H' & _).
  destruct (steps_ok C l' [] u s CF ltac:(rewrite app_nil_r; auto) I1 I2 G) as (s' & o' & u' & E' & _ & _ & _ & _ & F1 & F2).
  exists s, o, s', o'. auto.
Qed.
Print Assumptions routing_changes_flagged.

(** *** Examples *)
Definition ex_cfg (l2r : bool) : rcfg := {| r_home := 1; r_tid := 3; r_maxn := 100; r_maxhops := 16; r_maxcost := 128;
  r_l2 := l2r; r_maxarea := 63; r_amaxhops := 30; r_amaxcost := 1022; r_cost := fun _ => 4 |}.
Lemma ex_cfg_ok : forall b, cfg_ok (ex_cfg b).
Proof. intros b. unfold cfg_ok, ex_cfg, INFCOST. cbn. repeat split; intros; lia. Qed.
(** Two routers and an end node; both routers know node 9, the cheaper path
    fails and the other one takes over. *)
Definition ex_hist : list rev := [Up 1 1 5 NL1; Msg1 1 1 5 [(5, (1, 4)); (9, (2, 8))]; Up 2 1 6 NL2; Up 2 1 20 NEnd;
  Msg1 2 1 6 [(6, (1, 4)); (9, (3, 12)); (3, (32, 1027))]; Msg2 2 1 6 [(1, (1, 4)); (2, (2, 8))]].
Lemma ex_hist_ok : hist (ex_cfg true) [] (ex_hist ++ [Down 1 1 5 NL1]).
Proof.
  unfold ex_hist. cbn [app]. 
  repeat (first [apply h_nil | apply h_up; [cbn; intuition discriminate|cbn; auto; right; lia|] |
    eapply h_down; [cbn; intros t' [X|[X|[X|[]]]]; congruence|left; reflexivity|] |
    eapply h_msg1; [cbn; eauto|reflexivity|repeat constructor; cbn; lia|] |
    apply h_msg2; [cbn; eauto|repeat constructor; cbn; lia|]]).
Qed.
Example routing_example :
  match rsteps (ex_cfg true) (start (ex_cfg true)) ex_hist with
  | Ok (s, o) => min1 s 9 = (2, 8) /\ out1 s 9 = Some (ANbr 1 1 5) /\ min1 s 20 = (1, 4) /\ out2 s 2 = Some (ANbr 2 1 6) /\
      attached s = true /\ min1 s 3 = (0, 0) /\
      match rsteps (ex_cfg true) s [Down 1 1 5 NL1] with
      | Ok (s', o') => min1 s' 9 = (3, 12) /\ out1 s' 9 = Some (ANbr 2 1 6) /\ o' = [OSrm 5; OReach 5 false; OSrm 9]
      | Err _ => False
      end
  | Err _ => False
  end.
Proof. vm_compute. repeat split. Qed.

(** *** What does not hold *)
(** The own entry: the self column is set up without running the decision, so
    until a neighbour mentions this node, or a router adjacency goes down, the
    node advertises itself as unreachable. *)
Theorem routing_own_refuted : exists l, hist (ex_cfg false) [] l /\
  match rsteps (ex_cfg false) (start (ex_cfg false)) l with
  | Ok (s, o) => min1 s 3 = INF /\ decide 16 128 (cands1 s 3) = (0, 0, Some ASelf) /\ In (OSrmC 1 0 100) o
  | Err _ => False
  end.
Proof.
  exists [Up 1 1 5 NL1]. split; [apply h_up; [cbn; auto|cbn; auto|apply h_nil]|]. vm_compute. auto.
Qed.
(** An end node whose number is above the maximum makes the code fail; the
    LAN circuit does not test the number (route_eth.py:531-546). *)
Theorem routing_endnode_crash_refuted : forall s, rstep (ex_cfg false) s (Up 1 1 200 NEnd) = Err EIndex.
Proof. intros. reflexivity. Qed.
(** So does a routing message from an end node on a LAN, and a level 2
    message from a level 1 router (route_eth.py:643-669). *)
Theorem routing_message_crash_refuted :
  (let* (s, _) := rsteps (ex_cfg true) (start (ex_cfg true)) [Up 1 1 5 NEnd] in rstep (ex_cfg true) s (Msg1 1 1 5 [(9, (2, 8))])) = Err EAttr /\
  (let* (s, _) := rsteps (ex_cfg true) (start (ex_cfg true)) [Up 1 1 5 NL1] in rstep (ex_cfg true) s (Msg2 1 1 5 [(9, (2, 8))])) = Err EAttr.
Proof. split; vm_compute; reflexivity. Qed.
(** Level 2 routing applies the level 1 limits: an area within the area
    limits is recorded as unreachable. *)
Theorem routing_area_limit_refuted : 
  match rsteps (ex_cfg true) (start (ex_cfg true)) [Up 1 2 5 NL2; Msg2 1 2 5 [(7, (3, 200))]] with
  | Ok (s, _) => out2 s 7 = None /\ In (3, 200, Some (ANbr 1 2 5)) (cands2 s 7) /\ 200 <= r_amaxcost (ex_cfg true) /\ 3 <= r_amaxhops (ex_cfg true)
  | Err _ => False
  end.
Proof. vm_compute. split; [reflexivity|]. split; [auto|]. split; discriminate. Qed.
(** An end node known on two circuits: when the first one goes down the node
    becomes unreachable although the second is up. *)
Theorem routing_two_endnodes_refuted :
  match rsteps (ex_cfg false) (start (ex_cfg false)) [Up 1 1 7 NEnd; Up 2 1 7 NEnd; Down 1 1 7 NEnd] with
  | Ok (s, _) => out1 s 7 = None
  | Err _ => False
  end.
Proof. vm_compute. reflexivity. Qed.
(** Entries above the maximum that are unreachable count as lost: the
    generator has added the circuit's hop and cost before the test. *)
Theorem routing_loss_refuted :
  match rsteps (ex_cfg false) (start (ex_cfg false)) [Up 1 1 5 NL1; Msg1 1 1 5 [(150, (INFHOPS + 1, INFCOST + 4))]] with
  | Ok (_, o) => In (OLoss 150) o
  | Err _ => False
  end.
Proof. vm_compute. auto. Qed.
