(** Convergence of the routing tables (C25). *)
From Coq Require Import Sorted.
From Verif Require Import Base Dict RoutingModel RoutingProps ForwardModel ForwardProps DvModel.

(** ** Abstract part: one destination, all routers
    sk n lists the columns of router n: a fixed candidate, or the column of a
    neighbour m over a circuit of cost w.  view t n is the list of candidates
    of n at time t; the value of n is the decision over it. *)
Definition col : Type := cand + (Z * Z * key).
Section Conv.
Variables (nd : Z -> Prop) (mh mc : Z -> Z) (sk : Z -> list col) (view : nat -> Z -> list cand).
Definition val (t : nat) (n : Z) : cand := decide (mh n) (mc n) (view t n).
Definition shift (x : cand) (w : Z) (k : key) : cand := (chops x + 1, ccost x + w, Some k).
(** The candidate y of column x comes from a value its sender had at time T
    or later. *)
Definition recent (T : nat) (x : col) (y : cand) : Prop :=
  match x with
  | inl c => y = c
  | inr (m, w, k) => exists t, (T <= t)%nat /\ y = shift (val t m) w k
  end.
Definition fresh (T T' : nat) : Prop := forall t n, (T' <= t)%nat -> nd n -> Forall2 (recent T) (sk n) (view t n).
Hypothesis Hmc : forall n, nd n -> 0 <= mc n < INFCOST.
Hypothesis Hsk : forall n m w k, nd n -> In (inr (m, w, k)) (sk n) -> nd m /\ 1 <= w.
Hypothesis Hok : forall t n, nd n -> Forall cand_ok (view t n).
Hypothesis Hpos : forall t n, nd n -> Forall (fun y => 0 <= ccost y) (view t n).

Definition limit (n : Z) (b : cand) : cand := if (ccost b <=? mc n) && (chops b <=? mh n) then b else (INFHOPS, INFCOST, None).
Definition settled (k : Z) (T : nat) (B : Z -> option cand) : Prop :=
  forall t n, (T <= t)%nat -> nd n ->
    match B n with Some b => first_least (view t n) b | None => Forall (fun y => k <= ccost y) (view t n) end.
Lemma val_settled : forall k T B t n b, settled k T B -> (T <= t)%nat -> nd n -> B n = Some b -> val t n = limit n b.
Proof. intros k T B t n b S Ht Hn E. specialize (S t n Ht Hn). rewrite E in S. unfold val, limit. apply decision; auto. apply Hmc. auto. Qed.
Lemma val_low : forall k T B t n, settled k T B -> (T <= t)%nat -> nd n -> B n = None -> k <= INFCOST -> k <= ccost (val t n).
Proof.
  intros k T B t n S Ht Hn E Hk. specialize (S t n Ht Hn). rewrite E in S. unfold val. destruct (view t n) as [|y l] eqn:V.
  - unfold decide. cbn [pick]. destruct ((mc n <? INFCOST) || (mh n <? INFHOPS)); exact Hk.
  - destruct (has_first_least (y :: l)) as (x & L); [discriminate|]. pose proof (Hok t n Hn) as O. rewrite V in O.
    rewrite (decision _ _ _ x (proj2 (Hmc n Hn)) O L). destruct ((ccost x <=? mc n) && (chops x <=? mh n)); [|exact Hk].
    rewrite Forall_forall in S. apply S. apply first_least_in. auto.
Qed.
(** The candidate of a column once its sender is settled. *)
Definition known (B : Z -> option cand) (x : col) : option cand :=
  match x with
  | inl c => Some c
  | inr (m, w, k) => match B m with Some b => Some (shift (limit m b) w k) | None => None end
  end.
Definition pick_known (k : Z) (l : list (option cand)) : option cand :=
  match find (fun x => match x with Some c => ccost c =? k | None => false end) l with Some (Some c) => Some c | _ => None end.
Lemma known_recent : forall k T B n x y, settled k T B -> nd n -> In x (sk n) -> recent T x y -> k < INFCOST ->
  match known B x with Some c => y = c | None => k + 1 <= ccost y end.
Proof.
  intros k T B n x y S Hn Hx R Hk. destruct x as [c|((m, w), q)]; cbn [known recent] in *; [exact R|].
  destruct (Hsk n m w q Hn Hx) as (Hm & Hw). destruct R as (t & Ht & ->). destruct (B m) as [b|] eqn:E.
  - rewrite (val_settled k T B t m b S Ht Hm E). reflexivity.
  - pose proof (val_low k T B t m S Ht Hm E ltac:(lia)). unfold shift, ccost at 1. cbn [fst snd]. lia.
Qed.
Lemma pick_known_ok : forall k l v, Forall2 (fun x y => match x with Some c => y = c | None => k + 1 <= ccost y end) l v ->
  Forall (fun y => k <= ccost y) v ->
  match pick_known k l with Some b => first_least v b | None => Forall (fun y => k + 1 <= ccost y) v end.
Proof.
  intros k l v F. unfold pick_known. induction F as [|x y l v R F IH]; intros P; cbn [find]; [constructor|].
  inversion_clear P as [|? ? P1 P2]. specialize (IH P2). destruct x as [c|].
  - subst y. destruct (Z.eqb_spec (ccost c) k) as [E|E].
    + exists [], v. split; [reflexivity|]. split; [constructor|]. rewrite E. exact P2.
    + destruct (find _ l) as [[b|]|] eqn:Ef.
      * destruct IH as (a & b' & Ev & A1 & A2). exists (c :: a), b'. split; [rewrite Ev; reflexivity|]. split; [|auto]. constructor; [|auto].
        apply find_some in Ef as (_ & Ef). lia.
      * constructor; [lia|auto].
      * constructor; [lia|auto].
  - destruct (find _ l) as [[b|]|] eqn:Ef; try (constructor; [lia|auto]).
    destruct IH as (a & b' & Ev & A1 & A2). exists (y :: a), b'. split; [rewrite Ev; reflexivity|]. split; [|auto]. constructor; [|auto].
    apply find_some in Ef as (_ & Ef). lia.
Qed.
Lemma Forall2_in_left : forall A B (P : A -> B -> Prop) (Q : A -> B -> Prop) l v,
  Forall2 P l v -> (forall x y, In x l -> P x y -> Q x y) -> Forall2 Q l v.
Proof. intros A B P Q l v F. induction F; intros H1; constructor; [apply H1; [left|]; auto|]. apply IHF. intros. apply H1; [right|]; auto. Qed.
Lemma Forall2_map_left : forall A B D (f : A -> D) (P : D -> B -> Prop) l v, Forall2 (fun x y => P (f x) y) l v -> Forall2 P (map f l) v.
Proof. intros A B D f P l v F. induction F; cbn [map]; constructor; auto. Qed.
Lemma settled_next : forall k T B T', settled k T B -> fresh T T' -> (T <= T')%nat -> k < INFCOST ->
  settled (k + 1) T' (fun n => match B n with Some b => Some b | None => pick_known k (map (known B) (sk n)) end).
Proof.
  intros k T B T' S F HT Hk t n Ht Hn. pose proof (S t n ltac:(lia) Hn) as Sn. destruct (B n) as [b|]; [exact Sn|].
  apply pick_known_ok; [|exact Sn]. apply Forall2_map_left. eapply Forall2_in_left; [apply F; eauto|].
  intros x y Hx R. eapply known_recent; eauto.
Qed.
(** The times of successive rounds. *)
Inductive rounds : nat -> nat -> nat -> Prop :=
  | rounds_0 : forall T, rounds 0 T T
  | rounds_S : forall r T T1 T2, rounds r T T1 -> fresh T1 T2 -> (T1 <= T2)%nat -> rounds (S r) T T2.
Lemma rounds_settled : forall r T0 T, rounds r T0 T -> Z.of_nat r <= INFCOST -> exists B, settled (Z.of_nat r) T B.
Proof.
  intros r T0 T R. induction R as [T|r T T1 T2 R IH F L]; intros H.
  - exists (fun _ => None). intros t n Ht Hn. apply Hpos. auto.
  - destruct IH as (B & S); [lia|]. eexists. rewrite Nat2Z.inj_succ. unfold Z.succ. eapply settled_next; eauto. lia.
Qed.
(** After as many rounds as the largest cost limit plus one, the values are
    fixed. *)
Theorem converges : forall M r T0 T, (forall n, nd n -> mc n <= M) -> M < INFCOST -> rounds r T0 T -> Z.of_nat r = M + 1 ->
  exists D, forall t n, (T <= t)%nat -> nd n -> val t n = D n.
Proof.
  intros M r T0 T HM HI R Hr. destruct (rounds_settled r T0 T R ltac:(lia)) as (B & S).
  exists (fun n => match B n with Some b => limit n b | None => (INFHOPS, INFCOST, None) end). intros t n Ht Hn.
  destruct (B n) as [b|] eqn:E; [eapply val_settled; eauto|]. pose proof (S t n Ht Hn) as Sn. rewrite E in Sn.
  unfold val. destruct (view t n) as [|y l] eqn:V.
  - unfold decide. cbn [pick]. destruct (Z.ltb_spec (mc n) INFCOST); [reflexivity|specialize (Hmc n Hn); lia].
  - destruct (has_first_least (y :: l)) as (x & L); [discriminate|]. pose proof (Hok t n Hn) as O. rewrite V in O.
    rewrite (decision _ _ _ x (proj2 (Hmc n Hn)) O L). rewrite Forall_forall in Sn. specialize (Sn x (first_least_in _ _ L)). specialize (HM n Hn).
    destruct (Z.leb_spec (ccost x) (mc n)); [lia|reflexivity].
Qed.
(** The fixed values satisfy the decision over the neighbours' values. *)
Definition fixed_col (D : Z -> cand) (x : col) : cand := match x with inl c => c | inr (m, w, k) => shift (D m) w k end.
Lemma fixed_point : forall D T T', (forall t n, (T <= t)%nat -> nd n -> val t n = D n) -> fresh T T' ->
  forall n, nd n -> D n = decide (mh n) (mc n) (map (fixed_col D) (sk n)) /\ Forall cand_ok (map (fixed_col D) (sk n)).
Proof.
  intros D T T' H F n Hn. assert (E : view (max T T') n = map (fixed_col D) (sk n)).
  { specialize (F (max T T') n ltac:(lia) Hn). assert (G : forall x, In x (sk n) -> forall y, recent T x y -> y = fixed_col D x).
    { intros x Hx y R. destruct x as [c|((m, w), q)]; cbn [recent fixed_col] in *; [auto|]. destruct R as (t & Ht & ->). destruct (Hsk _ _ _ _ Hn Hx). rewrite H; auto. }
    clear - F G. induction F; cbn [map]; [reflexivity|]. f_equal; [apply G; [left|]; auto|]. apply IHF. intros. apply G; [right|]; auto. }
  split; [|rewrite <- E; apply Hok; auto]. rewrite <- (H (max T T') n) by (auto; lia). unfold val. rewrite E. reflexivity.
Qed.
End Conv.

(** ** Fixed values are shortest paths *)
Section Fixed.
Variables (nd : Z -> Prop) (mh mc : Z -> Z) (sk : Z -> list col) (D : Z -> cand).
Hypothesis Hmc : forall n, nd n -> 0 <= mc n < INFCOST.
Hypothesis Hsk : forall n m w k, nd n -> In (inr (m, w, k)) (sk n) -> nd m /\ 1 <= w.
Hypothesis Hpos : forall n, nd n -> 0 <= ccost (D n).
Hypothesis Hfix : forall n, nd n -> D n = decide (mh n) (mc n) (map (fixed_col D) (sk n)) /\ Forall cand_ok (map (fixed_col D) (sk n)).
Inductive apath : Z -> Z -> Z -> Prop :=
  | ap_base : forall n h c k, In (inl (h, c, Some k)) (sk n) -> c < INFCOST -> apath n h c
  | ap_step : forall n m w k h c, In (inr (m, w, k)) (sk n) -> apath m h c -> apath n (h + 1) (c + w).
Lemma fixed_next : forall n h c k, nd n -> D n = (h, c, Some k) ->
  c <= mc n /\ h <= mh n /\ (forall y, In y (map (fixed_col D) (sk n)) -> c <= ccost y) /\
  (In (inl (h, c, Some k)) (sk n) \/
   exists m w k', In (inr (m, w, k)) (sk n) /\ D m = (h - 1, c - w, Some k')).
Proof.
  intros n h c k Hn E. destruct (Hfix n Hn) as (F & O). rewrite E in F. symmetry in F.
  destruct (decision_reachable _ _ _ _ _ _ (proj2 (Hmc n Hn)) O F) as (I & L & C1 & C2). split; [auto|]. split; [auto|]. split; [auto|].
  apply in_map_iff in I as (x & Ex & Ix). destruct x as [y|((m, w), k0)]; cbn [fixed_col] in Ex.
  - subst y. auto.
  - right. destruct (Hsk n m w k0 Hn Ix) as (Hm & Hw). destruct (D m) as ((h0, c0), a0) eqn:Em. unfold shift, chops, ccost in Ex. cbn [fst snd] in Ex.
    injection Ex as E1 E2 ->. exists m, w. destruct a0 as [k'|].
    + exists k'. split; [auto|]. rewrite Em. f_equal. f_equal; lia.
    + exfalso. destruct (Hfix m Hm) as (Fm & Om). rewrite Em in Fm. symmetry in Fm.
      destruct (decision_unreachable _ _ _ _ _ _ (proj2 (Hmc m Hm)) Om Fm) as (X & _). specialize (X eq_refl). injection X as -> ->.
      specialize (Hmc n Hn). lia.
Qed.
Lemma fixed_sound_n : forall (b : nat) n h c k, nd n -> D n = (h, c, Some k) -> c < Z.of_nat b -> apath n h c.
Proof.
  induction b as [|b IH]; intros n h c k Hn E Hb; [specialize (Hpos n Hn); rewrite E in Hpos; unfold ccost in Hpos; cbn [fst snd] in Hpos; lia|].
  destruct (fixed_next n h c k Hn E) as (C1 & C2 & _ & [I|(m & w & k' & I & Em)]).
  - apply (ap_base n h c k); auto. specialize (Hmc n Hn). lia.
  - destruct (Hsk _ _ _ _ Hn I) as (Hm & Hw). replace h with ((h - 1) + 1) by lia. replace c with ((c - w) + w) by lia. eapply ap_step; [exact I|].
    eapply IH; [auto|exact Em|lia].
Qed.
(** A finite value belongs to a path with that many hops and that cost. *)
Lemma fixed_sound : forall n h c k, nd n -> D n = (h, c, Some k) -> apath n h c.
Proof. intros n h c k Hn E. eapply (fixed_sound_n (Z.to_nat (c + 1))); eauto. specialize (Hpos n Hn). rewrite E in Hpos. unfold ccost in Hpos. cbn [fst snd] in Hpos. lia. Qed.
Definition least (n c : Z) : Prop := forall h' c', apath n h' c' -> c <= c'.
Variables (Mh Mc : Z).
Hypothesis HMc : forall n, nd n -> Mc <= mc n.
Hypothesis HMh : forall n, nd n -> Mh <= mh n.
Hypothesis Hhops : forall n h c, nd n -> apath n h c -> least n c -> c <= Mc -> h <= Mh.
Hypothesis Hbase : forall n h c k, nd n -> In (inl (h, c, Some k)) (sk n) -> 0 <= c.
Lemma apath_pos : forall n h c, apath n h c -> nd n -> 0 <= c.
Proof. intros n h c P. induction P as [n h c k I|n m w k h c I P IH]; intros Hn; [eauto|]. destruct (Hsk _ _ _ _ Hn I) as (Hm & Hw). specialize (IH Hm). lia. Qed.
Lemma fixed_optimal_n : forall (b : nat) n h c, nd n -> apath n h c -> least n c -> c <= Mc -> c < Z.of_nat b ->
  exists h' k, D n = (h', c, Some k).
Proof.
  induction b as [|b IH]; intros n h c Hn P L HC Hb; [pose proof (apath_pos n h c P Hn); lia|].
  assert (Cand : exists y, In y (map (fixed_col D) (sk n)) /\ ccost y = c).
  { inversion P as [? ? ? k I|? m w k h0 c0 I P0]; subst.
    - eexists. split; [apply in_map; exact I|reflexivity].
    - destruct (Hsk _ _ _ _ Hn I) as (Hm & Hw).
      destruct (IH m h0 c0 Hm P0) as (h1 & k1 & E); [|lia|lia|].
      + intros h' c' P'. assert (c0 + w <= c' + w) by (apply (L (h' + 1)); eapply ap_step; eauto). lia.
      + eexists. split; [apply in_map; exact I|]. cbn [fixed_col]. rewrite E. reflexivity. }
  destruct Cand as (y & Iy & Cy). destruct (Hfix n Hn) as (F & O).
  destruct (has_first_least (map (fixed_col D) (sk n))) as (x & Lx). { intros X. rewrite X in Iy. destruct Iy. }
  pose proof (first_least_all _ x y Lx Iy) as Cx. pose proof (Hmc n Hn) as Hmn. pose proof (HMc n Hn) as HMn.
  assert (Px : apath n (chops x) (ccost x) /\ snd x <> None).
  { pose proof (first_least_in _ _ Lx) as Ix. assert (N : snd x <> None). { intros N. rewrite Forall_forall in O. specialize (O x Ix N). lia. }
    split; [|exact N]. apply in_map_iff in Ix as (cx & Ec & Ic). destruct cx as [z|((m, w), k)]; cbn [fixed_col] in Ec.
    - subst z. destruct x as ((hx, cx), [kx|]); [|contradiction]. eapply ap_base; [exact Ic|]. unfold ccost in *. cbn [fst snd] in *. lia.
    - subst x. destruct (Hsk _ _ _ _ Hn Ic) as (Hm & Hw). unfold shift, ccost at 1, chops at 1. cbn [fst snd]. eapply ap_step; [exact Ic|].
      destruct (D m) as ((h0, c0), [k0|]) eqn:Em; [eapply fixed_sound; eauto|]. exfalso.
      destruct (Hfix m Hm) as (Fm & Om). rewrite Em in Fm. symmetry in Fm. 
      destruct (decision_unreachable _ _ _ _ _ _ (proj2 (Hmc m Hm)) Om Fm) as (X & _). specialize (X eq_refl). injection X as -> ->. unfold shift, ccost in *. cbn [fst snd] in *. lia. }
  destruct Px as (Px & Nx). pose proof (L _ _ Px) as Lc. assert (Ecx : ccost x = c) by lia. rewrite Ecx in Px.
  pose proof (Hhops n (chops x) c Hn Px L HC) as Hh. pose proof (HMh n Hn).
  rewrite (decision _ _ _ x (proj2 Hmn) O Lx) in F. destruct (Z.leb_spec (ccost x) (mc n)); [|lia]. destruct (Z.leb_spec (chops x) (mh n)); [|lia]. cbn [andb] in F.
  destruct x as ((hx, cx), [kx|]); [|contradiction]. exists hx, kx. rewrite F. unfold ccost in Ecx. cbn [fst snd] in Ecx. congruence.
Qed.
Lemma fixed_optimal : forall n h c, nd n -> apath n h c -> least n c -> c <= Mc -> exists h' k, D n = (h', c, Some k).
Proof. intros n h c Hn P L HC. eapply (fixed_optimal_n (Z.to_nat (c + 1))); eauto. pose proof (apath_pos n h c P Hn). lia. Qed.
End Fixed.

(** ** The effect of a routing message on the columns *)
Definition colv (s : rst) (k : key) (i : Z) : Z * Z := match dget keqb (l1 s) k with Some v => v i | None => INF end.
Definition lastv (es : list (Z * (Z * Z))) (i : Z) (old : Z * Z) : Z * Z :=
  fold_left (fun acc e => if fst e =? i then snd e else acc) es old.
Lemma cands1_colv_gen : forall (d : dict key vec) i, NoDup (dkeys d) ->
  map (fun kv => (snd kv i, Some (fst kv))) d =
  map (fun k => (match dget keqb d k with Some v => v i | None => INF end, Some k)) (dkeys d).
Proof.
  intros d i N. unfold dkeys. rewrite map_map. apply map_ext_in. intros (k, v) I. cbn [fst snd]. rewrite (in_dget keqb keqb_decides d k v N I). reflexivity.
Qed.
Lemma cands1_colv : forall C s i, cols1 C s -> cands1 s i = (ecol s i, eadj s i) :: map (fun k => (colv s k i, Some k)) (dkeys (l1 s)).
Proof. intros C s i (N & _). unfold cands1. f_equal. apply cands1_colv_gen. exact N. Qed.
Definition tabs (C : rcfg) (s : rst) : Prop := forall i, 0 <= i <= r_maxn C -> tab1 C s i.
Lemma route_tabs : forall C s i s' o, route C s i i = Ok (s', o) -> (forall j, 0 <= j <= r_maxn C -> j <> i -> tab1 C s j) ->
  tabs C s' /\ frame1 s s'.
Proof.
  intros C s i s' o R T. unfold route in R. destruct (check C s); [|discriminate]. cbn [bind] in R.
  assert (R' : each (route1 C) s (span i i) = (s', o)) by congruence.
  destruct (each1_ok _ _ _ _ _ R') as (F & A & B & _). split; [|exact F]. intros j Hj. destruct (Z.eq_dec j i) as [->|N]; [apply A; apply span_in; lia|].
  destruct (B j) as (B1 & B2); [rewrite span_in; lia|]. eapply tab1_keep; eauto.
Qed.
Lemma msg1_effect : forall C k es s mr, cfg_ok C -> k <> ASelf -> inv1 C s -> inv2 C s -> In k (dkeys (l1 s)) ->
  Forall (fun e => 0 <= fst e /\ 1 <= snd (snd e)) es -> tabs C s ->
  exists s' o, routemsg1 C s k mr es = Ok (s', o) /\ inv1 C s' /\ inv2 C s' /\ tabs C s' /\
    dkeys (l1 s') = dkeys (l1 s) /\ ecol s' = ecol s /\ eadj s' = eadj s /\ attached s' = attached s /\
    (forall i, 0 <= i <= r_maxn C -> colv s' k i = lastv es i (colv s k i)) /\
    (forall k' i, k' <> k -> colv s' k' i = colv s k' i).
Proof.
  intros C k es. induction es as [|(i, v) es IH]; intros s mr CF Nk I1 I2 Hk F T.
  - eexists _, _. split; [reflexivity|]. repeat (split; [solve [auto]|]). auto.
  - pose proof (msg1_ok C k ((i, v) :: es) s mr CF Nk I1 I2 Hk F) as (sf & of & Ef & _). inversion_clear F as [|? ? F1 F2]. cbn [fst snd] in F1.
    cbn [routemsg1] in *. unfold lastv. cbn [fold_left fst snd]. fold (lastv es).
    destruct (Z.ltb_spec (r_maxn C) i) as [Hi|Hi].
    { edestruct (IH s) as (s' & o & E & J1 & J2 & J3 & J4 & J5 & J6 & J7 & J8 & J9); eauto. exists s', o. split; [exact E|].
      repeat (split; [solve [auto]|]). split; [|auto]. intros j Hj. destruct (Z.eqb_spec i j); [lia|]. apply J8. auto. }
    destruct (dget_some _ _ Hk) as (old & G). rewrite G in *. destruct (pair_eqb (old i) v) eqn:Ev.
    { edestruct (IH s) as (s' & o & E & J1 & J2 & J3 & J4 & J5 & J6 & J7 & J8 & J9); eauto. exists s', o. split; [exact E|].
      repeat (split; [solve [auto]|]). split; [|auto]. intros j Hj. destruct (Z.eqb_spec i j) as [->|]; [|apply J8; auto]. rewrite J8 by auto.
      unfold lastv. f_equal. unfold colv. rewrite G. apply pair_eqb_eq. auto. }
    set (s0 := setl1 s (dset keqb (l1 s) k (upd old i v))) in *.
    destruct (route C s0 i i) as [(s1, o1)|] eqn:Ro; [|discriminate]. cbn [bind] in *.
    assert (Inv : inv1 C s1 /\ inv2 C s1).
    { destruct (msg1_ok C k [(i, v)] s 0 CF Nk I1 I2 Hk ltac:(constructor; auto)) as (sx & ox & Ex & Q1 & Q2 & _).
      cbn [routemsg1] in Ex. destruct (Z.ltb_spec (r_maxn C) i); [lia|]. rewrite G, Ev in Ex. fold s0 in Ex. rewrite Ro in Ex. cbn [bind Z.eqb] in Ex.
      assert (s1 = sx) by congruence. subst sx. auto. }
    destruct Inv as (A & B).
    destruct (route_tabs _ _ _ _ _ Ro) as (T1 & Fr).
    { intros j Hj N. specialize (T j Hj). assert (Q : cands1 s0 j = cands1 s j) by (unfold cands1; cbn [s0 setl1 l1 ecol eadj]; f_equal; apply map_dset_upd; [exact G|lia]).
      unfold tab1 in *. rewrite Q. exact T. }
    destruct Fr as (K1 & K2 & K3 & _ & _ & _ & K4).
    change (ecol s1 = ecol s) in K2. change (eadj s1 = eadj s) in K3. change (attached s1 = attached s) in K4.
    assert (D1 : dkeys (l1 s1) = dkeys (l1 s)) by (rewrite K1; cbn [s0 setl1 l1]; apply dkeys_dset_old; auto).
    assert (C1 : forall j, colv s1 k j = if i =? j then v else colv s k j).
    { intros j. unfold colv. rewrite K1. cbn [s0 setl1 l1]. rewrite (dget_dset_same keqb keqb_decides). rewrite G. unfold upd. rewrite Z.eqb_sym. reflexivity. }
    assert (C2 : forall k' j, k' <> k -> colv s1 k' j = colv s k' j).
    { intros k' j N. unfold colv. rewrite K1. cbn [s0 setl1 l1]. rewrite (dget_dset_other keqb keqb_decides); auto. }
    edestruct (IH s1) as (s' & o & E & J1 & J2 & J3 & J4 & J5 & J6 & J7 & J8 & J9); eauto. { rewrite D1. auto. }
    rewrite E. cbn [bind]. eexists _, _. split; [reflexivity|]. repeat (split; [solve [auto]|]). split; [congruence|]. split; [congruence|]. split; [congruence|]. split; [congruence|]. split.
    + intros j Hj. rewrite J8 by auto. rewrite C1. reflexivity.
    + intros k' j N. rewrite J9 by auto. auto.
Qed.
Lemma lastv_snap : forall s dests w i old, lastv (add_hop w (snap s dests)) i old =
  if in_dec Z.eq_dec i dests then (fst (min1 s i) + 1, snd (min1 s i) + w) else old.
Proof.
  intros s dests w i. unfold lastv, add_hop, snap. induction dests as [|d l IH]; intros old; cbn [map fold_left fst snd]; [reflexivity|].
  rewrite IH. destruct (in_dec Z.eq_dec i l) as [H|H], (in_dec Z.eq_dec i (d :: l)) as [H'|H']; cbn [In] in *; destruct (Z.eqb_spec d i); subst; try reflexivity; try tauto.
Qed.

(** ** Runs of the network *)
(** A stable network: the routers have come to their present states by any
    history, each has put its own address in its minimum vector (see
    routing_own_refuted), the router adjacencies are the links, and the links
    may still hold old messages with any contents. *)
Definition msg_ok (g : msg) : Prop := Forall (fun e => 0 <= fst e /\ 0 <= snd (snd e)) (g_ents g).
Record stable (home : Z) (cf : Z -> rcfg) (nodes : list Z) (links : list link) (N0 : net) : Prop := {
  st_cfg : forall n, In n nodes -> cfg_ok (cf n) /\ r_home (cf n) = home /\ r_tid (cf n) = n;
  st_rt : forall n, In n nodes -> reached (cf n) (n_rt N0 n) /\ min1 (n_rt N0 n) n <> INF;
  st_links : forall m n c, In (m, n, c) links <-> In m nodes /\ In n nodes /\ In (ANbr c home m) (dkeys (l1 (n_rt N0 n)));
  st_keys : forall n k, In n nodes -> In k (dkeys (l1 (n_rt N0 n))) -> k = ASelf \/ exists m c, k = ANbr c home m /\ In m nodes;
  st_ch : forall k g, In k links -> In g (n_ch N0 k) -> g_time g = 0%nat /\ msg_ok g }.
Definition ev_ok (cf : Z -> rcfg) (links : list link) (e : nev) : Prop :=
  match e with
  | NSend (m, n, c) dests => In (m, n, c) links /\ Forall (fun i => 0 <= i <= r_maxn (cf m)) dests
  | NRecv k | NLose k => In k links
  end.
(** An infinite run; it is fair for destination d when every link, again and
    again, delivers a message about d sent after any given time. *)
Definition run (home : Z) (cf : Z -> rcfg) (links : list link) (st : nat -> net) (ev : nat -> nev) : Prop :=
  forall t, ev_ok cf links (ev t) /\ nstep home cf (S t) (st t) (ev t) = Ok (st (S t)).
Definition fair (links : list link) (st : nat -> net) (ev : nat -> nev) (d : Z) : Prop :=
  forall k T, In k links -> exists t g rest, (T <= t)%nat /\ ev t = NRecv k /\ n_ch (st t) k = g :: rest /\ (S T <= g_time g)%nat /\ In d (map fst (g_ents g)).
(** Paths to destination d: the router itself, an adjacent end node, or over
    a link to a neighbour. *)
Inductive npath (cf : Z -> rcfg) (links : list link) (N0 : net) (d : Z) : Z -> Z -> Z -> Prop :=
  | np_self : forall n, d = n \/ (d = 0 /\ attached (n_rt N0 n) = true) -> npath cf links N0 d n 0 0
  | np_end : forall n h c k, eadj (n_rt N0 n) d = Some k -> ecol (n_rt N0 n) d = (h, c) -> c < INFCOST -> npath cf links N0 d n h c
  | np_link : forall m n q h c, In (m, n, q) links -> npath cf links N0 d m h c -> npath cf links N0 d n (h + 1) (c + r_cost (cf n) q).
Definition nleast cf links N0 d n c : Prop := forall h' c', npath cf links N0 d n h' c' -> c <= c'.

Lemma link_eqb_eq : forall a b, link_eqb a b = true <-> a = b.
Proof.
  intros ((m, n), c) ((m', n'), c'). unfold link_eqb. split.
  - intros H. apply andb_prop in H as (H & H3). apply andb_prop in H as (H1 & H2). f_equal; [f_equal|]; lia.
  - intros H. injection H as -> -> ->. rewrite !Z.eqb_refl. reflexivity.
Qed.
Lemma set_ch_same : forall f k l, set_ch f k l k = l.
Proof. intros. unfold set_ch. rewrite (proj2 (link_eqb_eq k k) eq_refl). reflexivity. Qed.
Lemma set_ch_other : forall f k l k', k' <> k -> set_ch f k l k' = f k'.
Proof. intros f k l k' H. unfold set_ch. destruct (link_eqb k' k) eqn:E; [apply link_eqb_eq in E; contradiction|reflexivity]. Qed.
Lemma link_dec : forall a b : link, a = b \/ a <> b.
Proof. intros a b. destruct (link_eqb a b) eqn:E; [left; apply link_eqb_eq; auto|right; intros ->; rewrite (proj2 (link_eqb_eq b b) eq_refl) in E; discriminate]. Qed.
Lemma set_rt_same : forall f n s, set_rt f n s n = s.
Proof. intros. unfold set_rt. rewrite Z.eqb_refl. reflexivity. Qed.
Lemma set_rt_other : forall f n s m, m <> n -> set_rt f n s m = f m.
Proof. intros f n s m H. unfold set_rt. destruct (Z.eqb_spec m n); [contradiction|reflexivity]. Qed.
Lemma cands_pos : forall C s i, cfg_ok C -> cols1 C s -> 0 <= i <= r_maxn C -> Forall (fun y => 0 <= ccost y) (cands1 s i).
Proof.
  intros C s i CF (N & (v & G & S) & F & E) Hi. constructor; [unfold ccost; cbn [fst snd]; destruct (E i); lia|].
  apply Forall_forall. intros y Hy. apply in_map_iff in Hy as ((k, w) & <- & I). unfold ccost. cbn [fst snd].
  destruct k as [|c a t]; [|specialize (F _ _ I ltac:(discriminate) i); lia]. rewrite (in_dget keqb keqb_decides _ _ _ N I) in G. injection G as ->.
  rewrite S by auto. destruct ((i =? r_tid C) || (attached s && (i =? 0))); unfold INF, INFCOST; cbn [snd]; lia.
Qed.
Lemma min_pos : forall C s i, cfg_ok C -> inv1 C s -> tabs C s -> 0 <= i <= r_maxn C -> 0 <= snd (min1 s i).
Proof.
  intros C s i CF (Co & _) T Hi. pose proof (T i Hi) as Ti. unfold tab1 in Ti. pose proof (cands_pos C s i CF Co Hi) as P. pose proof CF as (_ & K2 & _).
  destruct (out1 s i) as [k|].
  - destruct (decision_reachable _ _ _ _ _ _ (proj2 K2) (cands1_ok C s i Co) Ti) as (I & _). rewrite Forall_forall in P. specialize (P _ I). exact P.
  - destruct (decision_unreachable _ _ _ _ _ _ (proj2 K2) (cands1_ok C s i Co) Ti) as (X & _). specialize (X eq_refl). injection X as _ ->. unfold INFCOST. lia.
Qed.

Section Run.
Variables (home : Z) (cf : Z -> rcfg) (nodes : list Z) (links : list link) (st : nat -> net) (ev : nat -> nev).
Hypothesis Hst : stable home cf nodes links (st 0%nat).
Hypothesis Hrun : run home cf links st ev.
Definition same_shape (s0 s : rst) : Prop :=
  dkeys (l1 s) = dkeys (l1 s0) /\ ecol s = ecol s0 /\ eadj s = eadj s0 /\ attached s = attached s0 /\ forall i, colv s ASelf i = colv s0 ASelf i.
Definition rt_ok (N : net) : Prop := forall n, In n nodes ->
  inv1 (cf n) (n_rt N n) /\ inv2 (cf n) (n_rt N n) /\ tabs (cf n) (n_rt N n) /\ same_shape (n_rt (st 0%nat) n) (n_rt N n).
Definition origin (m : Z) (t : nat) (g : msg) : Prop :=
  match g_time g with
  | O => True
  | S t' => (t' < t)%nat /\ exists dests, g_ents g = snap (n_rt (st t') m) dests
  end.
Definition ch_ok (t : nat) (N : net) : Prop := forall m n c, In (m, n, c) links ->
  StronglySorted le (map g_time (n_ch N (m, n, c))) /\ Forall (fun g => (g_time g <= t)%nat /\ msg_ok g /\ origin m t g) (n_ch N (m, n, c)).
Lemma start_rt : rt_ok (st 0%nat).
Proof.
  intros n Hn. destruct (st_cfg _ _ _ _ _ Hst n Hn) as (CF & _ & Et). destruct (st_rt _ _ _ _ _ Hst n Hn) as (R & O).
  destruct (reached_inv _ _ CF R) as (I1 & I2). split; [auto|]. split; [auto|]. split; [|repeat split].
  intros i Hi. destruct I1 as (_ & G). destruct (G i Hi) as [T|(E & M & _)]; [auto|]. rewrite E, Et in M. contradiction.
Qed.
Lemma start_ch : ch_ok 0 (st 0%nat).
Proof.
  intros m n c Hk. assert (A : forall g, In g (n_ch (st 0%nat) (m, n, c)) -> g_time g = 0%nat /\ msg_ok g) by (intros g Hg; eapply (st_ch _ _ _ _ _ Hst); eauto).
  induction (n_ch (st 0%nat) (m, n, c)) as [|g l IH]; [split; constructor|]. destruct IH as (S & F); [intros; apply A; right; auto|].
  destruct (A g ltac:(left; auto)) as (G & M). split.
  - cbn [map]. constructor; [exact S|]. apply Forall_forall. intros x _. lia.
  - constructor; [|exact F]. split; [lia|]. split; [exact M|]. unfold origin. rewrite G. exact I.
Qed.
Lemma sorted_snoc_le : forall l x, StronglySorted le l -> Forall (fun y => (y <= x)%nat) l -> StronglySorted le (l ++ [x]).
Proof.
  induction l as [|y l IH]; intros x S F; cbn [app]; [repeat constructor|]. inversion_clear S. inversion_clear F. constructor; [auto|].
  apply Forall_app. split; [auto|]. constructor; [auto|constructor].
Qed.
Lemma add_hop_ok : forall w l, 1 <= w -> Forall (fun e : Z * (Z * Z) => 0 <= fst e /\ 0 <= snd (snd e)) l -> Forall (fun e => 0 <= fst e /\ 1 <= snd (snd e)) (add_hop w l).
Proof. intros w l Hw F. unfold add_hop. apply Forall_map. eapply Forall_impl; [|exact F]. intros e (A & B). cbn [fst snd]. lia. Qed.
(** Receipt of a message by a router in a good state. *)
Lemma recv_ok : forall N m n c g, rt_ok N -> In (m, n, c) links -> msg_ok g ->
  exists s o, rstep (cf n) (n_rt N n) (Msg1 c home m (add_hop (r_cost (cf n) c) (g_ents g))) = Ok (s, o) /\
    inv1 (cf n) s /\ inv2 (cf n) s /\ tabs (cf n) s /\ same_shape (n_rt (st 0%nat) n) s /\
    (forall i, 0 <= i <= r_maxn (cf n) -> colv s (ANbr c home m) i = lastv (add_hop (r_cost (cf n) c) (g_ents g)) i (colv (n_rt N n) (ANbr c home m) i)) /\
    (forall k i, k <> ANbr c home m -> colv s k i = colv (n_rt N n) k i).
Proof.
  intros N m n c g R Hk M. pose proof Hk as Hk'. apply (st_links _ _ _ _ _ Hst) in Hk as (Hm & Hn & Hkey).
  destruct (st_cfg _ _ _ _ _ Hst n Hn) as (CF & Eh & Et). destruct (R n Hn) as (I1 & I2 & T & (S1 & S2 & S3 & S4 & S5)).
  pose proof CF as (_ & _ & _ & Hcost & _).
  destruct (msg1_effect (cf n) (ANbr c home m) (add_hop (r_cost (cf n) c) (g_ents g)) (n_rt N n) 0 CF ltac:(discriminate) I1 I2 ltac:(rewrite S1; auto) (add_hop_ok _ _ (Hcost c) M) T)
    as (s & o & E & J1 & J2 & J3 & J4 & J5 & J6 & J7 & J8 & J9).
  exists s, o. cbn [rstep]. rewrite Eh, Z.eqb_refl. split; [exact E|]. split; [auto|]. split; [auto|]. split; [auto|]. split; [|auto].
  unfold same_shape. split; [congruence|]. split; [congruence|]. split; [congruence|]. split; [congruence|]. intros i. rewrite J9 by discriminate. auto.
Qed.
Lemma ch_sub : forall t N m n c, ch_ok t N -> In (m, n, c) links -> forall g l, n_ch N (m, n, c) = g :: l ->
  msg_ok g /\ origin m t g /\ Forall (fun g' => (g_time g <= g_time g')%nat) l.
Proof.
  intros t N m n c H Hk g l E. destruct (H m n c Hk) as (S & F). rewrite E in *. inversion_clear F as [|? ? F1 F2]. cbn [map] in S. inversion_clear S as [|? ? S1 S2].
  split; [apply F1|]. split; [apply F1|]. rewrite Forall_map in S2. exact S2.
Qed.
Lemma origin_mono : forall m t g, origin m t g -> origin m (S t) g.
Proof. intros m t g H. unfold origin in *. destruct (g_time g); [auto|]. destruct H. split; [lia|auto]. Qed.
Lemma ch_keep : forall t N N' k, ch_ok t N -> (forall k', k' <> k -> n_ch N' k' = n_ch N k') ->
  (forall m n c, In (m, n, c) links -> k = (m, n, c) -> StronglySorted le (map g_time (n_ch N' k)) /\ Forall (fun g => (g_time g <= S t)%nat /\ msg_ok g /\ origin m (S t) g) (n_ch N' k)) ->
  ch_ok (S t) N'.
Proof.
  intros t N N' k H O Sa m n c Hk. destruct (link_dec (m, n, c) k) as [<-|E]; [apply (Sa m n c); auto|].
  rewrite O by auto. destruct (H m n c Hk) as (S & F). split; [auto|]. eapply Forall_impl; [|exact F]. intros g (A & B & C). split; [lia|]. split; [auto|]. apply origin_mono. auto.
Qed.
Lemma step_net : forall t e, rt_ok (st t) -> ch_ok t (st t) -> ev_ok cf links e ->
  exists N', nstep home cf (S t) (st t) e = Ok N' /\ rt_ok N' /\ ch_ok (S t) N'.
Proof.
  intros t e R Ch Ho. destruct e as [((m, n), c) dests|((m, n), c)|((m, n), c)]; cbn [nstep ev_ok] in *.
  - eexists. split; [reflexivity|]. destruct Ho as (Hk & Hd). split; [exact R|]. apply (ch_keep t (st t) _ (m, n, c) Ch); cbn [n_ch].
    + intros k' Nk. apply set_ch_other. auto.
    + intros m' n' c' _ E. injection E as <- <- <-. rewrite set_ch_same. destruct (Ch m n c Hk) as (S & F). split.
      * rewrite map_app. cbn [map g_time]. apply sorted_snoc_le; [auto|]. rewrite Forall_map. eapply Forall_impl; [|exact F]. intros g (A & _). cbn beta. lia.
      * apply Forall_app. split; [eapply Forall_impl; [|exact F]; intros g (A & B & C); split; [lia|]; split; [auto|apply origin_mono; auto]|].
        constructor; [|constructor]. split; [cbn [g_time]; lia|]. split.
        -- unfold msg_ok, snap. cbn [g_ents]. apply Forall_map. eapply Forall_impl; [|exact Hd]. intros i Hi. cbn beta in Hi. cbn beta. cbn [fst snd]. split; [apply Hi|].
           apply (st_links _ _ _ _ _ Hst) in Hk as (Hm & _). destruct (R m Hm) as (I1 & _ & T & _). destruct (st_cfg _ _ _ _ _ Hst m Hm) as (CF & _). eapply min_pos; eauto.
        -- unfold origin. cbn [g_time g_ents]. split; [lia|]. exists dests. reflexivity.
  - destruct (n_ch (st t) (m, n, c)) as [|g rest] eqn:Eq.
    + eexists. split; [reflexivity|]. split; [exact R|]. eapply (ch_keep t (st t) (st t) (m, n, c)); [exact Ch|auto|].
      intros m' n' c' _ E. rewrite Eq. split; constructor.
    + destruct (ch_sub t (st t) m n c Ch Ho g rest Eq) as (M & Og & So).
      destruct (recv_ok (st t) m n c g R Ho M) as (s & o & E & J1 & J2 & J3 & J4 & J5 & J6). rewrite E. cbn [bind]. eexists. split; [reflexivity|]. split.
      * intros x Hx. cbn [n_rt]. destruct (Z.eq_dec x n) as [->|Nx]; [rewrite set_rt_same; auto|rewrite set_rt_other by auto; apply R; auto].
      * apply (ch_keep t (st t) _ (m, n, c) Ch); cbn [n_ch].
        -- intros k' Nk. apply set_ch_other. auto.
        -- intros m' n' c' _ E'. injection E' as <- <- <-. rewrite set_ch_same. destruct (Ch m n c Ho) as (S & F). rewrite Eq in S, F. cbn [map] in S. inversion_clear S. inversion_clear F. split; [auto|].
           eapply Forall_impl; [|eassumption]. intros g' (A & B & C). split; [lia|]. split; [auto|apply origin_mono; auto].
  - eexists. split; [reflexivity|]. split; [exact R|]. apply (ch_keep t (st t) _ (m, n, c) Ch); cbn [n_ch].
    + intros k' Nk. apply set_ch_other. auto.
    + intros m' n' c' _ E. injection E as <- <- <-. rewrite set_ch_same. destruct (Ch m n c Ho) as (S & F). destruct (n_ch (st t) (m, n, c)) as [|g l]; cbn [tl map] in *; [split; constructor|].
      inversion_clear S. inversion_clear F. split; [auto|]. eapply Forall_impl; [|eassumption]. intros g' (A & B & C). split; [lia|]. split; [auto|apply origin_mono; auto].
Qed.
Lemma run_ok : forall t, rt_ok (st t) /\ ch_ok t (st t).
Proof.
  induction t as [|t (R & Ch)]; [split; [apply start_rt|apply start_ch]|]. destruct (Hrun t) as (Ho & E).
  destruct (step_net t (ev t) R Ch Ho) as (N' & E' & R' & C'). rewrite E in E'. injection E' as <-. auto.
Qed.

Variable d : Z.
Hypothesis Hd : forall n, In n nodes -> 0 <= d <= r_maxn (cf n).
Hypothesis Hfair : fair links st ev d.
(** From time t on the column of the link is no older than T. *)
Definition good_link (T t : nat) (m n c : Z) : Prop :=
  (exists t', (T <= t')%nat /\ colv (n_rt (st t) n) (ANbr c home m) d =
     (fst (min1 (n_rt (st t') m) d) + 1, snd (min1 (n_rt (st t') m) d) + r_cost (cf n) c)) /\
  Forall (fun g => (S T <= g_time g)%nat) (n_ch (st t) (m, n, c)).
Lemma recv_col : forall T m n c g s o t, In (m, n, c) links -> origin m t g -> (S T <= g_time g)%nat -> msg_ok g ->
  rstep (cf n) (n_rt (st t) n) (Msg1 c home m (add_hop (r_cost (cf n) c) (g_ents g))) = Ok (s, o) ->
  (exists t', (T <= t')%nat /\ In d (map fst (g_ents g)) /\ colv s (ANbr c home m) d = (fst (min1 (n_rt (st t') m) d) + 1, snd (min1 (n_rt (st t') m) d) + r_cost (cf n) c)) \/
  (~ In d (map fst (g_ents g)) /\ colv s (ANbr c home m) d = colv (n_rt (st t) n) (ANbr c home m) d).
Proof.
  intros T m n c g s o t Hk Og Ht M E. destruct (run_ok t) as (R & _).
  destruct (recv_ok (st t) m n c g R Hk M) as (s1 & o1 & E1 & _ & _ & _ & _ & J5 & _). rewrite E in E1. injection E1 as <- <-.
  apply (st_links _ _ _ _ _ Hst) in Hk as (Hm & Hn & _). rewrite J5 by (apply Hd; auto). unfold origin in Og. destruct (g_time g) as [|t']; [lia|].
  destruct Og as (_ & dests & Eg). rewrite Eg. rewrite lastv_snap. unfold snap. rewrite map_map. cbn [fst]. rewrite map_id.
  destruct (in_dec Z.eq_dec d dests); [left; exists t'; split; [lia|auto]|right; auto].
Qed.
Lemma good_link_step : forall T t m n c, In (m, n, c) links -> (T <= t)%nat -> good_link T t m n c -> good_link T (S t) m n c.
Proof.
  intros T t m n c Hk Ht ((t' & Ht' & Col) & F). unfold good_link. destruct (Hrun t) as (Ho & E). destruct (run_ok t) as (R & Ch).
  destruct (ev t) as [((m1, n1), c1) dests|((m1, n1), c1)|((m1, n1), c1)]; cbn [nstep ev_ok] in *.
  - injection E as <-. split; cbn [n_rt n_ch]; [eauto|]. destruct (link_dec (m, n, c) (m1, n1, c1)) as [<-|N]; [|rewrite set_ch_other by auto; auto].
    rewrite set_ch_same. apply Forall_app. split; [auto|]. constructor; [cbn [g_time]; lia|constructor].
  - destruct (n_ch (st t) (m1, n1, c1)) as [|g rest] eqn:Eq; [injection E as <-; split; eauto|].
    destruct (ch_sub t (st t) m1 n1 c1 Ch Ho g rest Eq) as (M & Og & So).
    destruct (rstep _ _ _) as [(s, o)|] eqn:Er in E; [|discriminate]. cbn [bind] in E. injection E as <-. unfold good_link. cbn [n_rt n_ch].
    destruct (link_dec (m, n, c) (m1, n1, c1)) as [Ek|N].
    + injection Ek as <- <- <-. rewrite Eq in F. inversion_clear F as [|? ? F1 F2]. rewrite set_ch_same, set_rt_same. split; [|auto].
      destruct (recv_col T m n c g s o t Hk Og F1 M Er) as [(t2 & A & _ & B)|(_ & B)]; [eauto|]. rewrite B. eauto.
    + rewrite set_ch_other by auto. split; [|auto]. destruct (Z.eq_dec n n1) as [<-|Nn]; [|rewrite set_rt_other by auto; eauto]. rewrite set_rt_same.
      destruct (recv_ok (st t) m1 n c1 g R Ho M) as (s1 & o1 & E1 & _ & _ & _ & _ & _ & J6). rewrite Er in E1. injection E1 as <- <-.
      rewrite J6; [eauto|]. intros X. injection X as -> ->. apply N. reflexivity.
  - injection E as <-. split; cbn [n_rt n_ch]; [eauto|]. destruct (link_dec (m, n, c) (m1, n1, c1)) as [<-|N]; [|rewrite set_ch_other by auto; auto].
    rewrite set_ch_same. destruct (n_ch (st t) (m, n, c)); cbn [tl]; [auto|]. inversion_clear F. auto.
Qed.
Lemma good_link_later : forall T t t' m n c, In (m, n, c) links -> (T <= t)%nat -> good_link T t m n c -> (t <= t')%nat -> good_link T t' m n c.
Proof. intros T t t' m n c Hk Ht G L. induction L; [auto|]. apply good_link_step; auto. lia. Qed.
Lemma good_link_some : forall T m n c, In (m, n, c) links -> exists t, (T <= t)%nat /\ good_link T t m n c.
Proof.
  intros T m n c Hk. destruct (Hfair (m, n, c) T Hk) as (t & g & rest & Ht & Ee & Eq & Hg & Hin). exists (S t). split; [lia|]. unfold good_link.
  destruct (Hrun t) as (Ho & E). destruct (run_ok t) as (R & Ch). rewrite Ee in E. cbn [nstep] in E. rewrite Eq in E.
  destruct (ch_sub t (st t) m n c Ch Hk g rest Eq) as (M & Og & So).
  destruct (rstep _ _ _) as [(s, o)|] eqn:Er in E; [|discriminate]. cbn [bind] in E. injection E as <-. unfold good_link. cbn [n_rt n_ch]. rewrite set_ch_same, set_rt_same. split.
  - destruct (recv_col T m n c g s o t Hk Og Hg M Er) as [(t2 & A & _ & B)|(B & _)]; [eauto|contradiction].
  - eapply Forall_impl; [|exact So]. intros g' X. cbn beta in *. lia.
Qed.
Lemma all_links : forall T (l : list link), (forall k, In k l -> In k links) -> exists T', (T <= T')%nat /\ forall t m n c, (T' <= t)%nat -> In (m, n, c) l -> good_link T t m n c.
Proof.
  intros T l. induction l as [|((m, n), c) l IH]; intros H; [exists T; split; [lia|]; intros t m n c _ []|].
  destruct IH as (T1 & A & B); [intros; apply H; right; auto|]. destruct (good_link_some T m n c ltac:(apply H; left; auto)) as (T2 & A2 & B2).
  exists (max T1 T2). split; [lia|]. intros t m' n' c' Ht [E|I]; [|apply B; [lia|auto]]. injection E as <- <- <-.
  apply (good_link_later T T2); auto; [apply H; left; auto|lia].
Qed.
(** The instance of the abstract part. *)
Definition net_sk (n : Z) : list col :=
  let s := n_rt (st 0%nat) n in
  inl (ecol s d, eadj s d) ::
  map (fun k => match k with ASelf => inl (colv s ASelf d, Some ASelf) | ANbr c a m => inr (m, r_cost (cf n) c, k) end) (dkeys (l1 s)).
Definition net_view (t : nat) (n : Z) : list cand := cands1 (n_rt (st t) n) d.
Definition net_mh (n : Z) : Z := r_maxhops (cf n).
Definition net_mc (n : Z) : Z := r_maxcost (cf n).
Definition is_node (n : Z) : Prop := In n nodes.
Lemma net_val : forall t n, is_node n -> val net_mh net_mc net_view t n = (min1 (n_rt (st t) n) d, out1 (n_rt (st t) n) d).
Proof.
  intros t n Hn. destruct (run_ok t) as (R & _). destruct (R n Hn) as (_ & _ & T & _). specialize (T d (Hd n Hn)). unfold tab1 in T. unfold val, net_mh, net_mc, net_view. rewrite T.
  destruct (min1 (n_rt (st t) n) d). reflexivity.
Qed.
Lemma net_Hmc : forall n, is_node n -> 0 <= net_mc n < INFCOST.
Proof. intros n Hn. destruct (st_cfg _ _ _ _ _ Hst n Hn) as ((_ & K & _) & _). exact K. Qed.
Lemma net_Hsk : forall n m w k, is_node n -> In (inr (m, w, k)) (net_sk n) ->
  (is_node m /\ 1 <= w) /\ exists c, k = ANbr c home m /\ w = r_cost (cf n) c /\ In (m, n, c) links.
Proof.
  intros n m w k Hn [H|H]; [discriminate|]. apply in_map_iff in H as (k0 & E & I). destruct k0 as [|c a m0]; [discriminate|]. injection E as -> <- <-.
  destruct (st_keys _ _ _ _ _ Hst n _ Hn I) as [X|(m' & c' & X & Hm)]; [discriminate|]. injection X as <- -> <-.
  destruct (st_cfg _ _ _ _ _ Hst n Hn) as ((_ & _ & _ & K & _) & _). split; [split; [exact Hm|apply K]|]. exists c. repeat split. apply (st_links _ _ _ _ _ Hst). auto.
Qed.
Lemma net_Hok : forall t n, is_node n -> Forall cand_ok (net_view t n).
Proof. intros t n Hn. destruct (run_ok t) as (R & _). destruct (R n Hn) as ((Co & _) & _). eapply cands1_ok; eauto. Qed.
Lemma net_Hpos : forall t n, is_node n -> Forall (fun y => 0 <= ccost y) (net_view t n).
Proof. intros t n Hn. destruct (run_ok t) as (R & _). destruct (R n Hn) as ((Co & _) & _). destruct (st_cfg _ _ _ _ _ Hst n Hn) as (CF & _). apply (cands_pos (cf n)); auto. Qed.
Lemma net_fresh : forall T, exists T', (T <= T')%nat /\ fresh is_node net_mh net_mc net_sk net_view T T'.
Proof.
  intros T. destruct (all_links T links ltac:(auto)) as (T' & A & B). exists T'. split; [auto|]. intros t n Ht Hn.
  destruct (run_ok t) as (R & _). destruct (R n Hn) as ((Co & _) & _ & _ & (S1 & S2 & S3 & S4 & S5)).
  unfold net_view, net_sk. rewrite (cands1_colv _ _ _ Co), S1, S2, S3. constructor; [reflexivity|].
  assert (K : forall k, In k (dkeys (l1 (n_rt (st 0%nat) n))) -> recent net_mh net_mc net_view T (match k with ASelf => inl (colv (n_rt (st 0%nat) n) ASelf d, Some ASelf) | ANbr c a m => inr (m, r_cost (cf n) c, k) end) (colv (n_rt (st t) n) k d, Some k)).
  { intros k I. destruct k as [|c a m]; cbn [recent]; [rewrite S5; reflexivity|].
    destruct (st_keys _ _ _ _ _ Hst n _ Hn I) as [X|(m' & c' & X & Hm)]; [discriminate|]. injection X as <- -> <-.
    assert (Hk : In (m, n, c) links) by (apply (st_links _ _ _ _ _ Hst); auto). destruct (B t m n c Ht Hk) as ((t' & Ht' & Col) & _).
    exists t'. split; [exact Ht'|]. rewrite net_val by auto. unfold shift, chops, ccost. cbn [fst snd]. rewrite Col. reflexivity. }
  clear - K. induction (dkeys (l1 (n_rt (st 0%nat) n))) as [|k l IH]; cbn [map]; [constructor|]; constructor; [apply K; left; reflexivity|apply IH; intros k' I; apply K; right; exact I].
Qed.
Lemma net_rounds : forall r, exists T, rounds is_node net_mh net_mc net_sk net_view r 0 T.
Proof.
  induction r as [|r (T & IH)]; [exists 0%nat; constructor|]. destruct (net_fresh T) as (T' & A & B). exists T'. econstructor; eauto.
Qed.
Lemma net_settles : exists T D, (forall t n, (T <= t)%nat -> is_node n -> val net_mh net_mc net_view t n = D n) /\
  (forall n, is_node n -> D n = decide (net_mh n) (net_mc n) (map (fixed_col D) (net_sk n)) /\ Forall cand_ok (map (fixed_col D) (net_sk n))) /\
  (forall n, is_node n -> 0 <= ccost (D n)).
Proof.
  destruct (net_rounds (Z.to_nat INFCOST)) as (T & Ro).
  assert (HM : forall n, is_node n -> net_mc n <= INFCOST - 1) by (intros n Hn; pose proof (net_Hmc n Hn); lia).
  destruct (converges is_node net_mh net_mc net_sk net_view net_Hmc (fun n m w k Hn I => proj1 (net_Hsk n m w k Hn I)) net_Hok net_Hpos (INFCOST - 1) (Z.to_nat INFCOST) 0%nat T HM ltac:(lia) Ro ltac:(unfold INFCOST; lia)) as (D & HD).
  exists T, D. split; [exact HD|]. destruct (net_fresh T) as (T' & A & Fr). split.
  - exact (fixed_point is_node net_mh net_mc net_sk net_view net_Hmc (fun n m w k Hn I => proj1 (net_Hsk n m w k Hn I)) net_Hok net_Hpos D T T' HD Fr).
  - intros n Hn. rewrite <- (HD T n) by auto. rewrite net_val by auto. destruct (run_ok T) as (R & _). destruct (R n Hn) as (I1 & _ & Tb & _).
      destruct (st_cfg _ _ _ _ _ Hst n Hn) as (CF & _). unfold ccost. cbn [fst snd]. apply (min_pos (cf n)); auto.
Qed.
(** The paths agree. *)
Lemma self_colv : forall n, In n nodes -> colv (n_rt (st 0%nat) n) ASelf d = if (d =? n) || (attached (n_rt (st 0%nat) n) && (d =? 0)) then (0, 0) else INF.
Proof.
  intros n Hn. destruct (run_ok 0) as (R & _). destruct (R n Hn) as ((Co & _) & _). destruct Co as (_ & (v & G & S) & _). destruct (st_cfg _ _ _ _ _ Hst n Hn) as (_ & _ & Et).
  unfold colv. rewrite G. rewrite S by (apply Hd; auto). rewrite Et. reflexivity.
Qed.
Lemma self_key : forall n, In n nodes -> In ASelf (dkeys (l1 (n_rt (st 0%nat) n))).
Proof. intros n Hn. destruct (run_ok 0) as (R & _). destruct (R n Hn) as ((Co & _) & _). destruct Co as (_ & (v & G & S) & _). eapply dget_keys; eauto. Qed.
Lemma path_of : forall n h c, npath cf links (st 0%nat) d n h c -> In n nodes -> apath net_sk n h c.
Proof.
  intros n h c P. induction P as [n H|n h c k E1 E2 H|m n q h c I P IH]; intros Hn.
  - apply (ap_base _ n 0 0 ASelf); [|unfold INFCOST; lia]. right. apply in_map_iff. exists ASelf. split; [|apply self_key; auto]. rewrite self_colv by auto.
    destruct H as [->|(-> & ->)]; [rewrite Z.eqb_refl; reflexivity|]. rewrite Z.eqb_refl, orb_true_r. reflexivity.
  - apply (ap_base _ n h c k); [|auto]. left. rewrite E1, E2. reflexivity.
  - pose proof I as I'. apply (st_links _ _ _ _ _ Hst) in I' as (Hm & _ & K). apply (ap_step _ n m (r_cost (cf n) q) (ANbr q home m)); [|auto].
    right. apply in_map_iff. exists (ANbr q home m). auto.
Qed.
Lemma of_path : forall n h c, apath net_sk n h c -> In n nodes -> npath cf links (st 0%nat) d n h c.
Proof.
  intros n h c P. induction P as [n h c k I H|n m w k h c I P IH]; intros Hn.
  - destruct I as [E|I].
    + injection E as E1 E2. eapply np_end; eauto.
    + apply in_map_iff in I as (k0 & E & _). destruct k0 as [|c0 a m]; [|discriminate]. injection E as E1 _. rewrite self_colv in E1 by auto.
      destruct (Z.eqb_spec d n) as [->|Nd]; cbn [orb] in E1; [injection E1 as <- <-; apply np_self; auto|].
      destruct (attached (n_rt (st 0%nat) n)) eqn:At; cbn [andb] in E1; [|unfold INF in E1; injection E1 as _ <-; lia].
      destruct (Z.eqb_spec d 0) as [E0|Nz]; [injection E1 as <- <-; apply np_self; auto|unfold INF in E1; injection E1 as _ <-; lia].
  - destruct (net_Hsk _ _ _ _ Hn I) as ((Hm & _) & q & -> & -> & Hk). eapply np_link; eauto.
Qed.
End Run.

(** ** The theorems *)
(** In every fair run there is a time after which, at every router, the
    table entry for d does not change any more, and then
    - a route that is recorded is a real path: the hops and cost recorded are
      those of a path, within the router's limits, and the next router on it
      records one hop and that circuit's cost less;
    - if there is no path within the router's limits, the destination is
      recorded as unreachable;
    - if the least cost of all paths from a router is within the cost limit
      of all routers, and no least cost path of any router within that cost
      limit has more hops than the hop limit of all routers, the cost recorded
      is that least cost. *)
Theorem routing_converges : forall home cf nodes links st ev d,
  stable home cf nodes links (st 0%nat) -> run home cf links st ev -> (forall n, In n nodes -> 0 <= d <= r_maxn (cf n)) -> fair links st ev d ->
  exists T, forall t n, (T <= t)%nat -> In n nodes ->
    min1 (n_rt (st t) n) d = min1 (n_rt (st T) n) d /\ out1 (n_rt (st t) n) d = out1 (n_rt (st T) n) d /\
    (forall k, out1 (n_rt (st t) n) d = Some k ->
       npath cf links (st 0%nat) d n (fst (min1 (n_rt (st t) n) d)) (snd (min1 (n_rt (st t) n) d)) /\
       fst (min1 (n_rt (st t) n) d) <= r_maxhops (cf n) /\ snd (min1 (n_rt (st t) n) d) <= r_maxcost (cf n) /\
       (k = ASelf \/ eadj (n_rt (st 0%nat) n) d = Some k \/
        exists c m, k = ANbr c home m /\ In (m, n, c) links /\ out1 (n_rt (st t) m) d <> None /\
          min1 (n_rt (st t) m) d = (fst (min1 (n_rt (st t) n) d) - 1, snd (min1 (n_rt (st t) n) d) - r_cost (cf n) c))) /\
    ((forall h c, npath cf links (st 0%nat) d n h c -> r_maxhops (cf n) < h \/ r_maxcost (cf n) < c) ->
       out1 (n_rt (st t) n) d = None /\ min1 (n_rt (st t) n) d = INF) /\
    (forall Mh Mc h c, (forall x, In x nodes -> Mc <= r_maxcost (cf x) /\ Mh <= r_maxhops (cf x)) ->
       (forall x h' c', In x nodes -> npath cf links (st 0%nat) d x h' c' -> nleast cf links (st 0%nat) d x c' -> c' <= Mc -> h' <= Mh) ->
       npath cf links (st 0%nat) d n h c -> nleast cf links (st 0%nat) d n c -> c <= Mc ->
       out1 (n_rt (st t) n) d <> None /\ snd (min1 (n_rt (st t) n) d) = c).
Proof.
  intros home cf nodes links st ev d Hst Hrun Hd Hfair.
  destruct (net_settles home cf nodes links st ev Hst Hrun d Hd Hfair) as (T & D & HD & Fix & Pos). exists T. intros t n Ht Hn.
  set (sk := net_sk cf st d) in *.
  assert (V : forall x, In x nodes -> D x = (min1 (n_rt (st t) x) d, out1 (n_rt (st t) x) d)) by (intros x Hx; rewrite <- (HD t x) by auto; apply (net_val home cf nodes links st ev Hst Hrun d Hd); auto).
  assert (V' : D n = (min1 (n_rt (st T) n) d, out1 (n_rt (st T) n) d)) by (rewrite <- (HD T n) by auto; apply (net_val home cf nodes links st ev Hst Hrun d Hd); auto).
  pose proof (V n Hn) as Vn. rewrite Vn in V'.
  assert (Hmc : forall x, is_node nodes x -> 0 <= net_mc cf x < INFCOST) by (apply (net_Hmc home cf nodes links st Hst)).
  assert (Hsk : forall x m w k, is_node nodes x -> In (inr (m, w, k)) (sk x) -> is_node nodes m /\ 1 <= w) by (intros x m w k Hx I; apply (net_Hsk home cf nodes links st Hst d x m w k Hx I)).
  assert (Path : forall x h c, In x nodes -> (npath cf links (st 0%nat) d x h c <-> apath sk x h c)).
  { intros x h c Hx. split; intros P; [eapply path_of; eauto|eapply of_path; eauto]. }
  assert (Reach : forall k, out1 (n_rt (st t) n) d = Some k -> D n = (fst (min1 (n_rt (st t) n) d), snd (min1 (n_rt (st t) n) d), Some k)).
  { intros k E. rewrite Vn, E. destruct (min1 (n_rt (st t) n) d). reflexivity. }
  split; [congruence|]. split; [congruence|]. split; [|split].
  - intros k E. specialize (Reach k E). split; [|split; [|split]].
    + apply Path; auto. eapply fixed_sound; eauto.
    + exact (proj1 (proj2 (fixed_next _ _ _ _ _ Hmc Hsk Pos Fix _ _ _ _ Hn Reach))).
    + exact (proj1 (fixed_next _ _ _ _ _ Hmc Hsk Pos Fix _ _ _ _ Hn Reach)).
    + destruct (fixed_next _ _ _ _ _ Hmc Hsk Pos Fix _ _ _ _ Hn Reach) as (_ & _ & _ & [I|(m & w & k' & I & Em)]).
      * destruct I as [I|I]; [right; left; congruence|]. apply in_map_iff in I as (k0 & E0 & _). destruct k0; [|discriminate]. left. congruence.
      * right. right. destruct (net_Hsk home cf nodes links st Hst d n m w k Hn I) as ((Hm & _) & c & -> & -> & Hk). exists c, m. split; [auto|]. split; [auto|].
        rewrite (V m Hm) in Em. destruct (min1 (n_rt (st t) m) d) as (h0, c0). split; congruence.
  - intros No. destruct (out1 (n_rt (st t) n) d) as [k|] eqn:E.
    + exfalso. specialize (Reach k eq_refl). destruct (fixed_next _ _ _ _ _ Hmc Hsk Pos Fix _ _ _ _ Hn Reach) as (A & B & _).
      pose proof (fixed_sound _ _ _ _ _ Hmc Hsk Pos Fix _ _ _ _ Hn Reach) as P. apply Path in P; auto. specialize (No _ _ P). unfold net_mc, net_mh in *. lia.
    + split; [reflexivity|]. destruct (Fix n Hn) as (F & O). rewrite Vn in F. symmetry in F. destruct (min1 (n_rt (st t) n) d) as (h0, c0).
      destruct (decision_unreachable _ _ _ _ _ _ (proj2 (Hmc n Hn)) O F) as (X & _). apply X. reflexivity.
  - intros Mh Mc h c HM HH P L HC. apply Path in P; auto.
    destruct (fixed_optimal (is_node nodes) (net_mh cf) (net_mc cf) sk D Hmc Hsk Pos Fix Mh Mc) with (n := n) (h := h) (c := c) as (h' & k & E); auto.
    + intros x Hx. apply HM. auto.
    + intros x Hx. apply HM. auto.
    + intros x h' c' Hx P' L' HC'. eapply HH; eauto; [apply Path; eauto|]. intros h2 c2 P2. eapply L'. apply Path; eauto.
    + intros x h' c' k' Hx I. destruct I as [I|I].
      * injection I as I1 I2. destruct (run_ok home cf nodes links st ev Hst Hrun 0) as (R & _). destruct (R x Hx) as ((Co & _) & _). destruct Co as (_ & _ & _ & En).
        destruct (En d) as (_ & Q & _). rewrite I1 in Q. cbn [snd] in Q. lia.
      * apply in_map_iff in I as (k0 & E0 & _). destruct k0; [|discriminate]. injection E0 as E1 _. rewrite (self_colv home cf nodes links st ev Hst Hrun d Hd) in E1 by auto.
        destruct ((d =? x) || _); [injection E1 as _ <-; lia|unfold INF, INFCOST in E1; injection E1 as _ <-; lia].
    + intros h2 c2 P2. eapply L. apply Path; eauto.
    + rewrite Vn in E. destruct (min1 (n_rt (st t) n) d) as (h0, c0). cbn [snd]. split; congruence.
Qed.
Print Assumptions routing_converges.

(** ** Fair runs exist *)
(** In a stable network with empty links, taking the links in turn, sending a
    complete update and receiving it, is a fair run for every destination. *)
Section Turn.
Variables (home : Z) (cf : Z -> rcfg) (nodes : list Z) (links : list link) (N0 : net).
Hypothesis Hst : stable home cf nodes links N0.
Hypothesis Hne : links <> [].
Hypothesis Hem : forall k, In k links -> n_ch N0 k = [].
Definition turn_link (q : nat) : link := nth (q mod length links) links (0, 0, 0).
Definition turn_ev (t : nat) : nev :=
  let k := turn_link (t / 2) in
  if Nat.even t then NSend k (span 0 (r_maxn (cf (fst (fst k))))) else NRecv k.
Fixpoint turn_st (t : nat) : net :=
  match t with
  | O => N0
  | S t' => match nstep home cf (S t') (turn_st t') (turn_ev t') with Ok N => N | Err _ => turn_st t' end
  end.
Lemma turn_in : forall q, In (turn_link q) links.
Proof. intros q. unfold turn_link. apply nth_In. apply Nat.mod_upper_bound. destruct links; [contradiction|discriminate]. Qed.
Lemma turn_ok : forall t, ev_ok cf links (turn_ev t).
Proof.
  intros t. unfold turn_ev. pose proof (turn_in (t / 2)) as I. destruct (turn_link (t / 2)) as ((m, n), c). cbn [fst]. destruct (Nat.even t); cbn [ev_ok]; [|exact I].
  split; [exact I|]. apply Forall_forall. intros i Hi. apply span_in in Hi. exact Hi.
Qed.
Lemma turn_run : run home cf links turn_st turn_ev.
Proof.
  assert (H : forall t, rt_ok cf nodes turn_st (turn_st t) /\ ch_ok links turn_st t (turn_st t)).
  { induction t as [|t (R & C)]; [split; [eapply start_rt; eauto|eapply start_ch; eauto]|].
    destruct (step_net home cf nodes links turn_st Hst t (turn_ev t) R C (turn_ok t)) as (N' & E & R' & C'). cbn [turn_st]. rewrite E. auto. }
  intros t. split; [apply turn_ok|]. destruct (H t) as (R & C). destruct (step_net home cf nodes links turn_st Hst t (turn_ev t) R C (turn_ok t)) as (N' & E & _).
  cbn [turn_st]. rewrite E. reflexivity.
Qed.
Lemma turn_even : forall q, Nat.even (2 * q) = true /\ Nat.even (2 * q + 1) = false /\ (2 * q / 2 = q)%nat /\ ((2 * q + 1) / 2 = q)%nat.
Proof.
  intros q. split; [rewrite Nat.even_mul; reflexivity|]. split; [rewrite Nat.even_add, Nat.even_mul; reflexivity|]. split; [rewrite Nat.mul_comm; apply Nat.div_mul; lia|].
  rewrite Nat.mul_comm, Nat.div_add_l by lia. cbn. lia.
Qed.
Lemma turn_chan : forall q, (forall k, In k links -> n_ch (turn_st (2 * q)) k = []) /\
  n_ch (turn_st (2 * q + 1)) (turn_link q) =
    [{| g_time := S (2 * q); g_ents := snap (n_rt (turn_st (2 * q)) (fst (fst (turn_link q)))) (span 0 (r_maxn (cf (fst (fst (turn_link q)))))) |}].
Proof.
  assert (Snd : forall q, (forall k, In k links -> n_ch (turn_st (2 * q)) k = []) ->
    n_ch (turn_st (2 * q + 1)) (turn_link q) = [{| g_time := S (2 * q); g_ents := snap (n_rt (turn_st (2 * q)) (fst (fst (turn_link q)))) (span 0 (r_maxn (cf (fst (fst (turn_link q)))))) |}] /\
    (forall k, In k links -> k <> turn_link q -> n_ch (turn_st (2 * q + 1)) k = [])).
  { intros q He. destruct (turn_even q) as (E1 & E2 & E3 & E4). destruct (turn_run (2 * q)%nat) as (_ & E). replace (2 * q + 1)%nat with (S (2 * q)) by lia.
    unfold turn_ev in E. rewrite E1, E3 in E. pose proof (turn_in q) as I. destruct (turn_link q) as ((m, n), c) eqn:Ek. cbn [nstep fst] in *. rewrite He in E by auto. cbn [app] in E.
    apply (f_equal (fun r => match r with Ok x => x | Err _ => N0 end)) in E. cbv beta iota in E. rewrite <- E. cbn [n_ch n_rt]. rewrite set_ch_same. split; [reflexivity|]. intros k Ik Nk. rewrite set_ch_other by auto. auto. }
  induction q as [|q (He & H1)].
  - assert (He : forall k, In k links -> n_ch (turn_st (2 * 0)) k = []) by exact Hem. split; [exact He|]. apply Snd. exact He.
  - assert (He' : forall k, In k links -> n_ch (turn_st (2 * S q)) k = []).
    { destruct (Snd q He) as (_ & H2). destruct (turn_even q) as (E1 & E2 & E3 & E4). destruct (turn_run (2 * q + 1)%nat) as (_ & E). replace (2 * S q)%nat with (S (2 * q + 1)) by lia.
      unfold turn_ev in E. rewrite E2, E4 in E. destruct (turn_link q) as ((m, n), c) eqn:Ek. cbn [nstep] in E. rewrite H1 in E. cbn [g_ents] in E.
      destruct (rstep _ _ _) as [(s, o)|] eqn:Er in E; [|discriminate]. cbn [bind] in E. apply (f_equal (fun r => match r with Ok x => x | Err _ => N0 end)) in E. cbv beta iota in E. rewrite <- E. cbn [n_ch].
      intros k Ik. destruct (link_dec k (m, n, c)) as [->|Nk]; [apply set_ch_same|rewrite set_ch_other by auto; auto]. }
    split; [exact He'|]. apply Snd. exact He'.
Qed.
Lemma turn_fair : forall d, (forall n, In n nodes -> 0 <= d <= r_maxn (cf n)) -> fair links turn_st turn_ev d.
Proof.
  intros d Hd k T Ik. destruct (In_nth links k (0, 0, 0) Ik) as (j & Hj & Ej).
  set (q := (T * length links + j)%nat). assert (Eq : turn_link q = k).
  { unfold turn_link, q. rewrite Nat.add_comm, Nat.mod_add by lia. rewrite Nat.mod_small by auto. exact Ej. }
  assert (Hq : (T <= q)%nat) by (unfold q; destruct links; [contradiction|cbn [length]; lia]).
  destruct (turn_chan q) as (_ & H). destruct (turn_even q) as (E1 & E2 & E3 & E4). rewrite Eq in H.
  exists (2 * q + 1)%nat. eexists _, []. split; [lia|]. split; [unfold turn_ev; rewrite E2, E4, Eq; reflexivity|]. split; [exact H|]. cbn [g_time g_ents]. split; [lia|].
  unfold snap. rewrite map_map. cbn [fst]. rewrite map_id. apply span_in. destruct k as ((m, n), c). cbn [fst]. apply Hd. apply (st_links _ _ _ _ _ Hst) in Ik. apply Ik.
Qed.
End Turn.
Theorem fair_runs_exist : forall home cf nodes links N0, stable home cf nodes links N0 -> links <> [] -> (forall k, In k links -> n_ch N0 k = []) ->
  exists st ev, st 0%nat = N0 /\ run home cf links st ev /\ forall d, (forall n, In n nodes -> 0 <= d <= r_maxn (cf n)) -> fair links st ev d.
Proof.
  intros home cf nodes links N0 H N E. exists (turn_st home cf links N0), (turn_ev cf links). split; [reflexivity|]. split; [eapply turn_run; eauto|]. intros d Hd. eapply turn_fair; eauto.
Qed.
Print Assumptions fair_runs_exist.

(** A stable network: two routers, each of which has heard of the other and
    has been told that its own address is unreachable. *)
Definition two_cf (n : Z) : rcfg := {| r_home := 1; r_tid := n; r_maxn := 100; r_maxhops := 16; r_maxcost := 128;
  r_l2 := false; r_maxarea := 63; r_amaxhops := 30; r_amaxcost := 1022; r_cost := fun _ => 4 |}.
Definition two_hist (n : Z) : list rev := [Up 1 1 (8 - n) NL1; Msg1 1 1 (8 - n) [(n, (32, 1027))]].
Definition two_st (n : Z) : rst := match rsteps (two_cf n) (start (two_cf n)) (two_hist n) with Ok (s, _) => s | Err _ => start (two_cf n) end.
Definition two_net : net := {| n_rt := two_st; n_ch := fun _ => [] |}.
Example stable_example : stable 1 two_cf [3; 5] [(3, 5, 1); (5, 3, 1)] two_net.
Proof.
  constructor.
  - intros n [<-|[<-|[]]]; (split; [unfold cfg_ok, two_cf, INFCOST; cbn; repeat split; intros; try lia; discriminate|split; reflexivity]).
  - assert (G : forall n, In n [3; 5] -> exists o, rsteps (two_cf n) (start (two_cf n)) (two_hist n) = Ok (two_st n, o)).
    { intros n Hn. unfold two_st. destruct (rsteps (two_cf n) (start (two_cf n)) (two_hist n)) as [(s, o)|] eqn:E; [eauto|]. destruct Hn as [<-|[<-|[]]]; vm_compute in E; discriminate. }
    intros n Hn. split.
    + destruct (G n Hn) as (o & E). exists (two_hist n), o. split; [|exact E]. unfold two_hist. apply h_up; [intros []|left; reflexivity|].
      apply (h_msg1 _ _ _ _ _ NL1); [left; reflexivity|reflexivity| |constructor]. constructor; [|constructor]. cbn [fst snd]. destruct Hn as [<-|[<-|[]]]; lia.
    + destruct Hn as [<-|[<-|[]]]; vm_compute; discriminate.
  - intros m n c. cbn [n_rt two_net]. split.
    + intros [H|[H|[]]]; injection H as <- <- <-; vm_compute; auto.
    + intros (Hm & Hn & K). destruct Hn as [<-|[<-|[]]]; vm_compute in K; destruct K as [K|[K|[]]]; try discriminate K; injection K as <- <-; cbn; auto.
  - intros n k Hn K. cbn [n_rt two_net] in K. destruct Hn as [<-|[<-|[]]]; vm_compute in K; destruct K as [<-|[<-|[]]]; auto; right; eexists _, _; (split; [reflexivity|cbn; auto]).
  - intros k g _ [].
Qed.
