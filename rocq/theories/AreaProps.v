(** Convergence of the routing tables of a network of several areas, and
    delivery of packets once they have converged (C64). *)
From Coq Require Import Sorted.
From Verif Require Import Base Dict RoutingModel RoutingProps ForwardModel ForwardProps DvModel DvProps AreaModel AreaProofs.

(** ** Runs of the network *)
(** What a router may send: level 2 messages only if it is a level 2 router,
    with areas from 1 up; no negative cost. *)
Definition amsg_ok (C : rcfg) (g : amsg) : Prop :=
  (a_two g = true -> r_l2 C = true) /\ Forall (fun e => (if a_two g then 1 else 0) <= fst e /\ 0 <= snd (snd e)) (a_ents g).
(** A network whose adjacencies are the links: the routers have come to
    their present states by any history, each has put its own address (and,
    at level 2, area) in its minimum vector (see routing_own_refuted), and
    the links may still hold old messages with any contents.  All level 2
    routers have the same number of areas. *)
Record steady (cf : Z -> rcfg) (nodes : list Z) (links : list link) (N0 : anet) : Prop := {
  sd_cfg : forall n, In n nodes -> cfg_ok (cf n) /\ n = nid (r_home (cf n)) (r_tid (cf n));
  sd_area : forall m n, In m nodes -> In n nodes -> r_l2 (cf m) = true -> r_l2 (cf n) = true -> r_maxarea (cf m) = r_maxarea (cf n);
  sd_rt : forall n, In n nodes -> reached (cf n) (a_rt N0 n) /\ min1 (a_rt N0 n) (r_tid (cf n)) <> INF /\
    (r_l2 (cf n) = true -> min2 (a_rt N0 n) (r_home (cf n)) <> INF);
  sd_ends : forall m n c, In (m, n, c) links -> In m nodes /\ In n nodes;
  sd_l1 : forall n k, In n nodes -> (In k (dkeys (l1 (a_rt N0 n))) <->
    k = ASelf \/ exists m c, In (m, n, c) links /\ r_home (cf m) = r_home (cf n) /\ k = keyof cf m c);
  sd_l2 : forall n k, In n nodes -> r_l2 (cf n) = true -> (In k (dkeys (l2 (a_rt N0 n))) <->
    k = ASelf \/ exists m c, In (m, n, c) links /\ r_l2 (cf m) = true /\ k = keyof cf m c);
  sd_ch : forall m n c g, In (m, n, c) links -> In g (a_ch N0 (m, n, c)) -> a_time g = 0%nat /\ amsg_ok (cf m) g }.
Definition aev_ok (cf : Z -> rcfg) (links : list link) (e : aev) : Prop :=
  match e with
  | ASend true (m, n, c) dests => In (m, n, c) links /\ r_l2 (cf m) = true /\ Forall (fun i => 1 <= i <= r_maxarea (cf m)) dests
  | ASend false (m, n, c) dests => In (m, n, c) links /\ Forall (fun i => 0 <= i <= r_maxn (cf m)) dests
  | ARecv k | ALose k => In k links
  end.
Definition arun (cf : Z -> rcfg) (links : list link) (st : nat -> anet) (ev : nat -> aev) : Prop :=
  forall t, aev_ok cf links (ev t) /\ astep cf (S t) (st t) (ev t) = Ok (st (S t)).
(** The links that matter for a level: those between level 2 routers, or
    those inside area h. *)
Definition relevant (cf : Z -> rcfg) (two : bool) (h m n : Z) : Prop :=
  if two then r_l2 (cf m) = true /\ r_l2 (cf n) = true else r_home (cf m) = h /\ r_home (cf n) = h.
(** Each of these delivers, again and again, a message of that level about
    destination d sent after any given time. *)
Definition afair (cf : Z -> rcfg) (links : list link) (st : nat -> anet) (ev : nat -> aev) (two : bool) (h d : Z) : Prop :=
  forall m n c T, In (m, n, c) links -> relevant cf two h m n ->
    exists t g rest, (T <= t)%nat /\ ev t = ARecv (m, n, c) /\ a_ch (st t) (m, n, c) = g :: rest /\ (S T <= a_time g)%nat /\
      a_two g = two /\ In d (map fst (a_ents g)).
(** The destinations all routers of the area, or all level 2 routers, know. *)
Definition in_range (cf : Z -> rcfg) (nodes : list Z) (two : bool) (h d : Z) : Prop :=
  forall n, In n nodes -> relevant cf two h n n -> if two then 1 <= d <= r_maxarea (cf n) else 0 <= d <= r_maxn (cf n).
Definition fair_all (cf : Z -> rcfg) (nodes : list Z) (links : list link) (st : nat -> anet) (ev : nat -> aev) : Prop :=
  forall two h d, in_range cf nodes two h d -> afair cf links st ev two h d.

(** Paths to area A over level 2 routers. *)
Inductive area_path (cf : Z -> rcfg) (links : list link) (A : Z) : Z -> Z -> Z -> Prop :=
  | arp_here : forall n, r_home (cf n) = A -> area_path cf links A n 0 0
  | arp_link : forall m n q h c, In (m, n, q) links -> r_l2 (cf m) = true -> r_l2 (cf n) = true ->
      area_path cf links A m h c -> area_path cf links A n (h + 1) (c + r_cost (cf n) q).
(** Paths inside an area to node number d, or for d = 0 to a router that is
    attached (att). *)
Inductive node_path (cf : Z -> rcfg) (links : list link) (N0 : anet) (att : Z -> bool) (d : Z) : Z -> Z -> Z -> Prop :=
  | nop_here : forall n, d = r_tid (cf n) \/ (d = 0 /\ att n = true) -> node_path cf links N0 att d n 0 0
  | nop_end : forall n h c k, eadj (a_rt N0 n) d = Some k -> ecol (a_rt N0 n) d = (h, c) -> c < INFCOST -> node_path cf links N0 att d n h c
  | nop_link : forall m n q h c, In (m, n, q) links -> r_home (cf m) = r_home (cf n) ->
      node_path cf links N0 att d m h c -> node_path cf links N0 att d n (h + 1) (c + r_cost (cf n) q).
(** What is claimed of the entries of the routers nd for one destination,
    given the paths to it. *)
Definition least_of (path : Z -> Z -> Z -> Prop) (n c : Z) : Prop := forall h' c', path n h' c' -> c <= c'.
Definition settled_to (cf : Z -> rcfg) (links : list link) (nd : Z -> Prop) (path : Z -> Z -> Z -> Prop) (fixed : Z -> key -> Z * Z -> Prop) (mn mn0 : Z -> Z * Z) (out out0 : Z -> option key) (n : Z) : Prop :=
  mn n = mn0 n /\ out n = out0 n /\
  (forall k, out n = Some k ->
     path n (fst (mn n)) (snd (mn n)) /\ fst (mn n) <= r_maxhops (cf n) /\ 0 <= snd (mn n) <= r_maxcost (cf n) /\
     (fixed n k (mn n) \/ exists c m, k = keyof cf m c /\ In (m, n, c) links /\ nd m /\ out m <> None /\ mn m = (fst (mn n) - 1, snd (mn n) - r_cost (cf n) c))) /\
  ((forall h c, path n h c -> r_maxhops (cf n) < h \/ r_maxcost (cf n) < c) -> out n = None /\ mn n = INF) /\
  (forall Mh Mc h c, (forall x, nd x -> Mc <= r_maxcost (cf x) /\ Mh <= r_maxhops (cf x)) ->
     (forall x h' c', nd x -> path x h' c' -> least_of path x c' -> c' <= Mc -> h' <= Mh) ->
     path n h c -> least_of path n c -> c <= Mc -> out n <> None /\ snd (mn n) = c).

(** The entries that do not come from a neighbour: the router is in the area,
    is the node or is attached itself, or the node is an adjacent end node. *)
Definition area_fixed (cf : Z -> rcfg) (A n : Z) (k : key) (v : Z * Z) : Prop := k = ASelf /\ r_home (cf n) = A /\ v = (0, 0).
Definition node_fixed (cf : Z -> rcfg) (N0 : anet) (att : Z -> bool) (d n : Z) (k : key) (v : Z * Z) : Prop :=
  (k = ASelf /\ (d = r_tid (cf n) \/ (d = 0 /\ att n = true)) /\ v = (0, 0)) \/ (eadj (a_rt N0 n) d = Some k /\ ecol (a_rt N0 n) d = v).
Definition is_l2r (cf : Z -> rcfg) (nodes : list Z) (n : Z) : Prop := In n nodes /\ r_l2 (cf n) = true.
Definition in_area (cf : Z -> rcfg) (nodes : list Z) (h n : Z) : Prop := In n nodes /\ r_home (cf n) = h.
Lemma aset_ch_same : forall f k l, aset_ch f k l k = l.
Proof. intros. unfold aset_ch. rewrite (proj2 (link_eqb_eq k k) eq_refl). reflexivity. Qed.
Lemma aset_ch_other : forall f k l k', k' <> k -> aset_ch f k l k' = f k'.
Proof. intros f k l k' H. unfold aset_ch. destruct (link_eqb k' k) eqn:E; [apply link_eqb_eq in E; contradiction|reflexivity]. Qed.
Lemma lastv_notin : forall es d x, ~ In d (map fst es) -> lastv es d x = x.
Proof.
  unfold lastv. induction es as [|e es IH]; intros d x H; cbn [fold_left]; [reflexivity|]. cbn [map] in H. destruct (Z.eqb_spec (fst e) d) as [E|E]; [exfalso; apply H; left; auto|].
  apply IH. intros X. apply H. right. auto.
Qed.
Lemma lastv_hop : forall w es d x old, lastv (add_hop w es) d old = if in_dec Z.eq_dec d (map fst es) then hopv (lastv es d x) w else old.
Proof.
  intros w. induction es as [|e es IH]; intros d x old; [reflexivity|].
  change (lastv (add_hop w (e :: es)) d old) with (lastv (add_hop w es) d (if fst e =? d then hopv (snd e) w else old)).
  change (lastv (e :: es) d x) with (lastv es d (if fst e =? d then snd e else x)). rewrite (IH d (if fst e =? d then snd e else x)).
  destruct (in_dec Z.eq_dec d (map fst es)) as [H|H], (in_dec Z.eq_dec d (map fst (e :: es))) as [H'|H']; cbn [map In] in H'; destruct (Z.eqb_spec (fst e) d) as [E|E]; try tauto; try reflexivity.
  - rewrite lastv_notin by auto. reflexivity.
Qed.
Lemma lastv_asnap : forall two s dests d x, In d dests -> lastv (asnap two s dests) d x = if two then min2 s d else min1 s d.
Proof.
  intros two s dests d. induction dests as [|i l IH]; intros x H; [destruct H|].
  change (lastv (asnap two s (i :: l)) d x) with (lastv (asnap two s l) d (if i =? d then (if two then min2 s i else min1 s i) else x)).
  destruct (in_dec Z.eq_dec d l) as [I|I]; [apply IH; auto|]. rewrite lastv_notin by (unfold asnap; rewrite map_map; cbn [fst]; rewrite map_id; auto).
  destruct H as [->|H]; [rewrite Z.eqb_refl; reflexivity|contradiction].
Qed.
Lemma min2_pos : forall C s i, cfg_ok C -> r_l2 C = true -> inv2 C s -> tabs2 C s -> 1 <= i <= r_maxarea C -> Forall (fun y => 0 <= ccost y) (cands2 s i) /\ 0 <= snd (min2 s i).
Proof.
  intros C s i CF L (_ & I2) T Hi. destruct (I2 L) as (Co & _). pose proof Co as (N & (v & G & S) & F). pose proof CF as (_ & K2 & _).
  assert (P : Forall (fun y => 0 <= ccost y) (cands2 s i)).
  { apply Forall_forall. intros y Hy. apply in_map_iff in Hy as ((k, w) & <- & I). unfold ccost. cbn [fst snd].
    destruct k as [|c a t]; [|specialize (F _ _ I ltac:(discriminate) i); lia]. rewrite (in_dget keqb keqb_decides _ _ _ N I) in G. injection G as ->.
    rewrite S by auto. destruct (i =? r_home C); unfold INF, INFCOST; cbn [snd]; lia. }
  split; [exact P|]. pose proof (T i Hi) as Ti. unfold tab2 in Ti. destruct (out2 s i) as [k|].
  - destruct (decision_reachable _ _ _ _ _ _ (proj2 K2) (cands2_ok s i) Ti) as (I & _). rewrite Forall_forall in P. exact (P _ I).
  - destruct (decision_unreachable _ _ _ _ _ _ (proj2 K2) (cands2_ok s i) Ti) as (X & _). specialize (X eq_refl). injection X as _ ->. unfold INFCOST. lia.
Qed.

Section ARun.
Variables (cf : Z -> rcfg) (nodes : list Z) (links : list link) (st : nat -> anet) (ev : nat -> aev).
Hypothesis Hst : steady cf nodes links (st 0%nat).
Definition node_ok (n : Z) (s : rst) : Prop :=
  let s0 := a_rt (st 0%nat) n in
  inv1 (cf n) s /\ inv2 (cf n) s /\ tabs (cf n) s /\ (r_l2 (cf n) = true -> tabs2 (cf n) s) /\
  dkeys (l1 s) = dkeys (l1 s0) /\ dkeys (l2 s) = dkeys (l2 s0) /\ ecol s = ecol s0 /\ eadj s = eadj s0.
Definition art_ok (N : anet) : Prop := forall n, In n nodes -> node_ok n (a_rt N n).
Definition ach_ok (N : anet) : Prop := forall m n c, In (m, n, c) links -> Forall (amsg_ok (cf m)) (a_ch N (m, n, c)).
Lemma astart_rt : art_ok (st 0%nat).
Proof.
  intros n Hn. destruct (sd_cfg _ _ _ _ Hst n Hn) as (CF & _). destruct (sd_rt _ _ _ _ Hst n Hn) as (R & O & O2).
  destruct (reached_inv _ _ CF R) as (I1 & I2). split; [auto|]. split; [auto|]. split; [|split; [|auto]].
  - intros i Hi. destruct I1 as (_ & G). destruct (G i Hi) as [T|(-> & M & _)]; [auto|]. contradiction.
  - intros L i Hi. destruct I2 as (_ & G). destruct (G L) as (_ & G' & _). destruct (G' i Hi) as [T|(-> & M & _)]; [auto|]. specialize (O2 L). contradiction.
Qed.
Lemma keyof_inj : forall m c m' c', In m nodes -> In m' nodes -> keyof cf m c = keyof cf m' c' -> m = m' /\ c = c'.
Proof.
  intros m c m' c' Hm Hm' E. destruct (sd_cfg _ _ _ _ Hst m Hm) as (_ & E1). destruct (sd_cfg _ _ _ _ Hst m' Hm') as (_ & E2). unfold keyof in E. injection E as <- Ea Et.
  rewrite E1, E2, Ea, Et. auto.
Qed.
(** Receipt of a message. *)
Definition recv_ev (m n c : Z) (g : amsg) : rev :=
  let es := add_hop (r_cost (cf n) c) (a_ents g) in
  if a_two g then Msg2 c (r_home (cf m)) (r_tid (cf m)) es else Msg1 c (r_home (cf m)) (r_tid (cf m)) es.
Lemma arecv_ok : forall N m n c g, art_ok N -> In (m, n, c) links -> amsg_ok (cf m) g ->
  exists s o, rstep (cf n) (a_rt N n) (recv_ev m n c g) = Ok (s, o) /\ node_ok n s /\
    (r_home (cf m) = r_home (cf n) -> forall i, 0 <= i <= r_maxn (cf n) -> colv s (keyof cf m c) i =
       if a_two g then colv (a_rt N n) (keyof cf m c) i else lastv (add_hop (r_cost (cf n) c) (a_ents g)) i (colv (a_rt N n) (keyof cf m c) i)) /\
    (r_l2 (cf m) = true -> r_l2 (cf n) = true -> forall i, 1 <= i <= r_maxarea (cf n) -> colv2 s (keyof cf m c) i =
       if a_two g then lastv (add_hop (r_cost (cf n) c) (a_ents g)) i (colv2 (a_rt N n) (keyof cf m c) i) else colv2 (a_rt N n) (keyof cf m c) i) /\
    (forall k i, k <> ASelf -> k <> keyof cf m c -> colv s k i = colv (a_rt N n) k i) /\
    (forall k i, k <> keyof cf m c -> colv2 s k i = colv2 (a_rt N n) k i).
Proof.
  intros N m n c g R Hk (M1 & M2). destruct (sd_ends _ _ _ _ Hst _ _ _ Hk) as (Hm & Hn).
  destruct (sd_cfg _ _ _ _ Hst n Hn) as (CF & _). destruct (R n Hn) as (I1 & I2 & T & T2 & S1 & S2 & S3 & S4).
  pose proof CF as (_ & _ & _ & Hcost & _). unfold recv_ev. set (es := add_hop (r_cost (cf n) c) (a_ents g)).
  assert (Same : exists s o, Ok (a_rt N n, @nil rout) = Ok (s, o) /\ node_ok n s /\
    (forall k i, colv s k i = colv (a_rt N n) k i) /\ (forall k i, colv2 s k i = colv2 (a_rt N n) k i)) by (exists (a_rt N n), []; split; [reflexivity|]; split; [apply R; auto|auto]).
  assert (Fes : Forall (fun e => (if a_two g then 1 else 0) <= fst e /\ 1 <= snd (snd e)) es).
  { unfold es, add_hop. apply Forall_map. eapply Forall_impl; [|exact M2]. intros e (A & B). cbn [fst snd]. specialize (Hcost c). split; [exact A|lia]. }
  destruct (a_two g) eqn:Tw; cbn [rstep].
  - specialize (M1 eq_refl). destruct (r_l2 (cf n)) eqn:L.
    + assert (K : In (keyof cf m c) (dkeys (l2 (a_rt N n)))) by (rewrite S2; apply (sd_l2 _ _ _ _ Hst n _ Hn L); right; exists m, c; auto).
      destruct (msg2_effect (cf n) (keyof cf m c) es (a_rt N n) 0 CF L ltac:(discriminate) I1 I2 K Fes T (T2 eq_refl)) as (s & o & E & J1 & J2 & J3 & J4 & J5 & J6 & J7 & J8 & J9).
      destruct (msg2_frame _ _ _ _ _ _ _ E) as (J10 & J11).
      exists s, o. split; [exact E|]. split; [unfold node_ok; repeat (split; [solve [auto|congruence]|]); congruence|]. split; [|split; [|split]].
      * intros _ i _. apply J9. discriminate.
      * intros _ _ i Hi. apply J7. auto.
      * intros k i Nk _. apply J9. auto.
      * intros k i Nk. apply J8. auto.
    + destruct Same as (s & o & E & Ok1 & A & B). exists s, o. split; [exact E|]. split; [auto|]. split; [intros; apply A|]. split; [discriminate|]. split; intros; [apply A|apply B].
  - destruct (Z.eqb_spec (r_home (cf m)) (r_home (cf n))) as [Eh|Eh].
    + assert (K : In (keyof cf m c) (dkeys (l1 (a_rt N n)))) by (rewrite S1; apply (sd_l1 _ _ _ _ Hst n _ Hn); right; exists m, c; auto).
      destruct (msg1_effect (cf n) (keyof cf m c) es (a_rt N n) 0 CF ltac:(discriminate) I1 I2 K Fes T) as (s & o & E & J1 & J2 & J3 & J4 & J5 & J6 & J7 & J8 & J9).
      destruct (msg1_frame _ _ _ _ _ _ _ E) as (F1 & F2 & F3 & _).
      exists s, o. split; [exact E|]. split; [|split; [|split; [|split]]].
      * split; [auto|]. split; [auto|]. split; [auto|]. split; [|rewrite F1; repeat split; congruence]. intros L i Hi. specialize (T2 L i Hi). unfold tab2, cands2 in *. rewrite F1, F2, F3. exact T2.
      * intros _ i Hi. apply J8. auto.
      * intros _ _ i Hi. unfold colv2. rewrite F1. reflexivity.
      * intros k i _ Nk. apply J9. auto.
      * intros k i Nk. unfold colv2. rewrite F1. reflexivity.
    + destruct Same as (s & o & E & Ok1 & A & B). exists s, o. split; [exact E|]. split; [auto|]. split; [intros X; contradiction|]. split; [intros; apply B|]. split; intros; [apply A|apply B].
Qed.
Lemma astep_net : forall t N e, art_ok N -> ach_ok N -> aev_ok cf links e ->
  exists N', astep cf t N e = Ok N' /\ art_ok N' /\ ach_ok N'.
Proof.
  intros t N e R Ch Ho. destruct e as [two ((m, n), c) dests|((m, n), c)|((m, n), c)]; cbn [astep].
  - eexists. split; [reflexivity|]. split; [exact R|]. intros m' n' c' Hk. cbn [a_ch]. destruct (link_dec (m', n', c') (m, n, c)) as [E|E]; [|rewrite aset_ch_other by auto; apply Ch; auto].
    injection E as -> -> ->. rewrite aset_ch_same. apply Forall_app. split; [apply Ch; auto|]. constructor; [|constructor].
    destruct (sd_ends _ _ _ _ Hst _ _ _ Hk) as (Hm & _). destruct (R m Hm) as (I1 & I2 & T & T2 & _). destruct (sd_cfg _ _ _ _ Hst m Hm) as (CF & _).
    destruct two; cbn [aev_ok] in Ho; unfold amsg_ok, asnap; cbn [a_two a_ents].
    + destruct Ho as (_ & L & Hd). split; [auto|]. apply Forall_map. eapply Forall_impl; [|exact Hd]. intros i Hi. cbn beta in Hi. cbn beta. cbn [fst snd]. split; [lia|]. eapply min2_pos; eauto.
    + destruct Ho as (_ & Hd). split; [discriminate|]. apply Forall_map. eapply Forall_impl; [|exact Hd]. intros i Hi. cbn beta in Hi. cbn beta. cbn [fst snd]. split; [lia|]. eapply min_pos; eauto.
  - cbn [aev_ok] in Ho. pose proof (Ch m n c Ho) as Fc. destruct (a_ch N (m, n, c)) as [|g rest] eqn:Eq; [eauto|]. inversion_clear Fc as [|? ? G F].
    destruct (arecv_ok N m n c g R Ho G) as (s & o & E & J & _). fold (recv_ev m n c g). rewrite E. cbn [bind]. eexists. split; [reflexivity|]. split.
    + intros x Hx. cbn [a_rt]. destruct (Z.eq_dec x n) as [->|Nx]; [rewrite set_rt_same; auto|rewrite set_rt_other by auto; apply R; auto].
    + intros m' n' c' Hk. cbn [a_ch]. destruct (link_dec (m', n', c') (m, n, c)) as [E'|E']; [|rewrite aset_ch_other by auto; apply Ch; auto]. injection E' as -> -> ->. rewrite aset_ch_same. exact F.
  - eexists. split; [reflexivity|]. split; [exact R|]. intros m' n' c' Hk. cbn [a_ch]. destruct (link_dec (m', n', c') (m, n, c)) as [E|E]; [|rewrite aset_ch_other by auto; apply Ch; auto].
    injection E as -> -> ->. rewrite aset_ch_same. pose proof (Ch m n c Hk) as F. destruct (a_ch N (m, n, c)); [constructor|]. inversion_clear F. auto.
Qed.
Hypothesis Hrun : arun cf links st ev.
Lemma arun_ok : forall t, art_ok (st t) /\ ach_ok (st t).
Proof.
  induction t as [|t (R & Ch)]; [split; [apply astart_rt|intros m n c Hk; apply Forall_forall; intros g Hg; apply (sd_ch _ _ _ _ Hst m n c g Hk Hg)]|].
  destruct (Hrun t) as (Ho & E). destruct (astep_net (S t) (st t) (ev t) R Ch Ho) as (N' & E' & R' & C'). rewrite E in E'. injection E' as <-. auto.
Qed.

(** The columns of one level for one destination are renewed. *)
Section One.
Variables (two : bool) (h d : Z).
Hypothesis Hd : in_range cf nodes two h d.
Hypothesis Hfair : afair cf links st ev two h d.
Definition relb (k : link) : bool :=
  let '(m, n, _) := k in if two then r_l2 (cf m) && r_l2 (cf n) else (r_home (cf m) =? h) && (r_home (cf n) =? h).
Definition llinks : list link := filter relb links.
Lemma llinks_in : forall m n c, In (m, n, c) llinks <-> In (m, n, c) links /\ relevant cf two h m n.
Proof.
  intros m n c. unfold llinks. rewrite filter_In. unfold relb, relevant. destruct two; [rewrite andb_true_iff; tauto|]. rewrite andb_true_iff, !Z.eqb_eq. tauto.
Qed.
Definition omn (t : nat) (m : Z) : Z * Z := if two then min2 (a_rt (st t) m) d else min1 (a_rt (st t) m) d.
Definition ocl (t : nat) (k : link) : Z * Z :=
  let '(m, n, c) := k in if two then colv2 (a_rt (st t) n) (keyof cf m c) d else colv (a_rt (st t) n) (keyof cf m c) d.
Definition ow (k : link) : Z := let '(m, n, c) := k in r_cost (cf n) c.
Definition says (g : amsg) : nat * option (Z * Z) :=
  (a_time g, if Bool.eqb (a_two g) two then if in_dec Z.eq_dec d (map fst (a_ents g)) then Some (lastv (a_ents g) d INF) else None else None).
Definition och (t : nat) (k : link) : list (nat * option (Z * Z)) := map says (a_ch (st t) k).
Lemma one_recv : forall t m n c g rest, In (m, n, c) llinks -> ev t = ARecv (m, n, c) -> a_ch (st t) (m, n, c) = g :: rest ->
  a_ch (st (S t)) (m, n, c) = rest /\ ocl (S t) (m, n, c) = match snd (says g) with Some v => hopv v (r_cost (cf n) c) | None => ocl t (m, n, c) end.
Proof.
  intros t m n c g rest Hk Ee Eq. apply llinks_in in Hk as (Hk & Re). destruct (arun_ok t) as (R & Ch). destruct (Hrun t) as (_ & E). rewrite Ee in E. cbn [astep] in E. rewrite Eq in E.
  pose proof (Ch m n c Hk) as F. rewrite Eq in F. inversion_clear F as [|? ? G _]. destruct (arecv_ok (st t) m n c g R Hk G) as (s & o & Er & J1 & J2 & J3 & _).
  fold (recv_ev m n c g) in E. rewrite Er in E. cbn [bind] in E. injection E as E. rewrite <- E. cbn [a_ch]. rewrite aset_ch_same. split; [reflexivity|].
  unfold ocl. rewrite <- E. cbn [a_rt]. rewrite set_rt_same. destruct (sd_ends _ _ _ _ Hst _ _ _ Hk) as (Hm & Hn). unfold says. cbn [snd]. unfold in_range in Hd. unfold relevant in Re, Hd. destruct two.
  - destruct Re as (L1 & L2). rewrite J3 by (auto; apply (Hd n Hn); auto). destruct (a_two g); cbn [Bool.eqb]; [|reflexivity]. rewrite (lastv_hop _ _ _ INF). destruct (in_dec Z.eq_dec d (map fst (a_ents g))); reflexivity.
  - destruct Re as (L1 & L2). rewrite J2 by (try congruence; apply (Hd n Hn); auto). destruct (a_two g); cbn [Bool.eqb]; [reflexivity|]. rewrite (lastv_hop _ _ _ INF). destruct (in_dec Z.eq_dec d (map fst (a_ents g))); reflexivity.
Qed.
Lemma one_step : forall t k, In k llinks -> m_send omn ocl och t k \/ m_recv ocl ow och t k \/ m_lose ocl och t k \/ m_none ocl och t k.
Proof.
  intros t ((m, n), c) Hk. pose proof Hk as Hk'. apply llinks_in in Hk' as (Hl & Re). destruct (Hrun t) as (Ho & E). destruct (arun_ok t) as (R & Ch).
  destruct (ev t) as [tw ((m1, n1), c1) dests|((m1, n1), c1)|((m1, n1), c1)] eqn:Ee; cbn [astep] in E.
  - injection E as E. assert (Cl : ocl (S t) (m, n, c) = ocl t (m, n, c)) by (unfold ocl; rewrite <- E; reflexivity).
    destruct (link_dec (m, n, c) (m1, n1, c1)) as [Ek|N].
    + injection Ek as <- <- <-. left. eexists. split; [|split; [|exact Cl]].
      * unfold och. rewrite <- E. cbn [a_ch]. rewrite aset_ch_same, map_app. cbn [map]. unfold says at 2. cbn [a_time]. reflexivity.
      * cbn [a_two a_ents sndr fst]. destruct (Bool.eqb tw two) eqn:B; [|auto]. apply eqb_prop in B. subst tw. destruct (in_dec Z.eq_dec d _) as [I|I]; [|auto]. right. f_equal.
        unfold asnap in I. rewrite map_map in I. cbn [fst] in I. rewrite map_id in I. rewrite lastv_asnap by auto. reflexivity.
    + right. right. right. split; [|exact Cl]. unfold och. rewrite <- E. cbn [a_ch]. rewrite aset_ch_other by auto. reflexivity.
  - destruct (link_dec (m, n, c) (m1, n1, c1)) as [Ek|N].
    + injection Ek as <- <- <-. destruct (a_ch (st t) (m, n, c)) as [|g rest] eqn:Eq.
      * injection E as E. right. right. right. unfold m_none, och, ocl. rewrite <- E. auto.
      * right. left. destruct (one_recv t m n c g rest Hk Ee Eq) as (A & B). exists (fst (says g)), (snd (says g)), (map says rest). unfold och. rewrite Eq, A. cbn [map]. split; [f_equal; apply surjective_pairing|]. split; [reflexivity|exact B].
    + right. right. right. destruct (a_ch (st t) (m1, n1, c1)) as [|g rest] eqn:Eq; [injection E as E; unfold m_none, och, ocl; rewrite <- E; auto|].
      cbn [aev_ok] in Ho. pose proof (Ch m1 n1 c1 Ho) as F. rewrite Eq in F. inversion_clear F as [|? ? G _]. destruct (arecv_ok (st t) m1 n1 c1 g R Ho G) as (s & o & Er & J1 & _ & _ & J4 & J5).
      fold (recv_ev m1 n1 c1 g) in E. rewrite Er in E. cbn [bind] in E. injection E as E. unfold m_none, och, ocl. rewrite <- E. cbn [a_ch a_rt]. rewrite aset_ch_other by auto. split; [reflexivity|].
      destruct (Z.eq_dec n n1) as [<-|Nn]; [|rewrite set_rt_other by auto; reflexivity]. rewrite set_rt_same.
      assert (Nk : keyof cf m c <> keyof cf m1 c1).
      { intros X. destruct (sd_ends _ _ _ _ Hst _ _ _ Hl) as (Hm & _). destruct (sd_ends _ _ _ _ Hst _ _ _ Ho) as (Hm1 & _). destruct (keyof_inj _ _ _ _ Hm Hm1 X) as (-> & ->). apply N. reflexivity. }
      destruct two; [apply J5; auto|apply J4; [discriminate|auto]].
  - injection E as E. assert (Cl : ocl (S t) (m, n, c) = ocl t (m, n, c)) by (unfold ocl; rewrite <- E; reflexivity).
    destruct (link_dec (m, n, c) (m1, n1, c1)) as [Ek|N].
    + injection Ek as <- <- <-. right. right. left. split; [|exact Cl]. unfold och. rewrite <- E. cbn [a_ch]. rewrite aset_ch_same. destruct (a_ch (st t) (m, n, c)); reflexivity.
    + right. right. right. split; [|exact Cl]. unfold och. rewrite <- E. cbn [a_ch]. rewrite aset_ch_other by auto. reflexivity.
Qed.
Lemma one_fresh : forall T, exists T', (T <= T')%nat /\ forall t m n c, (T' <= t)%nat -> In (m, n, c) links -> relevant cf two h m n ->
  exists t', (T <= t')%nat /\ ocl t (m, n, c) = hopv (omn t' m) (r_cost (cf n) c).
Proof.
  intros T. destruct (mid_fresh llinks omn ocl ow och) with (T := T) as (T' & A & B).
  - intros ((m, n), c) Hk. apply llinks_in in Hk as (Hk & _). unfold och. apply Forall_map. apply Forall_forall. intros g Hg. apply (sd_ch _ _ _ _ Hst _ _ _ g Hk Hg).
  - exact one_step.
  - intros ((m, n), c) T0 Hk. pose proof Hk as Hk'. apply llinks_in in Hk' as (Hl & Re). destruct (Hfair m n c T0 Hl Re) as (t & g & rest & Ht & Ee & Eq & Hg & Tw & Hin).
    destruct (one_recv t m n c g rest Hk Ee Eq) as (C1 & C2). assert (Sg : says g = (a_time g, Some (lastv (a_ents g) d INF))).
    { unfold says. rewrite Tw, Bool.eqb_reflx. destruct (in_dec Z.eq_dec d (map fst (a_ents g))); [reflexivity|contradiction]. }
    exists t, (a_time g), (lastv (a_ents g) d INF), (map says rest). split; [auto|]. unfold och. rewrite Eq, C1, C2. cbn [map]. rewrite Sg. cbn [snd]. auto.
  - exists T'. split; [auto|]. intros t m n c Ht Hl Re. apply (B t (m, n, c) Ht). apply llinks_in. auto.
Qed.
End One.

(** *** Level 2 *)
Lemma l2_key : forall n c a m, (is_l2r cf nodes) n -> In (ANbr c a m) (dkeys (l2 (a_rt (st 0%nat) n))) ->
  (is_l2r cf nodes) (nid a m) /\ In (nid a m, n, c) links /\ ANbr c a m = keyof cf (nid a m) c.
Proof.
  intros n c a m (Hn & L) K. apply (sd_l2 _ _ _ _ Hst n _ Hn L) in K as [K|(m' & c' & Hl & L' & K)]; [discriminate K|]. unfold keyof in K. injection K as -> -> ->.
  destruct (sd_ends _ _ _ _ Hst _ _ _ Hl) as (Hm & _). destruct (sd_cfg _ _ _ _ Hst m' Hm) as (_ & E). rewrite <- E. split; [split; auto|]. split; [auto|reflexivity].
Qed.
Lemma area_level : forall A, in_range cf nodes true 0 A -> afair cf links st ev true 0 A ->
  exists T, forall t n, (T <= t)%nat -> (is_l2r cf nodes) n ->
    settled_to cf links (is_l2r cf nodes) (area_path cf links A) (area_fixed cf A) (fun x => min2 (a_rt (st t) x) A) (fun x => min2 (a_rt (st T) x) A)
      (fun x => out2 (a_rt (st t) x) A) (fun x => out2 (a_rt (st T) x) A) n.
Proof.
  intros A Hd Hfair.
  set (keys := fun n => dkeys (l2 (a_rt (st 0%nat) n))). set (pre := fun _ : Z => @nil cand). set (self := fun n => if A =? r_home (cf n) then (0, 0) else INF).
  set (rc := fun n c => r_cost (cf n) c). set (lk := fun m n c => In (m, n, c) links). set (colf := fun t n k => colv2 (a_rt (st t) n) k A).
  assert (Rg : forall n, (is_l2r cf nodes) n -> 1 <= A <= r_maxarea (cf n)) by (intros n (Hn & L); apply (Hd n Hn); split; auto).
  assert (OK : forall t n, (is_l2r cf nodes) n -> cfg_ok (cf n) /\ cols2 (cf n) (a_rt (st t) n) /\ inv2 (cf n) (a_rt (st t) n) /\ tabs2 (cf n) (a_rt (st t) n) /\ dkeys (l2 (a_rt (st t) n)) = keys n).
  { intros t n (Hn & L). destruct (arun_ok t) as (R & _). destruct (R n Hn) as (_ & I2 & _ & T2 & _ & S2 & _). split; [apply (sd_cfg _ _ _ _ Hst n Hn)|]. pose proof I2 as (_ & I2'). split; [apply (I2' L)|]. auto. }
  assert (View : forall t n, (is_l2r cf nodes) n -> lview keys pre colf t n = cands2 (a_rt (st t) n) A).
  { intros t n Hn. destruct (OK t n Hn) as (_ & Co & _ & _ & K). rewrite (cands2_colv _ _ _ Co), K. reflexivity. }
  assert (Path : forall n h c, (is_l2r cf nodes) n -> (apath (lsk rc keys pre self) n h c <-> area_path cf links A n h c)).
  { intros n h c Hn. split; intros P.
    - induction P as [n h c k I H|n m w k h c I P IH].
      + unfold lsk, pre in I. cbn [map app] in I. apply in_map_iff in I as (k0 & E & _). destruct k0; [|discriminate E]. injection E as E _. unfold self in E.
        destruct (Z.eqb_spec A (r_home (cf n))) as [Eh|]; [injection E as <- <-; apply arp_here; auto|]. unfold INF in E. injection E as _ <-. lia.
      + unfold lsk, pre in I. cbn [map app] in I. apply in_map_iff in I as (k0 & E & Ik). destruct k0 as [|q a j]; [discriminate E|]. injection E as <- <- <-.
        destruct (l2_key n q a j Hn Ik) as (Hm & Hl & _). apply (arp_link cf links A (nid a j) n q h c); [exact Hl|apply Hm|apply Hn|apply IH; exact Hm].
    - induction P as [n Eh|m n q h c Hl Lm Ln P IH].
      + apply (ap_base _ n 0 0 ASelf); [|unfold INFCOST; lia]. unfold lsk, pre. cbn [map app]. apply in_map_iff. exists ASelf. split; [unfold self; rewrite Eh, Z.eqb_refl; reflexivity|].
        apply (sd_l2 _ _ _ _ Hst n ASelf); [apply Hn|apply Hn|auto].
      + destruct (sd_ends _ _ _ _ Hst _ _ _ Hl) as (Hm & _). destruct (sd_cfg _ _ _ _ Hst m Hm) as (_ & Em). apply (ap_step _ n m (rc n q) (keyof cf m q)); [|apply IH; split; auto].
        unfold lsk, pre. cbn [map app]. apply in_map_iff. exists (keyof cf m q). split; [unfold keyof; rewrite <- Em; reflexivity|]. apply (sd_l2 _ _ _ _ Hst n _); [apply Hn|auto|]. right. exists m, q. auto. }
  destruct (level_converges (is_l2r cf nodes) (fun n => r_maxhops (cf n)) (fun n => r_maxcost (cf n)) rc lk keys pre self
              (fun t n => min2 (a_rt (st t) n) A) (fun t n => out2 (a_rt (st t) n) A) colf) as (T & HT).
  - intros n Hn. destruct (OK 0%nat n Hn) as ((_ & K & _) & _). exact K.
  - intros n c Hn. destruct (OK 0%nat n Hn) as ((_ & _ & _ & K & _) & _). apply K.
  - intros t n Hn. destruct (OK t n Hn) as (_ & (_ & (v & G & S) & _) & _). unfold colf, colv2, self. rewrite G. apply S. auto.
  - intros n c a m Hn K. destruct (l2_key n c a m Hn K) as (Hm & Hl & _). auto.
  - intros t n Hn. destruct (OK t n Hn) as (_ & _ & _ & T2 & _). specialize (T2 A (Rg n Hn)). unfold tab2 in T2. rewrite View by auto. rewrite T2. destruct (min2 (a_rt (st t) n) A). reflexivity.
  - intros t n Hn. rewrite View by auto. apply cands2_ok.
  - intros t n Hn. rewrite View by auto. destruct (OK t n Hn) as (CF & _ & I2 & T2 & _). apply (min2_pos (cf n)); auto. apply Hn.
  - intros T. destruct (one_fresh true 0 A Hd Hfair T) as (T' & B & C). exists T'. split; [auto|]. intros t n c a m Ht Hn K. destruct (l2_key n c a m Hn K) as (Hm & Hl & Ek).
    destruct (C t (nid a m) n c Ht Hl) as (t' & Ht' & E); [split; [apply Hm|apply Hn]|]. exists t'. split; [auto|]. unfold colf. rewrite Ek. exact E.
  - exists T. intros t n Ht Hn. destruct (HT t n Ht Hn) as (H1 & H2 & H3 & H4 & H5). split; [exact H1|]. split; [exact H2|]. split; [|split].
    + intros k E. destruct (H3 k E) as (P1 & P2 & P3 & P4). split; [apply Path; auto|]. split; [auto|]. split; [auto|]. destruct P4 as [I|(c & a & m & -> & Ik & Hm & Hl & No & Em)].
      * left. unfold lsk, pre in I. cbn [map app] in I. apply in_map_iff in I as (k0 & Ek & _). destruct k0; [|discriminate Ek]. injection Ek as E1 <-. split; [reflexivity|]. unfold self in E1.
        destruct (Z.eqb_spec A (r_home (cf n))) as [Eh|]; [split; auto|]. rewrite <- E1 in P3. cbn [snd INF] in P3. destruct (OK 0%nat n Hn) as ((_ & K & _) & _). lia.
      * right. destruct (l2_key n c a m Hn Ik) as (_ & _ & Ek). exists c, (nid a m). split; [auto|]. split; [auto|]. split; [auto|]. auto.
    + intros No. apply H4. intros h c P. apply No. apply Path; auto.
    + intros Mh Mc h c HM HH P L HC. apply (H5 Mh Mc h c); [exact HM| |apply Path; auto| |auto].
      * intros x h' c' Hx P' L' HC'. apply (HH x h' c' Hx); [apply Path; auto| |auto]. intros h2 c2 P2. apply (L' h2). apply Path; auto.
      * intros h2 c2 P2. apply (L h2). apply Path; auto.
Qed.

(** *** Level 1, once the attached flags are constant *)
Lemma l1_key : forall h n c a m, (in_area cf nodes) h n -> In (ANbr c a m) (dkeys (l1 (a_rt (st 0%nat) n))) ->
  (in_area cf nodes) h (nid a m) /\ In (nid a m, n, c) links /\ ANbr c a m = keyof cf (nid a m) c.
Proof.
  intros h n c a m (Hn & L) K. apply (sd_l1 _ _ _ _ Hst n _ Hn) in K as [K|(m' & c' & Hl & L' & K)]; [discriminate K|]. unfold keyof in K. injection K as -> -> ->.
  destruct (sd_ends _ _ _ _ Hst _ _ _ Hl) as (Hm & _). destruct (sd_cfg _ _ _ _ Hst m' Hm) as (_ & E). rewrite <- E. split; [split; congruence|]. split; [auto|reflexivity].
Qed.
Lemma node_level : forall Ta att h d, (forall t n, (Ta <= t)%nat -> In n nodes -> attached (a_rt (st t) n) = att n) ->
  in_range cf nodes false h d -> afair cf links st ev false h d ->
  exists T, (Ta <= T)%nat /\ forall t n, (T <= t)%nat -> (in_area cf nodes) h n ->
    settled_to cf links ((in_area cf nodes) h) (node_path cf links (st 0%nat) att d) (node_fixed cf (st 0%nat) att d) (fun x => min1 (a_rt (st t) x) d) (fun x => min1 (a_rt (st T) x) d)
      (fun x => out1 (a_rt (st t) x) d) (fun x => out1 (a_rt (st T) x) d) n.
Proof.
  intros Ta att h d Hatt Hd Hfair.
  set (keys := fun n => dkeys (l1 (a_rt (st 0%nat) n))). set (pre := fun n => [(ecol (a_rt (st 0%nat) n) d, eadj (a_rt (st 0%nat) n) d) : cand]).
  set (self := fun n => if (d =? r_tid (cf n)) || (att n && (d =? 0)) then (0, 0) else INF).
  set (rc := fun n c => r_cost (cf n) c). set (lk := fun m n c => In (m, n, c) links). set (colf := fun t n k => colv (a_rt (st (Ta + t)%nat) n) k d).
  assert (Rg : forall n, (in_area cf nodes) h n -> 0 <= d <= r_maxn (cf n)) by (intros n (Hn & L); apply (Hd n Hn); split; auto).
  assert (OK : forall t n, (in_area cf nodes) h n -> cfg_ok (cf n) /\ cols1 (cf n) (a_rt (st t) n) /\ tabs (cf n) (a_rt (st t) n) /\ dkeys (l1 (a_rt (st t) n)) = keys n /\
    ecol (a_rt (st t) n) = ecol (a_rt (st 0%nat) n) /\ eadj (a_rt (st t) n) = eadj (a_rt (st 0%nat) n)).
  { intros t n (Hn & L). destruct (arun_ok t) as (R & _). destruct (R n Hn) as ((Co & _) & _ & T & _ & S1 & _ & S3 & S4). split; [apply (sd_cfg _ _ _ _ Hst n Hn)|]. auto. }
  assert (View : forall t n, (in_area cf nodes) h n -> lview keys pre colf t n = cands1 (a_rt (st (Ta + t)%nat) n) d).
  { intros t n Hn. destruct (OK (Ta + t)%nat n Hn) as (_ & Co & _ & K & E1 & E2). rewrite (cands1_colv _ _ _ Co), K, E1, E2. reflexivity. }
  assert (Self : forall n k, In (inl k) (lsk rc keys pre self n) -> k = (ecol (a_rt (st 0%nat) n) d, eadj (a_rt (st 0%nat) n) d) \/ k = (self n, Some ASelf)).
  { intros n k I. unfold lsk, pre in I. cbn [map app] in I. destruct I as [I|I]; [left; congruence|]. apply in_map_iff in I as (k0 & E & _). destruct k0; [|discriminate E]. right. congruence. }
  assert (Path : forall n h' c, (in_area cf nodes) h n -> (apath (lsk rc keys pre self) n h' c <-> node_path cf links (st 0%nat) att d n h' c)).
  { intros n h' c Hn. split; intros P.
    - induction P as [n h' c k I H|n m w k h' c I P IH].
      + destruct (Self n _ I) as [E|E]; [injection E as E1 E2; eapply nop_end; eauto|]. injection E as E _. unfold self in E.
        destruct (Z.eqb_spec d (r_tid (cf n))) as [Ed|Nd]; cbn [orb] in E; [injection E as -> ->; apply nop_here; auto|].
        destruct (att n) eqn:At; cbn [andb] in E; [|unfold INF in E; injection E as _ ->; lia].
        destruct (Z.eqb_spec d 0); [injection E as -> ->; apply nop_here; auto|unfold INF in E; injection E as _ ->; lia].
      + unfold lsk, pre in I. cbn [map app] in I. destruct I as [I|I]; [discriminate I|]. apply in_map_iff in I as (k0 & E & Ik). destruct k0 as [|q a j]; [discriminate E|]. injection E as <- <- <-.
        destruct (l1_key h n q a j Hn Ik) as (Hm & Hl & _). apply (nop_link cf links (st 0%nat) att d (nid a j) n q h' c); [exact Hl|destruct Hm, Hn; congruence|apply IH; exact Hm].
    - induction P as [n Eh|n h' c k E1 E2 H|m n q h' c Hl Eh P IH].
      + apply (ap_base _ n 0 0 ASelf); [|unfold INFCOST; lia]. unfold lsk, pre. cbn [map app]. right. apply in_map_iff. exists ASelf. split.
        * unfold self. destruct Eh as [->|(-> & ->)]; rewrite Z.eqb_refl; [reflexivity|rewrite orb_true_r; reflexivity].
        * apply (sd_l1 _ _ _ _ Hst n ASelf); [apply Hn|auto].
      + apply (ap_base _ n h' c k); [|auto]. left. rewrite E1, E2. reflexivity.
      + destruct (sd_ends _ _ _ _ Hst _ _ _ Hl) as (Hm & _). destruct (sd_cfg _ _ _ _ Hst m Hm) as (_ & Em). apply (ap_step _ n m (rc n q) (keyof cf m q)); [|apply IH; split; [auto|destruct Hn; congruence]].
        unfold lsk, pre. cbn [map app]. right. apply in_map_iff. exists (keyof cf m q). split; [unfold keyof; rewrite <- Em; reflexivity|]. apply (sd_l1 _ _ _ _ Hst n _); [apply Hn|]. right. exists m, q. auto. }
  destruct (level_converges ((in_area cf nodes) h) (fun n => r_maxhops (cf n)) (fun n => r_maxcost (cf n)) rc lk keys pre self
              (fun t n => min1 (a_rt (st (Ta + t)%nat) n) d) (fun t n => out1 (a_rt (st (Ta + t)%nat) n) d) colf) as (T & HT).
  - intros n Hn. destruct (OK 0%nat n Hn) as ((_ & K & _) & _). exact K.
  - intros n c Hn. destruct (OK 0%nat n Hn) as ((_ & _ & _ & K & _) & _). apply K.
  - intros t n Hn. destruct (OK (Ta + t)%nat n Hn) as (_ & (_ & (v & G & S) & _) & _). unfold colf, colv, self. rewrite G. rewrite (S d (Rg n Hn)). rewrite Hatt; [reflexivity|lia|apply Hn].
  - intros n c a m Hn K. destruct (l1_key h n c a m Hn K) as (Hm & Hl & _). auto.
  - intros t n Hn. destruct (OK (Ta + t)%nat n Hn) as (_ & _ & T1 & _). specialize (T1 d (Rg n Hn)). unfold tab1 in T1. rewrite View by auto. rewrite T1. destruct (min1 (a_rt (st (Ta + t)%nat) n) d). reflexivity.
  - intros t n Hn. rewrite View by auto. destruct (OK (Ta + t)%nat n Hn) as (_ & Co & _). eapply cands1_ok; eauto.
  - intros t n Hn. rewrite View by auto. destruct (OK (Ta + t)%nat n Hn) as (CF & Co & _). apply (cands_pos (cf n)); auto.
  - intros T. destruct (one_fresh false h d Hd Hfair (Ta + T)) as (T' & B & C). exists T'. split; [lia|]. intros t n c a m Ht Hn K. destruct (l1_key h n c a m Hn K) as (Hm & Hl & Ek).
    destruct (C (Ta + t)%nat (nid a m) n c ltac:(lia) Hl) as (t' & Ht' & E); [split; [apply Hm|apply Hn]|]. exists (t' - Ta)%nat. split; [lia|]. unfold colf. rewrite Ek.
    replace (Ta + (t' - Ta))%nat with t' by lia. exact E.
  - exists (Ta + T)%nat. split; [lia|]. intros t n Ht Hn. destruct (HT (t - Ta)%nat n ltac:(lia) Hn) as (H1 & H2 & H3 & H4 & H5). replace (Ta + (t - Ta))%nat with t in * by lia.
    split; [exact H1|]. split; [exact H2|]. split; [|split].
    + intros k E. destruct (H3 k E) as (P1 & P2 & P3 & P4). split; [apply Path; auto|]. split; [auto|]. split; [auto|]. destruct P4 as [I|(c & a & m & -> & Ik & Hm & Hl & No & Em)].
      * left. destruct (Self n _ I) as [Ek|Ek]; [right; split; congruence|]. injection Ek as E1 ->. left. split; [reflexivity|]. unfold self in E1.
        destruct (Z.eqb_spec d (r_tid (cf n))) as [Ed|Nd]; cbn [orb] in E1; [split; auto|]. destruct (OK 0%nat n Hn) as ((_ & K & _) & _).
        destruct (att n) eqn:At; cbn [andb] in E1; [|rewrite E1 in P3; cbn [snd INF] in P3; lia].
        destruct (Z.eqb_spec d 0); [split; auto|rewrite E1 in P3; cbn [snd INF] in P3; lia].
      * right. destruct (l1_key h n c a m Hn Ik) as (_ & _ & Ek). exists c, (nid a m). split; [auto|]. split; [auto|]. split; [auto|]. auto.
    + intros No. apply H4. intros h' c P. apply No. apply Path; auto.
    + intros Mh Mc h' c HM HH P L HC. apply (H5 Mh Mc h' c); [exact HM| |apply Path; auto| |auto].
      * intros x h2 c' Hx P' L' HC'. apply (HH x h2 c' Hx); [apply Path; auto| |auto]. intros h3 c2 P2. apply (L' h3). apply Path; auto.
      * intros h2 c2 P2. apply (L h2). apply Path; auto.
Qed.

(** *** All destinations *)
Hypothesis Hfair : fair_all cf nodes links st ev.
Lemma list_T : forall (X : Type) (l : list X) (P : X -> nat -> Prop), (forall x T T', P x T -> (T <= T')%nat -> P x T') ->
  (forall x, In x l -> exists T, P x T) -> exists T, forall x, In x l -> P x T.
Proof.
  intros X l P M. induction l as [|x l IH]; intros H; [exists 0%nat; intros x []|].
  destruct IH as (T1 & A); [intros; apply H; right; auto|]. destruct (H x ltac:(left; auto)) as (T2 & B). exists (max T1 T2).
  intros y [<-|I]; [apply (M x T2); [auto|lia]|apply (M y T1); [auto|lia]].
Qed.
Lemma settled_later : forall nd path fixed mn mn0 mn1 out out0 out1 n, settled_to cf links nd path fixed mn mn0 out out0 n -> mn1 n = mn0 n -> out1 n = out0 n ->
  settled_to cf links nd path fixed mn mn1 out out1 n.
Proof. intros nd path fixed mn mn0 mn1 out out0 out1 n (A & B & C) E1 E2. split; [congruence|]. split; [congruence|exact C]. Qed.
Lemma l2_range : forall n A, In n nodes -> r_l2 (cf n) = true -> 1 <= A <= r_maxarea (cf n) -> in_range cf nodes true 0 A.
Proof. intros n A Hn L HA m Hm (L' & _). rewrite (sd_area _ _ _ _ Hst m n Hm Hn L' L). exact HA. Qed.
Definition area_at (A : Z) (T : nat) : Prop := forall t n, (T <= t)%nat -> is_l2r cf nodes n ->
  settled_to cf links (is_l2r cf nodes) (area_path cf links A) (area_fixed cf A) (fun x => min2 (a_rt (st t) x) A) (fun x => min2 (a_rt (st T) x) A)
      (fun x => out2 (a_rt (st t) x) A) (fun x => out2 (a_rt (st T) x) A) n.
Lemma areas_T : exists T, forall n A, In n nodes -> r_l2 (cf n) = true -> 1 <= A <= r_maxarea (cf n) -> area_at A T.
Proof.
  destruct (list_T Z (flat_map (fun n => if r_l2 (cf n) then span 1 (r_maxarea (cf n)) else []) nodes) area_at) as (T & H).
  - intros A T T' H L t n Ht Hn. eapply settled_later; [apply H; [lia|auto]| |]; cbn beta; apply (H T' n L Hn).
  - intros A I. apply in_flat_map in I as (n & Hn & I). destruct (r_l2 (cf n)) eqn:L; [|destruct I]. apply span_in in I. pose proof (l2_range n A Hn L I) as R.
    apply area_level; auto.
  - exists T. intros n A Hn L HA. apply H. apply in_flat_map. exists n. split; [auto|]. rewrite L. apply span_in. auto.
Qed.
Lemma attached_char : forall t n, In n nodes -> (attached (a_rt (st t) n) = true <->
  r_l2 (cf n) = true /\ exists A, 1 <= A <= r_maxarea (cf n) /\ A <> r_home (cf n) /\ out2 (a_rt (st t) n) A <> None).
Proof.
  intros t n Hn. destruct (arun_ok t) as (R & _). destruct (R n Hn) as (_ & (I0 & I2) & _). split.
  - intros E. destruct (r_l2 (cf n)) eqn:L; [|rewrite I0 in E by auto; discriminate E]. split; [auto|]. destruct (I2 eq_refl) as (_ & _ & Z0 & At). rewrite At in E. unfold is_attached in E.
    apply existsb_exists in E as (A & I & X). apply span_in in I. destruct (out2 (a_rt (st t) n) A) as [k|] eqn:O; [|discriminate X]. exists A.
    assert (A <> 0) by (intros ->; congruence). split; [lia|]. split; [|congruence]. destruct (Z.eqb_spec A (r_home (cf n))); [discriminate X|auto].
  - intros (L & A & HA & NA & O). destruct (I2 L) as (_ & _ & _ & At). rewrite At. unfold is_attached. apply existsb_exists. exists A. split; [apply span_in; lia|].
    destruct (out2 (a_rt (st t) n) A); [|contradiction]. destruct (Z.eqb_spec A (r_home (cf n))); [contradiction|reflexivity].
Qed.
Lemma attached_T : forall T, (forall n A, In n nodes -> r_l2 (cf n) = true -> 1 <= A <= r_maxarea (cf n) -> area_at A T) ->
  forall t n, (T <= t)%nat -> In n nodes -> attached (a_rt (st t) n) = attached (a_rt (st T) n).
Proof.
  intros T H t n Ht Hn. apply eq_true_iff_eq. rewrite !attached_char by auto. split; intros (L & A & HA & NA & O); (split; [auto|]); exists A; split; auto; split; auto;
    destruct (H n A Hn L HA t n Ht ltac:(split; auto)) as (_ & E & _); cbn beta in E; congruence.
Qed.
Definition node_at (att : Z -> bool) (hd : Z * Z) (T : nat) : Prop := forall t n, (T <= t)%nat -> in_area cf nodes (fst hd) n ->
  settled_to cf links (in_area cf nodes (fst hd)) (node_path cf links (st 0%nat) att (snd hd)) (node_fixed cf (st 0%nat) att (snd hd)) (fun x => min1 (a_rt (st t) x) (snd hd)) (fun x => min1 (a_rt (st T) x) (snd hd))
      (fun x => out1 (a_rt (st t) x) (snd hd)) (fun x => out1 (a_rt (st T) x) (snd hd)) n.
Lemma nodes_T : forall Ta, (forall t n, (Ta <= t)%nat -> In n nodes -> attached (a_rt (st t) n) = attached (a_rt (st Ta) n)) ->
  exists T, (Ta <= T)%nat /\ forall n d, In n nodes -> in_range cf nodes false (r_home (cf n)) d -> node_at (fun x => attached (a_rt (st Ta) x)) (r_home (cf n), d) T.
Proof.
  intros Ta Hatt. set (att := fun x => attached (a_rt (st Ta) x)).
  assert (Mono : forall x T T', node_at att x T -> (T <= T')%nat -> node_at att x T').
  { intros x T T' H L t n Ht Hn. eapply settled_later; [apply H; [lia|auto]| |]; cbn beta; apply (H T' n L Hn). }
  destruct (list_T (Z * Z) (flat_map (fun n => map (pair (r_home (cf n))) (span 0 (r_maxn (cf n)))) nodes) (fun x T => in_range cf nodes false (fst x) (snd x) -> node_at att x T)) as (T & H).
  - intros x T T' H L R. apply (Mono x T); auto.
  - intros (h, d) _. cbn [fst snd]. destruct (list_T unit [tt] (fun _ T => in_range cf nodes false h d -> node_at att (h, d) T)) as (T & H).
    + intros x T T' H L R. apply (Mono (h, d) T); auto.
    + intros _ _. assert (De : in_range cf nodes false h d \/ ~ in_range cf nodes false h d).
      { assert (G : forall l, (forall x, In x l -> In x nodes) -> (forall n, In n l -> r_home (cf n) = h -> 0 <= d <= r_maxn (cf n)) \/ ~ (forall n, In n nodes -> relevant cf false h n n -> 0 <= d <= r_maxn (cf n))).
        { induction l as [|x l IH]; intros Hl; [left; intros n []|]. destruct IH as [A|A]; [intros; apply Hl; right; auto| |right; auto].
          destruct (Z.eq_dec (r_home (cf x)) h) as [E|E]; [|left; intros n [<-|I] En; [contradiction|auto]].
          destruct (Z_le_dec 0 d) as [L1|L1]; [destruct (Z_le_dec d (r_maxn (cf x))) as [L2|L2]|].
          - left. intros n [<-|I] En; [lia|auto].
          - right. intros Q. specialize (Q x ltac:(apply Hl; left; auto) ltac:(split; auto)). lia.
          - right. intros Q. specialize (Q x ltac:(apply Hl; left; auto) ltac:(split; auto)). lia. }
        destruct (G nodes ltac:(auto)) as [A|A]; [left|right; exact A]. intros n Hn (E & _). apply A; auto. }
      destruct De as [R|R]; [|exists 0%nat; contradiction]. destruct (node_level Ta att h d Hatt R (Hfair false h d R)) as (T & _ & HT). exists T. intros _. exact HT.
    + exists T. apply (H tt). left. reflexivity.
  - exists (max Ta T). split; [lia|]. intros n d Hn R. apply (Mono _ T); [|lia]. apply H; [|exact R]. apply in_flat_map. exists n. split; [auto|]. apply in_map. apply span_in. apply (R n Hn). split; auto.
Qed.
End ARun.

(** ** The theorems on convergence *)
(** The network N1 is at rest: the flags and the entries of all tables are
    those of N (and so at all later times, see the theorem), and
    - a route to an area is a real path over level 2 routers, and so on as
      in settled_to;
    - a level 2 router is attached exactly if it has a route to another
      area;
    - a route to a node number is a real path inside the area; the one for
      number 0 is a path to the nearest attached router. *)
Definition at_rest (cf : Z -> rcfg) (nodes : list Z) (links : list link) (N0 N1 N : anet) : Prop :=
  (forall n A, In n nodes -> r_l2 (cf n) = true -> 1 <= A <= r_maxarea (cf n) ->
     settled_to cf links (is_l2r cf nodes) (area_path cf links A) (area_fixed cf A)
       (fun x => min2 (a_rt N x) A) (fun x => min2 (a_rt N1 x) A) (fun x => out2 (a_rt N x) A) (fun x => out2 (a_rt N1 x) A) n) /\
  (forall n, In n nodes -> attached (a_rt N n) = attached (a_rt N1 n) /\
     (attached (a_rt N n) = true <-> r_l2 (cf n) = true /\ exists A, 1 <= A <= r_maxarea (cf n) /\ A <> r_home (cf n) /\ out2 (a_rt N n) A <> None)) /\
  (forall n d, In n nodes -> in_range cf nodes false (r_home (cf n)) d ->
     settled_to cf links (in_area cf nodes (r_home (cf n))) (node_path cf links N0 (fun x => attached (a_rt N1 x)) d) (node_fixed cf N0 (fun x => attached (a_rt N1 x)) d)
       (fun x => min1 (a_rt N x) d) (fun x => min1 (a_rt N1 x) d) (fun x => out1 (a_rt N x) d) (fun x => out1 (a_rt N1 x) d) n).
Theorem areas_converge : forall cf nodes links st ev,
  steady cf nodes links (st 0%nat) -> arun cf links st ev -> fair_all cf nodes links st ev ->
  exists T, forall t, (T <= t)%nat -> at_rest cf nodes links (st 0%nat) (st T) (st t).
Proof.
  intros cf nodes links st ev Hst Hrun Hfair. destruct (areas_T cf nodes links st ev Hst Hrun Hfair) as (Ta & HA).
  pose proof (attached_T cf nodes links st ev Hst Hrun Ta HA) as Hatt.
  destruct (nodes_T cf nodes links st ev Hst Hrun Hfair Ta Hatt) as (T & L & HN). exists T. intros t Ht. split; [|split].
  - intros n A Hn L2 HA'. eapply settled_later; [apply (HA n A Hn L2 HA' t n ltac:(lia)); split; auto| |]; cbn beta; apply (HA n A Hn L2 HA' T n L ltac:(split; auto)).
  - intros n Hn. split; [rewrite (Hatt t n), (Hatt T n) by (auto; lia); reflexivity|]. apply (attached_char cf nodes links st ev Hst Hrun t n Hn).
  - intros n d Hn R. pose proof (HN n d Hn R t n Ht ltac:(split; auto)) as S. cbn [fst snd] in S.
    destruct S as (S1 & S2 & S3 & S4 & S5). split; [exact S1|]. split; [exact S2|].
    assert (Att : forall x, In x nodes -> attached (a_rt (st T) x) = attached (a_rt (st Ta) x)) by (intros x Hx; apply Hatt; auto).
    assert (Path : forall x h c, In x nodes -> (node_path cf links (st 0%nat) (fun x => attached (a_rt (st T) x)) d x h c <-> node_path cf links (st 0%nat) (fun x => attached (a_rt (st Ta) x)) d x h c)).
    { intros x h c Hx. split; intros P.
      - induction P as [x E|x h c k E1 E2 E3|m x q h c I E P IH]; [apply nop_here; rewrite Att in E by auto; exact E|eapply nop_end; eauto|].
        destruct (sd_ends _ _ _ _ Hst _ _ _ I) as (Hm & _). apply (nop_link _ _ _ _ _ m); auto.
      - induction P as [x E|x h c k E1 E2 E3|m x q h c I E P IH]; [apply nop_here; rewrite Att by auto; exact E|eapply nop_end; eauto|].
        destruct (sd_ends _ _ _ _ Hst _ _ _ I) as (Hm & _). apply (nop_link _ _ _ _ _ m); auto. }
    split; [|split].
    + intros k E. destruct (S3 k E) as (P1 & P2 & P3 & P4). split; [apply Path; auto|]. split; [auto|]. split; [auto|]. destruct P4 as [F|F]; [left|right; auto].
      unfold node_fixed in *. rewrite Att by auto. exact F.
    + intros No. apply S4. intros h c P. apply No. apply Path; auto.
    + intros Mh Mc h c HM HH P Le HC. apply (S5 Mh Mc h c); [exact HM| |apply Path; auto| |auto].
      * intros x h2 c' Hx P' L' HC'. apply (HH x h2 c' Hx); [apply Path; [apply Hx|auto]| |auto]. intros h3 c2 P2. apply (L' h3). apply Path; [apply Hx|auto].
      * intros h2 c2 P2. apply (Le h2). apply Path; auto.
Qed.
Print Assumptions areas_converge.

(** ** Delivery at rest *)
(** The packet gets to its destination: it is delivered at the node it is
    for, or sent to the end node it is for, or sent to a neighbour (which may
    receive it on any circuit) from which it gets there. *)
Inductive trip (cf : Z -> rcfg) (links : list link) (mv : Z -> Z) (N : anet) : Z -> option Z -> dpkt -> Prop :=
  | tr_here : forall n src p, d_dst p = (r_home (cf n), r_tid (cf n)) -> ahop cf mv N n src p = Ok (Deliver p) -> trip cf links mv N n src p
  | tr_end : forall n src p c a i q, d_dst p = (r_home (cf n), i) -> eadj (a_rt N n) i = Some (ANbr c a i) -> d_dst q = d_dst p ->
      ahop cf mv N n src p = Ok (Sent c (ANbr c a i) q) -> trip cf links mv N n src p
  | tr_next : forall m n src p c q, In (m, n, c) links -> d_dst q = d_dst p -> ahop cf mv N n src p = Ok (Sent c (keyof cf m c) q) ->
      (forall sc, trip cf links mv N m (Some sc) q) -> trip cf links mv N n src p.
Lemma hop_sent : forall cf mv N n src p c a i, findoadj (cf n) true (a_rt N n) (d_dst p) = FTo (ANbr c a i) -> 0 <= d_visit p < mv n -> mv n <= 63 ->
  exists q, ahop cf mv N n src p = Ok (Sent c (ANbr c a i) q) /\ d_dst q = d_dst p /\ 0 <= d_visit q <= d_visit p + 1.
Proof.
  intros cf mv N n src p c a i F V M. unfold ahop, forward, attempt. rewrite F. destruct src as [sc|].
  - set (p1 := if sc =? c then p else set_ie p false). assert (P1 : d_dst p1 = d_dst p /\ d_visit p1 = d_visit p) by (unfold p1; destruct (sc =? c); auto). destruct P1 as (P1 & P2).
    assert (H : d_visit p1 <? (if d_rts p then Z.min (mv n * 2) 63 else mv n) = true) by (rewrite P2; destruct (d_rts p); lia). rewrite H. cbn [bind]. eexists. split; [reflexivity|].
    cbn [set_visit d_dst d_visit]. split; [auto|lia].
  - assert (H : d_visit p <? mv n = true) by lia. rewrite H. cbn [bind]. exists p. split; [reflexivity|]. split; [auto|lia].
Qed.
Lemma hop_here : forall cf mv N n src p, findoadj (cf n) true (a_rt N n) (d_dst p) = FTo ASelf -> ahop cf mv N n src p = Ok (Deliver p).
Proof. intros cf mv N n src p F. unfold ahop, forward, attempt. rewrite F. reflexivity. Qed.
Lemma find_local : forall C s i, 0 <= i <= r_maxn C -> findoadj C true s (r_home C, i) = of_out (out1 s i).
Proof.
  intros C s i Hi. unfold findoadj, findoadj1. rewrite Z.eqb_refl. cbn [negb andb]. rewrite andb_false_r. destruct (Z.ltb_spec (r_maxn C) i); [lia|reflexivity].
Qed.
Lemma find_area : forall C s A i, A <> r_home C -> r_l2 C = true -> attached s = true -> 1 <= A <= r_maxarea C -> findoadj C true s (A, i) = of_out (out2 s A).
Proof.
  intros C s A i N L At HA. unfold findoadj. rewrite L, At. cbn [andb]. destruct (Z.eqb_spec A (r_home C)); [contradiction|]. cbn [negb]. destruct (Z.ltb_spec (r_maxarea C) A); [lia|reflexivity].
Qed.
Lemma find_out : forall C s A i, A <> r_home C -> attached s = false -> 0 <= r_maxn C -> findoadj C true s (A, i) = of_out (out1 s 0).
Proof.
  intros C s A i N At HA. unfold findoadj, findoadj1. rewrite At, andb_false_r. cbn [andb]. destruct (Z.eqb_spec A (r_home C)); [contradiction|]. cbn [negb andb]. destruct (Z.ltb_spec (r_maxn C) 0); [lia|reflexivity].
Qed.
Section Trip.
Variables (cf : Z -> rcfg) (nodes : list Z) (links : list link) (N0 N1 N : anet) (mv : Z -> Z) (V Mh : Z).
Hypothesis Hst : steady cf nodes links N0.
Hypothesis Hrest : at_rest cf nodes links N0 N1 N.
Hypothesis Hends : forall n, In n nodes -> eadj (a_rt N n) = eadj (a_rt N0 n).
Hypothesis Hmv : forall n, In n nodes -> V <= mv n <= 63.
Hypothesis HMh : 0 <= Mh.
Lemma node_path_hops : forall att d n h c, node_path cf links N0 att d n h c -> In n nodes -> 0 <= h.
Proof using Hst.
  clear - Hst.
  intros att d n h c P. induction P as [n E|n h c k E1 E2 E3|m n q h c I E P IH]; intros Hn; [lia| |].
  - destruct (sd_rt _ _ _ _ Hst n Hn) as (R & _). destruct (reached_ends _ _ R _ _ E1) as (X & _). rewrite E2 in X. cbn [fst] in X. lia.
  - destruct (sd_ends _ _ _ _ Hst _ _ _ I) as (Hm & _). specialize (IH Hm). lia.
Qed.
Lemma area_path_hops : forall A n h c, area_path cf links A n h c -> 0 <= h.
Proof. intros A n h c P. induction P; lia. Qed.
Lemma local_trip : forall (b : nat) n src p i, In n nodes -> d_dst p = (r_home (cf n), i) -> 1 <= i -> in_range cf nodes false (r_home (cf n)) i ->
  out1 (a_rt N n) i <> None -> snd (min1 (a_rt N n) i) < Z.of_nat b -> 0 <= d_visit p -> d_visit p + fst (min1 (a_rt N n) i) <= V -> trip cf links mv N n src p.
Proof using Hst Hrest Hends Hmv.
  clear HMh.
  induction b as [|b IH]; intros n src p i Hn Ed Hi R O Hb V0 HV; destruct Hrest as (_ & _ & HR); destruct (HR n i Hn R) as (_ & _ & S & _);
    destruct (out1 (a_rt N n) i) as [k|] eqn:Ek; try contradiction; destruct (S k ltac:(first [reflexivity|exact Ek])) as (P & P1 & P2 & P3); cbn beta in *; [lia|].
  pose proof (R n Hn ltac:(split; auto)) as Ri. cbn beta iota in Ri. pose proof (find_local (cf n) (a_rt N n) i Ri) as F. rewrite Ek in F. cbn [of_out] in F. rewrite <- Ed in F. pose proof (Hmv n Hn) as Hm1.
  destruct P3 as [[(-> & [E|(E & _)] & _)|(E & Ev)]|(c & m & -> & Hl & (Hm & Ehm) & Om & Em)].
  - apply tr_here; [congruence|]. apply hop_here. exact F.
  - lia.
  - destruct (sd_rt _ _ _ _ Hst n Hn) as (Re & _). destruct (reached_ends _ _ Re _ _ E) as (X & _ & c & a & ->). rewrite Ev in X.
    destruct (hop_sent cf mv N n src p c a i F ltac:(lia) ltac:(lia)) as (q & Eq & Dq & _). eapply tr_end; [exact Ed|rewrite Hends by auto; exact E|exact Dq|exact Eq].
  - pose proof (HR m i Hm ltac:(rewrite Ehm; exact R)) as (_ & _ & Sm & _). destruct (out1 (a_rt N m) i) as [k'|] eqn:Ek'; [|contradiction]. destruct (Sm k' ltac:(first [reflexivity|exact Ek'])) as (Pm & _).
    cbn beta in Pm. apply node_path_hops in Pm; auto. rewrite Em in Pm. cbn [fst] in Pm. destruct (sd_cfg _ _ _ _ Hst n Hn) as ((_ & _ & _ & Kc & _) & _). specialize (Kc c).
    destruct (hop_sent cf mv N n src p c _ _ F ltac:(lia) ltac:(lia)) as (q & Eq & Dq & Vq). eapply tr_next; [exact Hl|exact Dq|exact Eq|].
    intros sc. apply (IH m (Some sc) q i Hm); [rewrite Dq, Ehm; auto|auto|rewrite Ehm; auto|rewrite Ek'; discriminate| | |]; try rewrite Em; cbn [fst snd]; lia.
Qed.
Lemma local_hops : forall n d, In n nodes -> in_range cf nodes false (r_home (cf n)) d -> out1 (a_rt N n) d <> None ->
  0 <= fst (min1 (a_rt N n) d) <= r_maxhops (cf n) /\ 0 <= snd (min1 (a_rt N n) d).
Proof using Hst Hrest.
  clear - Hst Hrest. intros n d Hn R O. destruct Hrest as (_ & _ & HR). destruct (HR n d Hn R) as (_ & _ & S & _). destruct (out1 (a_rt N n) d) as [k|] eqn:E; [|contradiction].
  destruct (S k ltac:(first [reflexivity|exact E])) as (P & P1 & P2 & _). cbn beta in *. apply node_path_hops in P; auto. lia.
Qed.
Variables (A i : Z).
Hypothesis Hi : 1 <= i.
Hypothesis HRi : in_range cf nodes false A i.
Hypothesis HRA : in_range cf nodes true 0 A.
Hypothesis Hentry : forall e, In e nodes -> r_l2 (cf e) = true -> r_home (cf e) = A -> out1 (a_rt N e) i <> None /\ fst (min1 (a_rt N e) i) <= Mh.
Lemma area_trip : forall (b : nat) n src p, In n nodes -> r_l2 (cf n) = true -> d_dst p = (A, i) -> out2 (a_rt N n) A <> None -> snd (min2 (a_rt N n) A) < Z.of_nat b ->
  0 <= d_visit p -> d_visit p + fst (min2 (a_rt N n) A) + Mh <= V -> trip cf links mv N n src p.
Proof.
  induction b as [|b IH]; intros n src p Hn L Ed O Hb V0 HV; pose proof (HRA n Hn ltac:(split; auto)) as RA; cbn beta iota in RA; destruct Hrest as (HA & HAt & _); destruct (HA n A Hn L RA) as (_ & _ & S & _);
    destruct (out2 (a_rt N n) A) as [k|] eqn:Ek; try contradiction; destruct (S k ltac:(first [reflexivity|exact Ek])) as (P & P1 & P2 & P3); cbn beta in *; [lia|].
  apply area_path_hops in P. destruct (Z.eq_dec A (r_home (cf n))) as [E|E].
  - destruct (Hentry n Hn L (eq_sym E)) as (On & Oh). destruct (local_hops n i Hn ltac:(rewrite <- E; auto) On) as (H1 & H2).
    apply (local_trip (Z.to_nat (snd (min1 (a_rt N n) i) + 1)) n src p i); auto; [rewrite <- E; auto|rewrite <- E; auto|lia|lia].
  - assert (At : attached (a_rt N n) = true). { apply (HAt n Hn). split; [auto|]. exists A. rewrite Ek. split; [auto|]. split; [auto|discriminate]. }
    pose proof (find_area (cf n) (a_rt N n) A i E L At RA) as F. rewrite Ek in F. cbn [of_out] in F. rewrite <- Ed in F. pose proof (Hmv n Hn) as Hm1.
    destruct P3 as [(_ & X & _)|(c & m & -> & Hl & (Hm & Lm) & Om & Em)]; [congruence|].
    pose proof (HA m A Hm Lm (HRA m Hm ltac:(split; auto))) as (_ & _ & Sm & _). destruct (out2 (a_rt N m) A) as [k'|] eqn:Ek'; [|contradiction]. destruct (Sm k' ltac:(first [reflexivity|exact Ek'])) as (Pm & _).
    cbn beta in Pm. apply area_path_hops in Pm. rewrite Em in Pm. cbn [fst] in Pm. destruct (sd_cfg _ _ _ _ Hst n Hn) as ((_ & _ & Kh & Kc & _) & _). specialize (Kc c).
    destruct (hop_sent cf mv N n src p c _ _ F ltac:(lia) ltac:(lia)) as (q & Eq & Dq & Vq). eapply tr_next; [exact Hl|exact Dq|exact Eq|].
    intros sc. apply (IH m (Some sc) q Hm Lm); [congruence|rewrite Ek'; discriminate| | |]; try rewrite Em; cbn [fst snd]; lia.
Qed.
Lemma out_trip : forall (b : nat) n src p, In n nodes -> A <> r_home (cf n) -> d_dst p = (A, i) -> out1 (a_rt N n) 0 <> None ->
  (forall g, In g nodes -> r_home (cf g) = r_home (cf n) -> attached (a_rt N g) = true -> out2 (a_rt N g) A <> None /\ fst (min2 (a_rt N g) A) <= Mh) ->
  snd (min1 (a_rt N n) 0) < Z.of_nat b -> 0 <= d_visit p -> d_visit p + fst (min1 (a_rt N n) 0) + 2 * Mh <= V -> trip cf links mv N n src p.
Proof using Hst Hrest Hends Hmv HMh Hi HRi HRA Hentry.
  assert (R0 : forall h, in_range cf nodes false h 0). { intros h x Hx _. destruct (sd_cfg _ _ _ _ Hst x Hx) as ((K & _) & _). cbn beta iota. lia. }
  induction b as [|b IH]; intros n src p Hn NA Ed O G Hb V0 HV; destruct (local_hops n 0 Hn (R0 _) O) as (H1 & H2); [lia|].
  destruct (attached (a_rt N n)) eqn:At.
  - destruct (G n Hn eq_refl At) as (O2 & Oh2). destruct Hrest as (HA & HAt & _). destruct (proj1 (proj2 (HAt n Hn)) At) as (L & _). pose proof (HRA n Hn ltac:(split; auto)) as RA. cbn beta iota in RA.
    destruct (HA n A Hn L RA) as (_ & _ & S & _). destruct (out2 (a_rt N n) A) as [k|] eqn:Ek; [|contradiction]. destruct (S k ltac:(first [reflexivity|exact Ek])) as (P & P1 & P2 & _). cbn beta in *.
    apply (area_trip (Z.to_nat (snd (min2 (a_rt N n) A) + 1)) n src p); auto; first [rewrite Ek; discriminate|lia].
  - destruct Hrest as (_ & HAt & HR). destruct (sd_cfg _ _ _ _ Hst n Hn) as ((K & _ & Kh & Kc & _) & _).
    pose proof (find_out (cf n) (a_rt N n) A i NA At ltac:(lia)) as F. destruct (HR n 0 Hn (R0 _)) as (_ & _ & S & _). destruct (out1 (a_rt N n) 0) as [k|] eqn:Ek; [|contradiction].
    destruct (S k ltac:(first [reflexivity|exact Ek])) as (P & P1 & P2 & P3). cbn beta in *. cbn [of_out] in F. rewrite <- Ed in F. pose proof (Hmv n Hn) as Hm1.
    destruct P3 as [[(-> & [E|(_ & E)] & _)|(E & Ev)]|(c & m & -> & Hl & (Hm & Ehm) & Om & Em)].
    + lia.
    + destruct (HAt n Hn) as (X & _). cbn beta in E. congruence.
    + destruct (sd_rt _ _ _ _ Hst n Hn) as (Re & _). destruct (reached_ends _ _ Re _ _ E) as (_ & X & _). lia.
    + destruct (local_hops m 0 Hm (R0 _) Om) as (Hm3 & Hm4). rewrite Em in Hm3. cbn [fst] in Hm3. specialize (Kc c).
      destruct (hop_sent cf mv N n src p c _ _ F ltac:(lia) ltac:(lia)) as (q & Eq & Dq & Vq). eapply tr_next; [exact Hl|exact Dq|exact Eq|].
      intros sc. apply (IH m (Some sc) q Hm); [congruence|congruence|auto| | | |]; try rewrite Em; cbn [fst snd]; try lia. intros g Hg Eg. apply G; congruence.
Qed.
End Trip.

(** Once at rest, a packet for a node of the same area the router has a route
    to is delivered, and so is a packet for another area, if the router has a
    route to an attached router, the attached routers of its area have a
    route to the other area, and the level 2 routers of that area have a
    route to the node; provided the visit limits allow for the hops. *)
Theorem packets_arrive : forall cf nodes links st ev mv V Mh,
  steady cf nodes links (st 0%nat) -> arun cf links st ev -> fair_all cf nodes links st ev ->
  (forall n, In n nodes -> V <= mv n <= 63 /\ r_maxhops (cf n) <= Mh) ->
  exists T, forall t n src p A i, (T <= t)%nat -> In n nodes -> d_dst p = (A, i) -> 1 <= i -> in_range cf nodes false A i -> 0 <= d_visit p ->
    (A = r_home (cf n) -> out1 (a_rt (st t) n) i <> None -> d_visit p + fst (min1 (a_rt (st t) n) i) <= V -> trip cf links mv (st t) n src p) /\
    (A <> r_home (cf n) -> in_range cf nodes true 0 A -> out1 (a_rt (st t) n) 0 <> None ->
     (forall g, In g nodes -> r_home (cf g) = r_home (cf n) -> attached (a_rt (st t) g) = true -> out2 (a_rt (st t) g) A <> None) ->
     (forall e, In e nodes -> r_l2 (cf e) = true -> r_home (cf e) = A -> out1 (a_rt (st t) e) i <> None) ->
     d_visit p + 3 * Mh <= V -> trip cf links mv (st t) n src p).
Proof.
  intros cf nodes links st ev mv V Mh Hst Hrun Hfair Hmv. destruct (areas_converge cf nodes links st ev Hst Hrun Hfair) as (T & HT). exists T.
  intros t n src p A i Ht Hn Ed Hi R V0. specialize (HT t Ht).
  assert (He : forall x, In x nodes -> eadj (a_rt (st t) x) = eadj (a_rt (st 0%nat) x)) by (intros x Hx; destruct (arun_ok cf nodes links st ev Hst Hrun t) as (Q & _); apply (Q x Hx)).
  assert (Hv : forall x, In x nodes -> V <= mv x <= 63) by (intros x Hx; apply (Hmv x Hx)).
  assert (M0 : 0 <= Mh). { destruct (sd_cfg _ _ _ _ Hst n Hn) as ((_ & _ & K & _) & _). specialize (Hmv n Hn). lia. }
  assert (H1 : forall x, In x nodes -> out1 (a_rt (st t) x) i <> None -> r_home (cf x) = A -> fst (min1 (a_rt (st t) x) i) <= Mh).
  { intros x Hx Ox E. destruct (local_hops cf nodes links _ _ _ Hst HT x i Hx ltac:(rewrite E; auto) Ox). specialize (Hmv x Hx). lia. }
  split.
  - intros -> O HV. destruct (local_hops cf nodes links _ _ _ Hst HT n i Hn R O) as (_ & C).
    apply (local_trip cf nodes links (st 0%nat) (st T) (st t) mv V Hst HT He Hv (Z.to_nat (snd (min1 (a_rt (st t) n) i) + 1)) n src p i); auto. lia.
  - intros NA RA O G E HV. assert (R0 : in_range cf nodes false (r_home (cf n)) 0). { intros x Hx _. destruct (sd_cfg _ _ _ _ Hst x Hx) as ((K & _) & _). cbn beta iota. lia. }
    destruct (local_hops cf nodes links _ _ _ Hst HT n 0 Hn R0 O) as (C1 & C2).
    apply (out_trip cf nodes links (st 0%nat) (st T) (st t) mv V Mh Hst HT He Hv M0 A i Hi R RA) with (b := Z.to_nat (snd (min1 (a_rt (st t) n) 0) + 1)); auto; [|lia|specialize (Hmv n Hn); lia].
    intros g Hg Eg Ag. split; [apply G; auto|]. destruct HT as (HR & HAt & _). destruct (proj1 (proj2 (HAt g Hg)) Ag) as (L & _). destruct (HR g A Hg L (RA g Hg ltac:(split; auto))) as (_ & _ & S & _).
    specialize (G g Hg Eg Ag). destruct (out2 (a_rt (st t) g) A) as [k|] eqn:Ek; [|contradiction]. destruct (S k ltac:(first [reflexivity|exact Ek])) as (_ & P & _). cbn beta in P. specialize (Hmv g Hg). lia.
Qed.
Print Assumptions packets_arrive.

(** ** Delivery, from the topology alone *)
(** n has a least-cost path, and its cost is at most Mc. *)
Definition near (path : Z -> Z -> Z -> Prop) (Mc n : Z) : Prop := exists h c, path n h c /\ least_of path n c /\ c <= Mc.
(** Those least-cost paths have at most Mh hops. *)
Definition short_paths (nd : Z -> Prop) (path : Z -> Z -> Z -> Prop) (Mh Mc : Z) : Prop :=
  forall x h c, nd x -> path x h c -> least_of path x c -> c <= Mc -> h <= Mh.
Lemma node_path_att : forall cf nodes links N0 att att' d h0, steady cf nodes links N0 ->
  (forall x, In x nodes -> r_home (cf x) = h0 -> d = 0 -> att x = att' x) ->
  forall x h c, In x nodes -> r_home (cf x) = h0 -> node_path cf links N0 att d x h c -> node_path cf links N0 att' d x h c.
Proof.
  intros cf nodes links N0 att att' d h0 Hst Ha x h c Hx E P. induction P as [x D|x h c k E1 E2 E3|m x q h c I Em P IH].
  - apply nop_here. destruct D as [D|(D & Y)]; [auto|right]. rewrite <- Ha; auto.
  - eapply nop_end; eauto.
  - destruct (sd_ends _ _ _ _ Hst _ _ _ I) as (Hm & _). apply (nop_link _ _ _ _ _ m); auto. apply IH; congruence.
Qed.
Lemma near_settled : forall cf links (nd : Z -> Prop) (path path' : Z -> Z -> Z -> Prop) fixed mn mn0 out out0 Mh Mc n,
  (forall x h c, nd x -> (path x h c <-> path' x h c)) ->
  settled_to cf links nd path fixed mn mn0 out out0 n -> nd n ->
  (forall x, nd x -> Mc <= r_maxcost (cf x) /\ Mh <= r_maxhops (cf x)) ->
  short_paths nd path' Mh Mc -> near path' Mc n -> out n <> None /\ fst (mn n) <= Mh.
Proof.
  intros cf links nd path path' fixed mn mn0 out out0 Mh Mc n Eq (_ & _ & S3 & _ & S5) Hn HM Sh (h & c & P & L & Hc).
  assert (Le : forall x c0, nd x -> least_of path x c0 -> least_of path' x c0) by (intros x c0 Hx H h' c' Q; apply (H h'); apply Eq; auto).
  assert (Ln : least_of path n c) by (intros h' c' Q; apply (L h'); apply Eq; auto).
  destruct (S5 Mh Mc h c HM ltac:(intros x h' c' Hx Q L' C'; apply (Sh x h' c'); [auto|apply Eq; auto|apply Le; auto|auto]) ltac:(apply Eq; auto) Ln Hc) as (O & E).
  split; [exact O|]. destruct (out n) as [k|] eqn:Ek; [|contradiction]. destruct (S3 k ltac:(first [reflexivity|exact Ek])) as (Q & _). rewrite E in Q.
  apply (Sh n _ c); [auto|apply Eq; auto|apply Le; auto|auto].
Qed.
(** Routers whose limits allow for the least-cost paths deliver every packet
    for a node of their area they have a path to, and every packet for
    another area, if the node's area has a path to it from each of its level
    2 routers, the level 2 routers of the sender's area have a path to that
    area, and the sender has a path to one of them. *)
Theorem network_delivers : forall cf nodes links st ev mv V Mh Mc,
  steady cf nodes links (st 0%nat) -> arun cf links st ev -> fair_all cf nodes links st ev ->
  (forall n, In n nodes -> V <= mv n <= 63 /\ Mc <= r_maxcost (cf n) /\ Mh <= r_maxhops (cf n)) ->
  let np := node_path cf links (st 0%nat) (fun x => r_l2 (cf x)) in
  let ap := area_path cf links in
  exists T, forall t n src p A i, (T <= t)%nat -> In n nodes -> d_dst p = (A, i) -> 1 <= i -> in_range cf nodes false A i -> 0 <= d_visit p ->
    short_paths (in_area cf nodes A) (np i) Mh Mc ->
    (A = r_home (cf n) -> near (np i) Mc n -> d_visit p + Mh <= V -> trip cf links mv (st t) n src p) /\
    (A <> r_home (cf n) -> in_range cf nodes true 0 A ->
     short_paths (in_area cf nodes (r_home (cf n))) (np 0) Mh Mc -> short_paths (is_l2r cf nodes) (ap A) Mh Mc ->
     near (np 0) Mc n ->
     (forall g, In g nodes -> r_home (cf g) = r_home (cf n) -> r_l2 (cf g) = true -> near (ap A) Mc g) ->
     (forall e, In e nodes -> r_home (cf e) = A -> r_l2 (cf e) = true -> near (np i) Mc e) ->
     d_visit p + 3 * Mh <= V -> trip cf links mv (st t) n src p).
Proof.
  intros cf nodes links st ev mv V Mh Mc Hst Hrun Hfair HM np ap. destruct (areas_converge cf nodes links st ev Hst Hrun Hfair) as (T & HT). exists T.
  intros t n src p A i Ht Hn Ed Hi R V0 ShA. specialize (HT t Ht).
  assert (He : forall x, In x nodes -> eadj (a_rt (st t) x) = eadj (a_rt (st 0%nat) x)) by (intros x Hx; destruct (arun_ok cf nodes links st ev Hst Hrun t) as (Q & _); apply (Q x Hx)).
  assert (Hv : forall x, In x nodes -> V <= mv x <= 63) by (intros x Hx; apply (HM x Hx)).
  assert (HMi : forall h x, in_area cf nodes h x -> Mc <= r_maxcost (cf x) /\ Mh <= r_maxhops (cf x)) by (intros h x (Hx & _); apply (HM x Hx)).
  assert (HM2 : forall x, is_l2r cf nodes x -> Mc <= r_maxcost (cf x) /\ Mh <= r_maxhops (cf x)) by (intros x (Hx & _); apply (HM x Hx)).
  assert (Loc : forall x, In x nodes -> r_home (cf x) = A -> near (np i) Mc x -> out1 (a_rt (st t) x) i <> None /\ fst (min1 (a_rt (st t) x) i) <= Mh).
  { intros x Hx E Nx. destruct HT as (_ & _ & HR). pose proof (HR x i Hx ltac:(rewrite E; exact R)) as S. rewrite E in S.
    refine (near_settled _ _ _ _ (np i) _ _ _ _ _ Mh Mc x _ S ltac:(split; auto) (HMi A) ShA Nx).
    intros y h c (Hy & Ey). split; apply node_path_att with (nodes := nodes) (h0 := A); auto; intros; lia. }
  split.
  - intros E Nn HV. destruct (Loc n Hn (eq_sym E) Nn) as (O & B). subst A. destruct (local_hops cf nodes links _ _ _ Hst HT n i Hn R O) as (_ & C).
    apply (local_trip cf nodes links (st 0%nat) (st T) (st t) mv V Hst HT He Hv (Z.to_nat (snd (min1 (a_rt (st t) n) i) + 1)) n src p i); auto; lia.
  - intros NA RA Sh0 Sh2 Nn G E HV.
    assert (M0 : 0 <= Mh). { destruct Nn as (h & c & P & L & C). pose proof (Sh0 n h c ltac:(split; auto) P L C) as B. apply (node_path_hops cf nodes links _ Hst) in P; auto. lia. }
    assert (Ar : forall g, In g nodes -> r_home (cf g) = r_home (cf n) -> r_l2 (cf g) = true -> out2 (a_rt (st t) g) A <> None /\ fst (min2 (a_rt (st t) g) A) <= Mh).
    { intros g Hg Eg Lg. destruct HT as (HA & _ & _). pose proof (HA g A Hg Lg (RA g Hg ltac:(split; auto))) as S.
      refine (near_settled _ _ _ _ (ap A) _ _ _ _ _ Mh Mc g _ S ltac:(split; auto) HM2 Sh2 (G g Hg Eg Lg)). intros; reflexivity. }
    assert (At : forall g, In g nodes -> r_home (cf g) = r_home (cf n) -> attached (a_rt (st T) g) = r_l2 (cf g)).
    { intros g Hg Eg. destruct HT as (_ & HAt & _). destruct (HAt g Hg) as (X & Y). rewrite <- X. destruct (r_l2 (cf g)) eqn:Lg.
      - apply Y. split; [reflexivity|]. exists A. split; [apply (RA g Hg); split; auto|]. split; [congruence|apply Ar; auto].
      - destruct (attached (a_rt (st t) g)); [|reflexivity]. destruct (proj1 Y eq_refl) as (Z0 & _). discriminate Z0. }
    assert (R0 : in_range cf nodes false (r_home (cf n)) 0). { intros x Hx _. destruct (sd_cfg _ _ _ _ Hst x Hx) as ((K & _) & _). cbn beta iota. lia. }
    assert (O0 : out1 (a_rt (st t) n) 0 <> None /\ fst (min1 (a_rt (st t) n) 0) <= Mh).
    { destruct HT as (_ & _ & HR). pose proof (HR n 0 Hn R0) as S.
      refine (near_settled _ _ _ _ (np 0) _ _ _ _ _ Mh Mc n _ S ltac:(split; auto) (HMi _) Sh0 Nn).
      intros y h c (Hy & Ey). split; apply node_path_att with (nodes := nodes) (h0 := r_home (cf n)); auto; intros; first [apply At; auto|symmetry; apply At; auto]. }
    destruct O0 as (O & B). destruct (local_hops cf nodes links _ _ _ Hst HT n 0 Hn R0 O) as (C1 & C2).
    apply (out_trip cf nodes links (st 0%nat) (st T) (st t) mv V Mh Hst HT He Hv M0 A i Hi R RA) with (b := Z.to_nat (snd (min1 (a_rt (st t) n) 0) + 1)); auto; [|lia|lia].
    intros g Hg Eg Ag. apply Ar; auto. destruct HT as (_ & HAt & _). apply (HAt g Hg). exact Ag.
Qed.
Print Assumptions network_delivers.

(** ** Fair runs exist *)
(** The routers take turns: each sends all it knows, at level 1 and then, if
    it is a level 2 router, at level 2, and the message arrives. *)
Section ATurn.
Variables (cf : Z -> rcfg) (nodes : list Z) (links : list link) (N0 : anet).
Hypothesis Hst : steady cf nodes links N0.
Hypothesis Hne : links <> [].
Hypothesis Hem : forall k, In k links -> a_ch N0 k = [].
Definition slots : list (bool * link) := map (pair false) links ++ map (pair true) (filter (fun k => r_l2 (cf (fst (fst k)))) links).
Definition aslot (q : nat) : bool * link := nth (q mod length slots) slots (false, (0, 0, 0)).
Definition slot_dests (s : bool * link) : list Z := let C := cf (fst (fst (snd s))) in if fst s then span 1 (r_maxarea C) else span 0 (r_maxn C).
Definition aturn_ev (t : nat) : aev :=
  let s := aslot (t / 2) in if Nat.even t then ASend (fst s) (snd s) (slot_dests s) else ARecv (snd s).
Fixpoint aturn_st (t : nat) : anet :=
  match t with
  | O => N0
  | S t' => match astep cf (S t') (aturn_st t') (aturn_ev t') with Ok N => N | Err _ => aturn_st t' end
  end.
Lemma slots_in : forall s, In s slots -> In (snd s) links /\ (fst s = true -> r_l2 (cf (fst (fst (snd s)))) = true).
Proof.
  intros s H. apply in_app_iff in H as [H|H]; apply in_map_iff in H as (k & <- & H); cbn [fst snd]; [split; [auto|discriminate]|]. apply filter_In in H. tauto.
Qed.
Lemma slots_all : forall two k, In k links -> (two = true -> r_l2 (cf (fst (fst k))) = true) -> In (two, k) slots.
Proof. intros [|] k H L; apply in_app_iff; [right|left]; apply in_map; [apply filter_In; auto|auto]. Qed.
Lemma slots_ne : slots <> [].
Proof. unfold slots. destruct links; [contradiction|discriminate]. Qed.
Lemma aslot_in : forall q, In (aslot q) slots.
Proof. intros q. unfold aslot. apply nth_In. apply Nat.mod_upper_bound. pose proof slots_ne. destruct slots; [contradiction|discriminate]. Qed.
Lemma aturn_ok : forall t, aev_ok cf links (aturn_ev t).
Proof.
  intros t. unfold aturn_ev. pose proof (slots_in _ (aslot_in (t / 2))) as (I & L). destruct (aslot (t / 2)) as (two, ((m, n), c)). unfold slot_dests. cbn [fst snd] in *.
  destruct (Nat.even t); cbn [aev_ok]; [|exact I].
  destruct two; cbn [aev_ok]; (split; [exact I|]); [split; [auto|]|]; apply Forall_forall; intros i Hi; apply span_in in Hi; exact Hi.
Qed.
Lemma aturn_run : arun cf links aturn_st aturn_ev.
Proof.
  assert (H : forall t, art_ok cf nodes aturn_st (aturn_st t) /\ ach_ok cf links (aturn_st t)).
  { induction t as [|t (R & C)].
    - split; [eapply astart_rt; eauto|]. intros m n c Hk. apply Forall_forall. intros g Hg. cbn [aturn_st] in Hg. rewrite Hem in Hg by auto. destruct Hg.
    - destruct (astep_net cf nodes links aturn_st aturn_ev Hst (S t) (aturn_st t) (aturn_ev t) R C (aturn_ok t)) as (N' & E & R' & C'). cbn [aturn_st]. rewrite E. auto. }
  intros t. split; [apply aturn_ok|]. destruct (H t) as (R & C). destruct (astep_net cf nodes links aturn_st aturn_ev Hst (S t) (aturn_st t) (aturn_ev t) R C (aturn_ok t)) as (N' & E & _).
  cbn [aturn_st]. rewrite E. reflexivity.
Qed.
Lemma aturn_chan : forall q, (forall k, In k links -> a_ch (aturn_st (2 * q)) k = []) /\
  a_ch (aturn_st (2 * q + 1)) (snd (aslot q)) =
    [{| a_two := fst (aslot q); a_time := S (2 * q); a_ents := asnap (fst (aslot q)) (a_rt (aturn_st (2 * q)) (fst (fst (snd (aslot q))))) (slot_dests (aslot q)) |}].
Proof.
  assert (Snd : forall q, (forall k, In k links -> a_ch (aturn_st (2 * q)) k = []) ->
    a_ch (aturn_st (2 * q + 1)) (snd (aslot q)) =
      [{| a_two := fst (aslot q); a_time := S (2 * q); a_ents := asnap (fst (aslot q)) (a_rt (aturn_st (2 * q)) (fst (fst (snd (aslot q))))) (slot_dests (aslot q)) |}] /\
    (forall k, In k links -> k <> snd (aslot q) -> a_ch (aturn_st (2 * q + 1)) k = [])).
  { intros q He. destruct (turn_even q) as (E1 & E2 & E3 & E4). destruct (aturn_run (2 * q)%nat) as (_ & E). replace (2 * q + 1)%nat with (S (2 * q)) by lia.
    unfold aturn_ev in E. rewrite E1, E3 in E. pose proof (slots_in _ (aslot_in q)) as (I & _). destruct (aslot q) as (two, ((m, n), c)) eqn:Ek. cbn [astep fst snd] in *. rewrite He in E by auto. cbn [app] in E.
    apply (f_equal (fun r => match r with Ok x => x | Err _ => N0 end)) in E. cbv beta iota in E. rewrite <- E. cbn [a_ch a_rt]. rewrite aset_ch_same. split; [reflexivity|]. intros k Ik Nk. rewrite aset_ch_other by auto. auto. }
  induction q as [|q (He & H1)].
  - assert (He : forall k, In k links -> a_ch (aturn_st (2 * 0)) k = []) by exact Hem. split; [exact He|]. apply Snd. exact He.
  - assert (He' : forall k, In k links -> a_ch (aturn_st (2 * S q)) k = []).
    { destruct (Snd q He) as (_ & H2). destruct (turn_even q) as (E1 & E2 & E3 & E4). destruct (aturn_run (2 * q + 1)%nat) as (_ & E). replace (2 * S q)%nat with (S (2 * q + 1)) by lia.
      unfold aturn_ev in E. rewrite E2, E4 in E. destruct (aslot q) as (two, ((m, n), c)) eqn:Ek. cbn [astep fst snd] in *. rewrite H1 in E. cbn [a_ents a_two] in E.
      destruct (rstep _ _ _) as [(s, o)|] eqn:Er in E; [|discriminate E]. cbn [bind] in E. apply (f_equal (fun r => match r with Ok x => x | Err _ => N0 end)) in E. cbv beta iota in E. rewrite <- E. cbn [a_ch].
      intros k Ik. destruct (link_dec k (m, n, c)) as [->|Nk]; [apply aset_ch_same|rewrite aset_ch_other by auto; auto]. }
    split; [exact He'|]. apply Snd. exact He'.
Qed.
Lemma aturn_fair : fair_all cf nodes links aturn_st aturn_ev.
Proof.
  intros two h d Hd m n c T Ik Rel.
  assert (Is : In (two, (m, n, c)) slots) by (apply slots_all; [auto|]; intros ->; cbn [fst]; apply Rel).
  destruct (In_nth slots _ (false, (0, 0, 0)) Is) as (j & Hj & Ej).
  set (q := (T * length slots + j)%nat). assert (Eq : aslot q = (two, (m, n, c))).
  { unfold aslot, q. rewrite Nat.add_comm, Nat.mod_add by lia. rewrite Nat.mod_small by auto. exact Ej. }
  assert (Hq : (T <= q)%nat) by (unfold q; nia).
  destruct (aturn_chan q) as (_ & H). destruct (turn_even q) as (E1 & E2 & E3 & E4). rewrite Eq in H. cbn [fst snd] in H.
  exists (2 * q + 1)%nat. eexists _, []. split; [lia|]. split; [unfold aturn_ev; rewrite E2, E4, Eq; reflexivity|]. split; [exact H|]. cbn [a_time a_ents a_two]. split; [lia|]. split; [reflexivity|].
  unfold asnap, slot_dests. cbn [fst snd]. rewrite map_map. cbn [fst]. rewrite map_id. destruct (sd_ends _ _ _ _ Hst _ _ _ Ik) as (Hm & _).
  pose proof (Hd m Hm) as D. destruct two; apply span_in; apply D; cbn [relevant] in *; tauto.
Qed.
End ATurn.
Theorem area_fair_runs_exist : forall cf nodes links N0, steady cf nodes links N0 -> links <> [] -> (forall k, In k links -> a_ch N0 k = []) ->
  exists st ev, st 0%nat = N0 /\ arun cf links st ev /\ fair_all cf nodes links st ev.
Proof.
  intros cf nodes links N0 H N E. exists (aturn_st cf links N0), (aturn_ev cf links). split; [reflexivity|]. split; [eapply aturn_run; eauto|eapply aturn_fair; eauto].
Qed.
Print Assumptions area_fair_runs_exist.

(** ** A network *)
(** Two areas, each with a level 1 router (number 3) and a level 2 router
    (number 2): 1.3 - 1.2 - 2.2 - 2.3. *)
Definition four_cf (n : Z) : rcfg := {| r_home := n / 1024; r_tid := n mod 1024; r_maxn := 100; r_maxhops := 16; r_maxcost := 128;
  r_l2 := n mod 1024 =? 2; r_maxarea := 63; r_amaxhops := 30; r_amaxcost := 1022; r_cost := fun _ => 4 |}.
Definition four_nodes : list Z := [1027; 1026; 2050; 2051].
Definition four_links : list link := [(1027, 1026, 1); (1026, 1027, 1); (2051, 2050, 1); (2050, 2051, 1); (1026, 2050, 2); (2050, 1026, 2)].
Definition four_hist (n : Z) : list rev :=
  let h := n / 1024 in
  if n mod 1024 =? 2
  then [Up 1 h 3 NL1; Up 2 (3 - h) 2 NL2; Msg1 1 h 3 [(2, (32, 1027))]; Msg2 2 (3 - h) 2 [(h, (32, 1027))]]
  else [Up 1 h 2 NL2; Msg1 1 h 2 [(3, (32, 1027))]].
Definition four_st (n : Z) : rst := match rsteps (four_cf n) (start (four_cf n)) (four_hist n) with Ok (s, _) => s | Err _ => start (four_cf n) end.
Definition four_net : anet := {| a_rt := four_st; a_ch := fun _ => [] |}.
Ltac four H := destruct H as [<-|[<-|[<-|[<-|[]]]]].
Ltac six H := destruct H as [H|[H|[H|[H|[H|[H|[]]]]]]]; injection H as <- <- <-.
Ltac pick1 m c := exists m, c; split; [vm_compute; solve [auto 10]|split; reflexivity].
Ltac pick := first [pick1 1027 1|pick1 1026 1|pick1 2051 1|pick1 2050 1|pick1 1026 2|pick1 2050 2].
Lemma steady_example : steady four_cf four_nodes four_links four_net.
Proof.
  constructor.
  - intros n H. four H; (split; [unfold cfg_ok, INFCOST; repeat split; try (vm_compute; congruence); intros; vm_compute; congruence|reflexivity]).
  - reflexivity.
  - assert (G : forall n, In n four_nodes -> exists o, rsteps (four_cf n) (start (four_cf n)) (four_hist n) = Ok (four_st n, o)).
    { intros n Hn. unfold four_st. destruct (rsteps (four_cf n) (start (four_cf n)) (four_hist n)) as [(s, o)|] eqn:E; [eauto|]. exfalso. four Hn; vm_compute in E; discriminate E. }
    intros n Hn. split.
    + destruct (G n Hn) as (o & E). exists (four_hist n), o. split; [|exact E]. clear E G.
      assert (X : forall C h, hist C [] [Up 1 h 2 NL2; Msg1 1 h 2 [(3, (32, 1027))]]).
      { intros C h. apply h_up; [intros []|left; reflexivity|]. apply (h_msg1 _ _ _ _ _ NL2); [left; reflexivity|reflexivity| |constructor]. constructor; [|constructor]. cbn [fst snd]. lia. }
      assert (Y : forall C h, 1 <= h -> hist C [] [Up 1 h 3 NL1; Up 2 (3 - h) 2 NL2; Msg1 1 h 3 [(2, (32, 1027))]; Msg2 2 (3 - h) 2 [(h, (32, 1027))]]).
      { intros C h Hh. apply h_up; [intros []|left; reflexivity|]. apply h_up; [intros [Q|[]]; discriminate Q|left; reflexivity|].
        apply (h_msg1 _ _ _ _ _ NL1); [right; left; reflexivity|reflexivity|constructor; [cbn [fst snd]; lia|constructor]|].
        apply h_msg2; [left; reflexivity|constructor; [cbn [fst snd]; lia|constructor]|constructor]. }
      four Hn; first [apply (X _ 1)|apply (X _ 2)|apply (Y _ 1); lia|apply (Y _ 2); lia].
    + four Hn; vm_compute; split; intros; discriminate.
  - intros m n c H. six H; split; vm_compute; tauto.
  - intros n k Hn. cbn [a_rt four_net]. split.
    + intros K. four Hn; vm_compute in K; repeat destruct K as [<-|K]; try contradiction; auto; right; pick.
    + intros [->|(m & c & H & E & ->)]; [four Hn; vm_compute; auto|]. six H; vm_compute in E; try discriminate E; vm_compute; auto.
  - intros n k Hn L. cbn [a_rt four_net]. split.
    + intros K. four Hn; vm_compute in L; try discriminate L; vm_compute in K; repeat destruct K as [<-|K]; try contradiction; auto; right; pick.
    + intros [->|(m & c & H & E & ->)]; [four Hn; vm_compute in L; try discriminate L; vm_compute; auto|]. six H; vm_compute in E; try discriminate E; vm_compute in L; try discriminate L; vm_compute; auto.
  - intros m n c g _ [].
Qed.
(** Every fair run of that network ends with packets from 1.3 to 2.3 being
    delivered, and there is such a run. *)
Lemma four_cost : forall att d n h c, (forall x, In x four_nodes -> eadj (four_st x) d = None) -> In n four_nodes ->
  node_path four_cf four_links four_net att d n h c -> c = 4 * h /\ 0 <= h.
Proof.
  intros att d n h c He Hn P. induction P as [n D|n h c k E1 _ _|m n q h c I Em P IH]; [lia|cbn [a_rt four_net] in E1; rewrite He in E1 by auto; discriminate E1|].
  assert (Hm : In m four_nodes) by (destruct (sd_ends _ _ _ _ steady_example _ _ _ I); auto). specialize (IH Hm). cbn [r_cost four_cf]. lia.
Qed.
Lemma four_acost : forall A n h c, area_path four_cf four_links A n h c -> c = 4 * h /\ 0 <= h.
Proof. intros A n h c P. induction P; cbn [r_cost four_cf]; lia. Qed.
Lemma four_eadj : forall d x, In x four_nodes -> eadj (four_st x) d = None.
Proof. intros d x H. four H; vm_compute; reflexivity. Qed.
Example delivery_example : exists st ev, st 0%nat = four_net /\ arun four_cf four_links st ev /\ fair_all four_cf four_nodes four_links st ev /\
  exists T, forall t p, (T <= t)%nat -> d_dst p = (2, 3) -> d_visit p = 0 -> trip four_cf four_links (fun _ => 32) (st t) 1027 None p.
Proof.
  destruct (area_fair_runs_exist four_cf four_nodes four_links four_net steady_example ltac:(discriminate) ltac:(reflexivity)) as (st & ev & E0 & Hr & Hf).
  exists st, ev. split; [auto|]. split; [auto|]. split; [auto|]. pose proof steady_example as Hs. rewrite <- E0 in Hs.
  destruct (network_delivers four_cf four_nodes four_links st ev (fun _ => 32) 32 3 12 Hs Hr Hf) as (T & HT).
  { intros n _. cbn [r_maxcost r_maxhops four_cf]. lia. }
  exists T. intros t p Ht Ed Ev. rewrite E0 in HT.
  assert (Sh : forall h d, short_paths (in_area four_cf four_nodes h) (node_path four_cf four_links four_net (fun x => r_l2 (four_cf x)) d) 3 12).
  { intros h0 d x h c (Hx & _) P _ Hc. apply four_cost in P; [lia| |auto]. intros y Hy. apply four_eadj. auto. }
  assert (N0 : forall d n, In n four_nodes -> d = r_tid (four_cf n) \/ (d = 0 /\ r_l2 (four_cf n) = true) -> near (node_path four_cf four_links four_net (fun x => r_l2 (four_cf x)) d) 12 n).
  { intros d n Hn D. exists 0, 0. split; [apply nop_here; exact D|]. split; [|lia]. intros h c P. apply four_cost in P; [lia| |auto]. intros y Hy. apply four_eadj. auto. }
  assert (N1 : forall d m n q, In (m, n, q) four_links -> r_home (four_cf m) = r_home (four_cf n) -> In n four_nodes -> d = r_tid (four_cf m) \/ (d = 0 /\ r_l2 (four_cf m) = true) ->
    ~ (d = r_tid (four_cf n) \/ (d = 0 /\ r_l2 (four_cf n) = true)) -> near (node_path four_cf four_links four_net (fun x => r_l2 (four_cf x)) d) 12 n).
  { intros d m n q I E Hn D ND. exists (0 + 1), (0 + 4). split; [change (0 + 4) with (0 + r_cost (four_cf n) q); apply (nop_link _ _ _ _ _ m n q 0 0); auto; apply nop_here; exact D|]. split; [|lia].
    intros h c P. pose proof P as P'. apply four_cost in P'; [|intros y Hy; apply four_eadj; auto|auto]. inversion P as [? D'|? ? ? k E1|m' ? q' h' c' I' E' P'' ]; subst; [contradiction| |].
    - cbn [a_rt four_net] in E1. rewrite four_eadj in E1 by auto. discriminate E1.
    - assert (Hm : In m' four_nodes) by (destruct (sd_ends _ _ _ _ steady_example _ _ _ I'); auto). apply four_cost in P''; [lia|intros y Hy; apply four_eadj; auto|auto]. }
  destruct (HT t 1027 None p 2 3 Ht) as (_ & D); [vm_compute; auto|auto|lia|intros x _ _; cbn [r_maxn four_cf]; lia|lia|apply Sh|].
  apply D; clear D HT; [vm_compute; discriminate|intros x _ _; cbn [r_maxarea four_cf]; lia|apply Sh| | | | |lia].
  - intros x h c _ P _ Hc. apply four_acost in P. lia.
  - apply (N1 0 1026 1027 1); try (vm_compute; solve [auto 10]). vm_compute. intros [X|(_ & X)]; discriminate X.
  - intros g Hg Eg Lg. assert (g = 1026) as -> by (four Hg; vm_compute in Eg, Lg; try discriminate Eg; try discriminate Lg; reflexivity).
    exists (0 + 1), (0 + 4). split; [change (0 + 4) with (0 + r_cost (four_cf 1026) 2); apply (arp_link _ _ _ 2050 1026 2 0 0); [vm_compute; tauto|reflexivity|reflexivity|]; apply arp_here; reflexivity|]. split; [|lia].
    intros h c P. pose proof P as P'. apply four_acost in P'. inversion P as [? D'|m' ? q' h' c' I' L1 L2 P'']; subst; [vm_compute in D'; discriminate D'|]. apply four_acost in P''. lia.
  - intros e He Ee Le. assert (e = 2050) as -> by (four He; vm_compute in Ee, Le; try discriminate Ee; try discriminate Le; reflexivity).
    apply (N1 3 2051 2050 1); try (vm_compute; solve [auto 10]). vm_compute. intros [X|(X & _)]; discriminate X.
Qed.
