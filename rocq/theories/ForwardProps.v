(** Lifetime of data packets (C22). *)
From Verif Require Import Base Dict RoutingModel RoutingProps ForwardModel.

Lemma attempt_sent : forall find mv sc p c k q, attempt find mv (Some sc) false p = Ok (inl (Sent c k q)) ->
  find (d_dst p) = FTo k /\ d_visit p < (if d_rts p then Z.min (2 * mv) 63 else mv) /\
  d_visit q = d_visit p + 1 /\ d_rts q = d_rts p /\ d_rqr q = d_rqr p /\ d_dst q = d_dst p /\ d_src q = d_src p /\
  (d_ie q = true -> d_ie p = true /\ sc = c).
Proof.
  intros find mv sc p c k q H. unfold attempt in H. destruct (find (d_dst p)) as [[|c0 a t]| |]; try discriminate.
  cbn [bind] in H. destruct (Z.eqb_spec sc c0).
  - destruct (Z.ltb_spec (d_visit p) (if d_rts p then Z.min (mv * 2) 63 else mv)); [|discriminate].
    injection H as <- <- <-. cbn [d_dst d_src d_rqr d_rts d_ie d_visit set_visit set_ie returned]. repeat split; auto. destruct (d_rts p); lia.
  - destruct (Z.ltb_spec (d_visit (set_ie p false)) (if d_rts p then Z.min (mv * 2) 63 else mv)) as [L|L]; [|discriminate].
    injection H as <- <- <-. cbn [d_dst d_src d_rqr d_rts d_ie d_visit set_visit set_ie returned] in *. repeat split; auto; try discriminate. destruct (d_rts p); lia.
Qed.
Lemma attempt_failed : forall find mv src orig p w q, attempt find mv src orig p = Ok (inr (w, q)) ->
  d_visit q = d_visit p /\ d_rts q = d_rts p /\ d_rqr q = d_rqr p /\ d_dst q = d_dst p /\ d_src q = d_src p.
Proof.
  intros find mv src orig p w q H. unfold attempt in H. destruct (find (d_dst p)) as [[|c0 a t]| |]; try discriminate;
    [|injection H as <- <-; auto|injection H as <- <-; auto].
  destruct orig.
  - destruct (d_visit p <? mv); [discriminate|]. injection H as <- <-. auto.
  - destruct src as [sc|]; [|discriminate].
    destruct (sc =? c0); cbn -[Z.ltb Z.min] in H; (destruct (d_visit p <? _); [discriminate|]); injection H as <- <-; cbn; auto.
Qed.
(** What a router does to a packet it passes on: the visit count was below
    the limit (twice the configured one, at most 63, for a packet on its way
    back) and grows by one; the packet is otherwise unchanged or it is
    returned to its sender, which happens only if that was requested and it
    is not on its way back already; the intra-Ethernet mark survives only on
    the same circuit. *)
Theorem forward_transit : forall find mv sc p c k q, forward find mv (Some sc) false p = Ok (Sent c k q) ->
  find (d_dst q) = FTo k /\
  d_visit q = d_visit p + 1 /\ d_visit p < (if d_rts q then Z.min (2 * mv) 63 else mv) /\
  (d_ie q = true -> d_ie p = true /\ sc = c) /\
  ((d_dst q = d_dst p /\ d_src q = d_src p /\ d_rts q = d_rts p /\ d_rqr q = d_rqr p) \/
   (d_rqr p = true /\ d_rts p = false /\ d_dst q = d_src p /\ d_src q = d_dst p /\ d_rts q = true /\ d_rqr q = false)).
Proof.
  intros find mv sc p c k q H. unfold forward in H. destruct (attempt find mv (Some sc) false p) as [r|] eqn:E; [|discriminate].
  cbn [bind] in H. destruct r as [o|[w p1]].
  - injection H as ->. apply attempt_sent in E as (F & L & V & R & Q & D & S & I). rewrite D, R. repeat (split; [solve [auto]|]). left. auto.
  - apply attempt_failed in E as (V & R & Q & D & S). destruct (d_rqr p1) eqn:Eq; [|discriminate]. destruct (d_rts p1) eqn:Er; [discriminate|]. cbn [andb negb] in H.
    destruct (attempt find mv (Some sc) false (returned p1)) as [r2|] eqn:E2; [|discriminate]. cbn [bind] in H.
    destruct r2 as [o|[w2 p2]]; [|discriminate]. injection H as ->. apply attempt_sent in E2 as (F & L & V' & R' & Q' & D' & S' & I').
    cbn [d_dst d_src d_rqr d_rts d_ie d_visit set_visit set_ie returned] in *. rewrite R' in *. rewrite D'. split; [auto|]. split; [lia|]. split; [lia|]. split; [intros X; destruct (I' X); discriminate|].
    right. rewrite <- Q, <- R, <- D, <- S. auto 8.
Qed.
Print Assumptions forward_transit.

(** The journey of a packet through routers with any tables, which may change
    at any time: each router that gets it may pass it on, and the next one
    gets what was sent, with the same visit count and return flags (the
    addresses may be rewritten for a Phase III neighbour, and the
    intra-Ethernet mark is lost in the short format).  The counts are the
    routers that passed the packet on and those that turned it around. *)
Definition carried (q p : dpkt) : Prop := d_visit p = d_visit q /\ d_rts p = d_rts q /\ d_rqr p = d_rqr q.
Inductive trip (M : Z) : Z -> Z -> dpkt -> dpkt -> Prop :=
  | trip_end : forall p, trip M 0 0 p p
  | trip_on : forall find mv sc p c k q p' r n m, 1 <= mv <= M ->
      forward find mv (Some sc) false p = Ok (Sent c k q) -> carried q p' -> trip M n m p' r ->
      trip M (n + 1) (m + if Bool.eqb (d_rts p) (d_rts q) then 0 else 1) p r.
Lemma trip_counts : forall M n m p r, M <= 63 -> trip M n m p r ->
  0 <= n /\ d_visit r = d_visit p + n /\ (d_rts p = true -> d_rts r = true /\ m = 0) /\ (d_rts p = false -> m = if d_rts r then 1 else 0) /\
  (0 < n -> d_visit r <= if d_rts r then Z.min (2 * M) 63 else M).
Proof.
  intros M n m p r HM T. induction T as [p|find mv sc p c k q p' r n m Hm F C T IH].
  - split; [lia|]. split; [lia|]. split; [auto|]. split; [intros ->; auto|lia].
  - apply forward_transit in F as (_ & V & L & _ & R). destruct C as (C1 & C2 & C3). rewrite C1, C2 in IH. destruct IH as (N & V2 & A & B & E).
    split; [lia|]. split; [lia|]. split; [|split].
    + intros Hp. assert (Hq : d_rts q = true) by (destruct R as [(_ & _ & X & _)|(_ & X & _)]; congruence). rewrite Hq in *. destruct (A eq_refl). rewrite Hp. cbn. split; [auto|lia].
    + intros Hp. rewrite Hp. destruct (d_rts q) eqn:Hq; cbn.
      * destruct (A eq_refl) as (X & Y). rewrite X. lia.
      * specialize (B eq_refl). lia.
    + intros _. destruct (Z_lt_le_dec 0 n) as [Q|Q]; [auto|]. assert (n = 0) by lia. subst n. assert (d_visit r = d_visit q) by lia.
      destruct (d_rts q) eqn:Hq.
      * destruct (A eq_refl) as (X & _). rewrite X. lia.
      * destruct (d_rts r); lia.
Qed.
(** A packet with a nonnegative visit count is passed on by at most 63
    routers, at most twice the largest visit limit, and at most that limit if
    it is not on its way back at the end; it is turned around at most once. *)
Theorem packet_lifetime : forall M n m p r, M <= 63 -> trip M n m p r -> 0 <= d_visit p ->
  n <= 63 /\ n <= Z.max 0 (2 * M) /\ (d_rts r = false -> n <= Z.max 0 M) /\ 0 <= m <= 1.
Proof.
  intros M n m p r HM T V. destruct (trip_counts M n m p r HM T) as (N & V2 & A & B & E).
  assert (0 <= m <= 1) by (destruct (d_rts p) eqn:X; [destruct (A eq_refl); lia|specialize (B eq_refl); destruct (d_rts r); lia]).
  destruct (Z_lt_le_dec 0 n) as [Q|Q]; [|lia]. specialize (E Q). destruct (d_rts r) eqn:X; repeat split; intros; try discriminate; lia.
Qed.
Print Assumptions packet_lifetime.
(** The bound is reached: two routers that point at each other pass a packet
    back and forth 63 times in all. *)
Definition loop_find : Z * Z -> fadj := fun _ => FTo (ANbr 1 1 2).
Lemma packet_lifetime_example : forall q, 0 <= d_visit q <= 63 -> d_rts q = false -> exists r, trip 63 (63 - d_visit q) 0 q r.
Proof.
  intros q Hq Hr. assert (G : forall n q, d_visit q = 63 - Z.of_nat n -> 0 <= d_visit q -> d_rts q = false -> exists r, trip 63 (Z.of_nat n) 0 q r).
  { clear. induction n as [|n IH]; intros q Hn H0 Hr; [exists q; constructor|].
    destruct (IH (set_visit q (d_visit q + 1)) ltac:(cbn [d_visit set_visit]; lia) ltac:(cbn [d_visit set_visit]; lia) Hr) as (r & T). exists r.
    replace (Z.of_nat (S n)) with (Z.of_nat n + 1) by lia.
    assert (X : trip 63 (Z.of_nat n + 1) (0 + if Bool.eqb (d_rts q) (d_rts (set_visit q (d_visit q + 1))) then 0 else 1) q r).
    { apply (trip_on 63 loop_find 63 1 q 1 (ANbr 1 1 2) (set_visit q (d_visit q + 1)) (set_visit q (d_visit q + 1)) r (Z.of_nat n) 0).
      - lia.
      - unfold forward, attempt, loop_find. cbn [Z.eqb Pos.eqb]. rewrite Hr. destruct (Z.ltb_spec (d_visit q) 63); [reflexivity|lia].
      - repeat split.
      - exact T. }
    cbn [d_rts set_visit] in X. rewrite Bool.eqb_reflx in X. exact X. }
  destruct (G (Z.to_nat (63 - d_visit q)) q) as (r & T); [lia|lia|auto|]. exists r. rewrite Z2Nat.id in T by lia. exact T.
Qed.

(** *** One router *)
(** A router in a state reached from start delivers to itself only packets
    with its own address, whatever their visit count. *)
Definition reached (C : rcfg) (s : rst) : Prop := exists l o, hist C [] l /\ rsteps C (start C) l = Ok (s, o).
Lemma reached_inv : forall C s, cfg_ok C -> reached C s -> inv1 C s /\ inv2 C s.
Proof.
  intros C s CF (l & o & H & E). destruct (start_ok C CF) as (A & B & D).
  destruct (steps_ok C l [] [] (start C) CF ltac:(rewrite app_nil_r; auto) A B D) as (s' & o' & u & E' & I1 & I2 & _). rewrite E in E'. injection E' as <- <-. auto.
Qed.
Lemma self_in : forall (d : dict key vec) v i h c, NoDup (dkeys d) -> dget keqb d ASelf = Some v ->
  In (h, c, Some ASelf) (map (fun kv => (snd kv i, Some (fst kv))) d) -> v i = (h, c).
Proof.
  intros d v i h c ND Ev F. apply in_map_iff in F as ((k & w) & F & I). cbn [fst snd] in F.
  assert (k = ASelf) by congruence. subst k. rewrite (in_dget keqb keqb_decides d ASelf w ND I) in Ev. congruence.
Qed.
Lemma out1_self : forall C s i, cfg_ok C -> inv1 C s -> 0 <= i <= r_maxn C ->
  (out1 s i = Some ASelf <-> i = r_tid C \/ (attached s = true /\ i = 0)).
Proof.
  intros C s i CF (Co & G) Hi. split.
  - intros O. destruct (G i Hi) as [T|(E & _)]; [|auto]. unfold tab1 in T. rewrite O in T.
    pose proof CF as (K1 & K2 & K3 & K4 & K5).
    pose proof (decision_reachable _ _ _ _ _ _ (proj2 K2) (cands1_ok C s i Co) T) as (F & _ & L1 & L2).
    pose proof Co as (ND & (v & Ev & Sv) & O1 & En).
    destruct F as [F|F].
    + destruct (En i) as (_ & _ & X). congruence.
    + apply (self_in _ v) in F; auto. rewrite (Sv i Hi) in F.
      destruct (Z.eqb_spec i (r_tid C)); [auto|]. cbn [orb] in F. destruct (attached s); [destruct (Z.eqb_spec i 0); [auto|]|]; cbn [andb] in F; unfold INF in F; injection F as _ F; lia.
  - intros H. destruct (G i Hi) as [T|(_ & _ & X)]; [|auto]. unfold tab1 in T. rewrite decide_self1 in T by auto. congruence.
Qed.
Lemma out2_self : forall C s i, cfg_ok C -> inv2 C s -> r_l2 C = true -> 1 <= i <= r_maxarea C ->
  (out2 s i = Some ASelf <-> i = r_home C).
Proof.
  intros C s i CF (_ & I2) L Hi. destruct (I2 L) as (Co & G & _). split.
  - intros O. destruct (G i Hi) as [T|(E & _)]; [|auto]. unfold tab2 in T. rewrite O in T.
    pose proof CF as (K1 & K2 & K3 & K4 & K5).
    pose proof (decision_reachable _ _ _ _ _ _ (proj2 K2) (cands2_ok s i) T) as (F & _ & L1 & L2).
    destruct Co as (ND & (v & Ev & Sv) & O1).
    apply (self_in _ v) in F; auto. rewrite (Sv i Hi) in F.
    destruct (Z.eqb_spec i (r_home C)); [auto|]. unfold INF in F; injection F as _ F; lia.
  - intros ->. destruct (G (r_home C) Hi) as [T|(_ & _ & X)]; [|auto]. unfold tab2 in T. rewrite decide_self2 in T by auto. congruence.
Qed.
Lemma unattached_l1 : forall C s, inv2 C s -> r_l2 C = false -> attached s = false.
Proof. intros C s (H & _) L. auto. Qed.
Lemma of_out_self : forall o, of_out o = FTo ASelf <-> o = Some ASelf.
Proof. intros [k|]; cbn; split; congruence. Qed.
Lemma findoadj_self : forall C ph4 s area tid, cfg_ok C -> inv1 C s -> inv2 C s -> 1 <= area -> 1 <= tid ->
  (findoadj C ph4 s (area, tid) = FTo ASelf <-> area = r_home C /\ tid = r_tid C).
Proof.
  intros C ph4 s area tid CF I1 I2 Ha Ht. pose proof CF as (K1 & _). unfold findoadj, findoadj1.
  destruct (Z.eqb_spec area (r_home C)) as [Ea|Ea]; cbn [negb andb].
  - rewrite Bool.andb_false_r. destruct (Z.ltb_spec (r_maxn C) tid); [split; [discriminate|intros (_ & ->); lia]|].
    rewrite of_out_self, (out1_self C s tid CF I1) by lia. split; [intros [->|(_ & ->)]; [auto|lia]|intros (_ & ->); auto].
  - rewrite Bool.andb_true_r. destruct (r_l2 C && attached s) eqn:A.
    + apply andb_prop in A as (L & At). destruct (Z.ltb_spec (r_maxarea C) area); [split; [discriminate|tauto]|].
      rewrite of_out_self, (out2_self C s area CF I2 L) by lia. tauto.
    + assert (At : attached s = false) by (destruct (r_l2 C) eqn:L; [destruct (attached s); auto|apply (unattached_l1 C); auto]).
      destruct ph4; cbn [negb]; [|split; [discriminate|tauto]]. destruct (Z.ltb_spec (r_maxn C) 0); [split; [discriminate|tauto]|].
      rewrite of_out_self, (out1_self C s 0 CF I1) by lia. rewrite At. split; [intros [X|(X & _)]; [lia|discriminate]|tauto].
Qed.
Definition addr_ok (a : Z * Z) : Prop := 1 <= fst a /\ 1 <= snd a.
(** A packet addressed to the node itself is delivered whatever its visit
    count, and what a router delivers to itself is addressed to it: either
    the packet as it came, or (returned to sender) one it had sent itself. *)
Theorem forward_local : forall C ph4 s mv sc p, cfg_ok C -> reached C s -> addr_ok (d_dst p) -> addr_ok (d_src p) ->
  (d_dst p = (r_home C, r_tid C) -> forward (findoadj C ph4 s) mv (Some sc) false p = Ok (Deliver p)) /\
  (forall q, forward (findoadj C ph4 s) mv (Some sc) false p = Ok (Deliver q) -> d_dst q = (r_home C, r_tid C) /\
     (q = p \/ (d_src p = (r_home C, r_tid C) /\ d_rqr p = true /\ d_rts p = false /\ q = returned p))).
Proof.
  intros C ph4 s mv sc p CF R Ad As. destruct (reached_inv C s CF R) as (I1 & I2).
  assert (At : forall p q, addr_ok (d_dst p) -> attempt (findoadj C ph4 s) mv (Some sc) false p = Ok (inl (Deliver q)) -> q = p /\ d_dst q = (r_home C, r_tid C)).
  { clear p Ad As. intros p q Ad E. unfold attempt in E. destruct (findoadj C ph4 s (d_dst p)) as [[|c0 a t]| |] eqn:Ef; try discriminate.
    - injection E as <-. split; [auto|]. destruct (d_dst p) as [a t], Ad as [A1 A2]. cbn [fst snd] in *. apply findoadj_self in Ef as (-> & ->); auto.
    - destruct (d_visit _ <? _) in E; discriminate. }
  split.
  - intros D. unfold forward, attempt. rewrite D. rewrite D in Ad. destruct Ad as [A1 A2]. cbn [fst snd] in *.
    rewrite (proj2 (findoadj_self C ph4 s (r_home C) (r_tid C) CF I1 I2 A1 A2)); auto.
  - intros q E. unfold forward in E. destruct (attempt (findoadj C ph4 s) mv (Some sc) false p) as [r|] eqn:Ea; [|discriminate]. cbn [bind] in E.
    destruct r as [o|[w p1]].
    + injection E as ->. apply At in Ea as (-> & Ea); auto.
    + apply attempt_failed in Ea as (V & Rt & Q & D & S). destruct (d_rqr p1) eqn:Eq; [|discriminate]. destruct (d_rts p1) eqn:Er; [discriminate|]. cbn [andb negb] in E.
      destruct (attempt (findoadj C ph4 s) mv (Some sc) false (returned p1)) as [r2|] eqn:E2; [|discriminate]. cbn [bind] in E.
      destruct r2 as [o|[w2 p2]]; [|discriminate]. injection E as ->. apply At in E2 as (-> & E2); [|cbn [returned d_dst]; congruence].
      split; [exact E2|]. right. cbn [returned d_dst] in E2. repeat split; try congruence. unfold returned. congruence.
Qed.
Print Assumptions forward_local.
(** Sending never fails with an exception: the packet goes to a neighbour
    with visit count zero, is delivered when it is for the node itself, or no
    route exists; in the last case it comes back to the node, marked as
    returned, exactly if that was requested. *)
Theorem send_result : forall C ph4 s mv dest rqr, cfg_ok C -> reached C s -> addr_ok (r_home C, r_tid C) -> addr_ok dest -> 1 <= mv ->
  let p := {| d_dst := dest; d_src := (r_home C, r_tid C); d_rqr := rqr; d_rts := false; d_ie := true; d_visit := 0 |} in
  let back := {| d_dst := (r_home C, r_tid C); d_src := dest; d_rqr := false; d_rts := true; d_ie := false; d_visit := 0 |} in
  match findoadj C ph4 s dest with
  | FTo ASelf => dest = (r_home C, r_tid C) /\ send C ph4 mv s dest rqr = Ok (Deliver p)
  | FTo ((ANbr c _ _) as k) => send C ph4 mv s dest rqr = Ok (Sent c k p)
  | _ => send C ph4 mv s dest rqr = Ok (if rqr then Deliver back else DSilent)
  end.
Proof.
  intros C ph4 s mv dest rqr CF R Am Ad Hm p back. destruct (reached_inv C s CF R) as (I1 & I2).
  assert (Me : findoadj C ph4 s (r_home C, r_tid C) = FTo ASelf) by (apply findoadj_self; auto; apply Am).
  assert (Bad : forall w, findoadj C ph4 s dest = w -> w = FUnreach \/ w = FRange -> send C ph4 mv s dest rqr = Ok (if rqr then Deliver back else DSilent)).
  { intros w Ew Hw. unfold send, forward, attempt, p, own_packet, returned. cbn [d_dst]. rewrite Ew.
    destruct Hw as [-> | ->]; cbn [bind d_rqr d_rts]; (destruct rqr; cbn [andb negb]; [|reflexivity]); cbn [d_dst d_src d_visit]; rewrite Me; reflexivity. }
  destruct (findoadj C ph4 s dest) as [[|c a t]| |] eqn:Ef.
  - destruct dest as [a t], Ad as [A1 A2]. cbn [fst snd] in *. pose proof Ef as Ef'. apply findoadj_self in Ef' as (-> & ->); auto. split; [auto|].
    unfold send, forward, attempt, own_packet. cbn [p d_dst]. rewrite Ef. reflexivity.
  - unfold send, forward, attempt, own_packet. cbn [p d_dst d_visit]. rewrite Ef. destruct (Z.ltb_spec 0 mv); [reflexivity|lia].
  - eapply Bad; eauto.
  - eapply Bad; eauto.
Qed.
Print Assumptions send_result.
(** The start state of a router, and one after a history, are reached. *)
Example forward_example : reached (ex_cfg true) (start (ex_cfg true)) /\
  exists s, reached (ex_cfg true) s /\ findoadj (ex_cfg true) true s (1, 9) = FTo (ANbr 1 1 5) /\ findoadj (ex_cfg true) true s (1, 20) = FTo (ANbr 2 1 20) /\
  findoadj (ex_cfg true) true s (1, 50) = FUnreach /\ findoadj (ex_cfg true) true s (1, 500) = FRange.
Proof.
  split; [exists [], []; split; [constructor|reflexivity]|].
  destruct (rsteps (ex_cfg true) (start (ex_cfg true)) ex_hist) as [[s o]|] eqn:E; [|vm_compute in E; discriminate]. exists s.
  split; [exists ex_hist, o; split; [|exact E]|].
  - pose proof ex_hist_ok as H. clear E. repeat (cbn in H |- *; match goal with |- hist _ _ [] => constructor | _ => inversion H; subst; clear H; econstructor; eauto; match goal with X : hist _ _ _ |- _ => rename X into H end end).
  - vm_compute in E. injection E as <- <-. vm_compute. auto.
Qed.
(** An aged packet cannot be returned when the visit limit is 63: the limit
    for returned packets is no higher. *)
Theorem forward_aged_return_refuted : exists find p, d_rqr p = true /\ d_rts p = false /\ d_visit p = 63 /\
  find (d_src p) = FTo (ANbr 1 1 5) /\ forward find 63 (Some 1) false p = Ok (Dropped Aged).
Proof.
  exists (fun _ => FTo (ANbr 1 1 5)), {| d_dst := (1, 9); d_src := (1, 8); d_rqr := true; d_rts := false; d_ie := false; d_visit := 63 |}. vm_compute. auto.
Qed.
