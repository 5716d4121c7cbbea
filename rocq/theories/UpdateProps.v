(** C74: routing updates are sent when something changed, soon but not too
    often, and periodically. *)
From Coq Require Import Sorted.
From Verif Require Import Base RouteMsgModel RouteMsgProps UpdateModel.

(** *** What is meant *)
(** Destination [i] is in the update, with the entry of the tables.  (Phase III
    has no destination 0.) *)
Definition shows (T : tables) (o : sent) (i : Z) : Prop :=
  exists p, In p (s_pkts o) /\
    match p with
    | U4 l => In (i, entry (at_ (t_hops T) i) (at_ (t_cost T) i)) (listed [l])
    | U3 l => i = 0 \/ nth_error l (Z.to_nat (i - 1)) = Some (entry (at_ (t_hops T) i) (at_ (t_cost T) i))
    end.
(** The events that the rest of routing causes: flags of existing
    destinations are set, the tables have [n] elements. *)
Definition last_of (tid : Z) (e : option Z) : Z := match e with Some x => if x =? 0 then tid else x | None => tid end.
Definition good (lv : level) (n : Z) (e : uev) : Prop :=
  match e with
  | USet _ _ tid e => lowest lv <= tid <= last_of tid e /\ last_of tid e < n
  | UFire _ _ T => zlen (t_hops T) = n /\ 16 <= t_blk T
  end.
Definition listening (n : nbr) : Prop := nb_type n <> NEnd /\ nb_type n <> NPh2.
(** Neighbours that take this kind of update. *)
Definition taken (lv : level) (e : uev) : Prop := match e with UFire _ n _ => wants lv n <> None | _ => True end.

(** *** Flags and messages *)
Lemma set1_ok : forall l i, (i < length l)%nat -> exists l', set1 i l = Ok l' /\ length l' = length l /\ forall j, nth j l' false = if Nat.eqb i j then true else nth j l false.
Proof.
  induction l as [|b l IH]; intros i H; cbn [length] in H; [lia|]. destruct i as [|i]; cbn [set1].
  - eexists. split; [reflexivity|]. split; [reflexivity|]. intros [|j]; reflexivity.
  - destruct (IH i ltac:(lia)) as (l' & E & L & N). rewrite E. cbn [bind]. eexists. split; [reflexivity|]. split; [cbn [length]; lia|]. intros [|j]; [reflexivity|]. cbn [nth Nat.eqb]. apply N.
Qed.
Lemma setall_ok : forall is l, Forall (fun i => 0 <= i < zlen l) is -> exists l', setall l is = Ok l' /\ zlen l' = zlen l /\ forall j, 0 <= j -> (flag l' j = true <-> In j is \/ flag l j = true).
Proof.
  induction is as [|i is IH]; intros l F; cbn [setall]; [exists l; split; [reflexivity|]; split; [reflexivity|]; intros; cbn; tauto|].
  inversion F as [|? ? B F2]; subst. destruct (set1_ok l (Z.to_nat i)) as (l1 & E & L & N); [unfold zlen in B; lia|]. rewrite E. cbn [bind].
  assert (LZ : zlen l1 = zlen l) by (unfold zlen; lia). destruct (IH l1) as (l2 & E2 & L2 & N2); [rewrite LZ; exact F2|]. exists l2. split; [exact E2|]. split; [lia|].
  intros j J. rewrite (N2 j J). unfold flag at 1. rewrite N. cbn [In]. destruct (Nat.eqb_spec (Z.to_nat i) (Z.to_nat j)) as [Q | Q].
  - assert (i = j) by lia. tauto.
  - fold (flag l j). split; [tauto|]. intros [[H | H] | H]; [subst; congruence | tauto | tauto].
Qed.
Lemma zrange_in : forall a b i, In i (zrange a b) <-> a <= i < b.
Proof.
  intros a b i. unfold zrange. rewrite in_map_iff. split; [intros (k & <- & H); apply in_seq in H; lia | intro H; exists (Z.to_nat (i - a)); split; [lia | apply in_seq; lia]].
Qed.
Lemma clear_len : forall l n, length (clear n l) = length l.
Proof. induction l as [|b l IH]; intros [|n]; cbn [clear length]; try reflexivity. f_equal. apply IH. Qed.
Lemma loop_len : forall h c m cp is b b', build_loop h c m cp b is = Ok b' -> length (b_srm b') = length (b_srm b).
Proof.
  intros h c m cp. induction is as [|i is IH]; intros b b' E; cbn [build_loop] in E; [congruence|].
  destruct (build_step h c m cp b i) as [b1|] eqn:S; cbn [bind] in E; [|discriminate E]. rewrite (IH _ _ E). clear -S. unfold build_step in S.
  destruct (negb _); [congruence|]. destruct (if m <? b_len b then _ else _) as [[p ret]|]; cbn [bind] in S; [|discriminate S].
  destruct p as [l|]; [destruct (b_seg b) as [| |[st es]] | ]; cbn [bind] in S; try discriminate S; try (injection S as <-; apply clear_len).
  destruct (2 <? _); cbn [bind] in S; injection S as <-; apply clear_len.
Qed.
Lemma build_ok : forall lv f T srm complete n, zlen srm = n -> zlen (t_hops T) = n -> 16 <= t_blk T -> (exists i, lowest lv <= i < n /\ (complete || flag srm i) = true) ->
  exists pkts srm', build lv f T srm complete = Ok (pkts, srm') /\ pkts <> [] /\ zlen srm' = n /\
    forall i, lowest lv <= i < n -> (complete || flag srm i) = true -> forall o, (forall p, In p (s_pkts o) <-> In p pkts) -> shows T o i.
Proof.
  intros lv f T srm complete n LS LH BL (i0 & I0 & W0). destruct f; cbn [build].
  - eexists. eexists. split; [reflexivity|]. split; [discriminate|]. split; [destruct srm; [exact LS|]; unfold clear_from1; unfold zlen in *; cbn [length] in *; rewrite map_length; exact LS|].
    intros i I _ o P. eexists. split; [apply P; left; reflexivity|]. cbn beta iota. destruct (Z.eq_dec i 0); [left; assumption|]. right. apply updates_built3. destruct lv; cbn [lowest] in I; lia.
  - destruct (updates_built lv (t_blk T) (t_hops T) (t_cost T) srm complete BL) as (pk & sr & E & (sel & S1 & _ & _ & S4) & _); [lia | exists i0; split; [lia | exact W0]|].
    rewrite E. cbn [bind]. eexists. eexists. split; [reflexivity|].
    assert (ALL : forall i, lowest lv <= i < n -> (complete || flag srm i) = true -> In (i, entry (at_ (t_hops T) i) (at_ (t_cost T) i)) (listed pk)).
    { intros i I W. rewrite S1. apply in_map_iff. exists i. split; [reflexivity|]. apply S4; [lia | exact W]. }
    split; [intro N; destruct pk; [apply (ALL i0 I0) in W0; exact W0 | discriminate N]|]. split.
    + unfold build4 in E. destruct (build_loop _ _ _ _ _ _) as [b|] eqn:L; cbn [bind] in E; [|discriminate E]. apply loop_len in L. cbn [b_srm] in L.
      destruct (close_seg _ _) as [[[|]|]|]; cbn [bind] in E; try discriminate E; injection E as _ <-; unfold zlen in *; lia.
    + intros i I W o P. specialize (ALL i I W). unfold listed in ALL. apply in_flat_map in ALL as (s & IS & H). exists (U4 s). split; [apply P, in_map, IS|]. unfold listed. cbn [flat_map]. rewrite app_nil_r. exact H.
Qed.
Lemma rotate_in : forall k l p, In p (rotate k l) <-> In p l.
Proof. intros k l p. unfold rotate. rewrite in_app_iff. rewrite <- (firstn_skipn (Z.to_nat k) l) at 3. rewrite in_app_iff. tauto. Qed.

(** *** Steps *)
Definition flagged (lv : level) (n : Z) (s : ust) : Prop := zlen (u_srm s) = n /\ (u_any s = true -> exists i, lowest lv <= i < n /\ flag (u_srm s) i = true).
Lemma lowest0 : forall lv, 0 <= lowest lv. Proof. intros []; cbn; lia. Qed.
Lemma set_step : forall lv t1 n s now nb tid e, flagged lv n s -> good lv n (USet now nb tid e) -> exists s1, ustep lv t1 s (USet now nb tid e) = Ok (s1, []) /\ flagged lv n s1 /\
  ((~ listening nb /\ s1 = s) \/
   (listening nb /\ u_any s1 = true /\ u_hold s1 = true /\ u_lastup s1 = u_lastup s /\ u_lastfull s1 = u_lastfull s /\
    u_timer s1 = (if u_hold s then u_timer s else Some (now, Z.max (T2 - (now - u_lastup s)) 0)) /\
    forall j, 0 <= j -> (flag (u_srm s1) j = true <-> tid <= j <= last_of tid e \/ flag (u_srm s) j = true))).
Proof.
  intros lv t1 n s now nb tid e (F1 & F2) (G1 & G2). pose proof (lowest0 lv) as L0. cbn [ustep]. unfold setsrm. fold (last_of tid e).
  destruct (setall_ok (zrange tid (last_of tid e + 1)) (u_srm s)) as (srm & E & L & N).
  { apply Forall_forall. intros i I. apply zrange_in in I. lia. }
  assert (K : listening nb -> exists s1, bind (bind (setall (u_srm s) (zrange tid (last_of tid e + 1))) (fun srm => Ok (soon now (mkU srm true (u_hold s) (u_lastup s) (u_lastfull s) (u_pos s) (u_timer s))))) (fun s1 => Ok (s1, @nil sent)) = Ok (s1, []) /\ flagged lv n s1 /\
    (listening nb /\ u_any s1 = true /\ u_hold s1 = true /\ u_lastup s1 = u_lastup s /\ u_lastfull s1 = u_lastfull s /\
    u_timer s1 = (if u_hold s then u_timer s else Some (now, Z.max (T2 - (now - u_lastup s)) 0)) /\
    forall j, 0 <= j -> (flag (u_srm s1) j = true <-> tid <= j <= last_of tid e \/ flag (u_srm s) j = true))).
  { intro LI. rewrite E. cbn [bind]. eexists. split; [reflexivity|]. unfold soon. cbn [u_hold u_srm u_any u_lastup u_lastfull u_pos u_timer].
    assert (NN : forall j, 0 <= j -> (flag srm j = true <-> tid <= j <= last_of tid e \/ flag (u_srm s) j = true)).
    { intros j J. rewrite (N j J), zrange_in. intuition lia. }
    assert (FF : exists i, lowest lv <= i < n /\ flag srm i = true) by (exists tid; split; [lia|]; apply NN; [lia | left; lia]).
    destruct (u_hold s) eqn:H; cbn [u_hold u_srm u_any u_lastup u_lastfull u_pos u_timer]; rewrite ?H; (split; [split; [cbn [u_srm]; lia | intros _; exact FF]|]); repeat (split; [first [exact LI | reflexivity]|]); exact NN. }
  destruct (nb_type nb) eqn:NT; try (destruct K as (s1 & K1 & K2 & K3); [split; rewrite NT; discriminate|]; exists s1; split; [exact K1|]; split; [exact K2|]; right; exact K3);
    (cbn [bind]; exists s; split; [reflexivity|]; split; [split; assumption|]; left; split; [|reflexivity]; intros [A B]; congruence).
Qed.
Lemma fire_step : forall lv t1 n s now nb T, lowest lv < n -> flagged lv n s -> good lv n (UFire now nb T) -> exists s1 o, ustep lv t1 s (UFire now nb T) = Ok (s1, o) /\ flagged lv n s1 /\ u_hold s1 = false /\
  ((wants lv nb = None /\ o = [] /\ u_timer s1 = None /\ u_lastup s1 = u_lastup s /\ u_lastfull s1 = u_lastfull s) \/
   (wants lv nb <> None /\ exists x, o = [x] /\ s_time x = now /\ s_full x = negb (u_any s) /\ u_lastup s1 = now /\ u_lastfull s1 = (if u_any s then u_lastfull s else now) /\ u_any s1 = false /\
      u_timer s1 = Some (now, if u_any s then Z.min (now - u_lastfull s) t1 else t1) /\
      forall i, lowest lv <= i < n -> u_any s = false \/ flag (u_srm s) i = true -> shows T x i)).
Proof.
  intros lv t1 n s now nb T NP (F1 & F2) (G1 & G2). cbn [ustep]. unfold fire. destruct (wants lv nb) as [f|].
  - destruct (build_ok lv f T (u_srm s) (negb (u_any s)) n F1 G1 G2) as (pk & sr & E & NE & L & SH).
    { destruct (u_any s) eqn:A; cbn [negb orb]; [apply F2; reflexivity | exists (lowest lv); split; [lia | reflexivity]]. }
    rewrite E. cbn [bind]. replace (zlen pk =? 0) with false by (symmetry; apply Z.eqb_neq; destruct pk; [contradiction NE; reflexivity | unfold zlen; cbn [length]; lia]). cbn [bind].
    eexists. eexists. split; [reflexivity|]. split; [split; [exact L | discriminate]|]. split; [reflexivity|]. right. split; [discriminate|]. eexists. split; [reflexivity|].
    cbn [s_time s_full u_lastup u_lastfull u_any u_timer]. repeat (split; [reflexivity|]). intros i I W. apply SH; [exact I | | intro p; apply rotate_in]. destruct (u_any s); [destruct W as [W | W]; [discriminate W | exact W] | reflexivity].
  - cbn [bind]. eexists. eexists. split; [reflexivity|]. split; [split; assumption|]. split; [reflexivity|]. left. repeat split.
Qed.
(** *** No failure *)
Lemma usteps_ok : forall lv t1 n l s, lowest lv < n -> flagged lv n s -> Forall (good lv n) l -> exists s' o, usteps lv t1 s l = Ok (s', o) /\ flagged lv n s'.
Proof.
  intros lv t1 n. induction l as [|e l IH]; intros s NP F G; [eexists; eexists; split; [reflexivity | exact F]|]. inversion G as [|? ? G1 G2]; subst. cbn [usteps].
  assert (S : exists s1 o, ustep lv t1 s e = Ok (s1, o) /\ flagged lv n s1).
  { destruct e as [now nb tid e | now nb T]; [destruct (set_step lv t1 n s now nb tid e F G1) as (s1 & E & F1 & _) | destruct (fire_step lv t1 n s now nb T NP F G1) as (s1 & o & E & F1 & _)]; eauto. }
  destruct S as (s1 & o & E & F1). rewrite E. cbn [bind]. destruct (IH s1 NP F1 G2) as (s2 & o2 & E2 & F3). rewrite E2. cbn [bind]. eauto.
Qed.
Lemma flag_repeat : forall n i, flag (repeat false n) i = false.
Proof. intros n i. unfold flag. generalize (Z.to_nat i). induction n as [|n IH]; intros [|k]; cbn; auto. Qed.
Lemma start_flagged : forall lv n t1 now, flagged lv (Z.of_nat n) (ustart n t1 now).
Proof. intros lv n t1 now. split; [cbn [ustart u_srm]; unfold zlen; rewrite repeat_length; reflexivity | discriminate]. Qed.
(** The update process never fails, whatever is changed and whoever the neighbour is. *)
Theorem update_runs : forall lv n t1 t0 l, lowest lv < Z.of_nat n -> Forall (good lv (Z.of_nat n)) l -> exists s o, usteps lv t1 (ustart n t1 t0) l = Ok (s, o).
Proof. intros lv n t1 t0 l NP G. destruct (usteps_ok lv t1 (Z.of_nat n) l (ustart n t1 t0) NP (start_flagged _ _ _ _) G) as (s & o & E & _). eauto. Qed.
Print Assumptions update_runs.

(** *** Time *)
Definition tinv (t1 now : Z) (s : ust) : Prop :=
  T2 <= now /\ 0 <= u_lastfull s <= u_lastup s /\ u_lastup s <= now /\ (u_hold s = true -> u_any s = true /\ u_timer s <> None) /\
  (forall s0 d, u_timer s = Some (s0, d) -> s0 <= now /\ u_lastup s <= s0 /\ T2 <= s0 /\
     (u_hold s = true -> d = Z.max (T2 - (s0 - u_lastup s)) 0) /\
     (u_hold s = false -> u_any s = false /\ T2 - 2 * jiffy < d <= t1 /\ (u_lastup s = s0 \/ u_lastup s = 0))).
Lemma ticks_bounds : forall d, d - jiffy < ticks d * jiffy <= Z.max d jiffy /\ jiffy <= ticks d * jiffy.
Proof. intro d. unfold ticks, jiffy. pose proof (Z.div_mod d 100 ltac:(lia)). pose proof (Z.mod_pos_bound d 100 ltac:(lia)). lia. Qed.
Lemma start_tinv : forall n t1 t0, T2 <= t0 -> T2 <= t1 -> tinv t1 t0 (ustart n t1 t0).
Proof. intros n t1 t0 A B. unfold tinv, T2, jiffy in *. cbn [ustart u_lastfull u_lastup u_hold u_any u_timer]. split; [lia|]. split; [lia|]. split; [lia|]. split; [discriminate|]. intros s0 d E. injection E as <- <-. split; [lia|]. split; [lia|]. split; [lia|]. split; [discriminate|]. intros _. split; [reflexivity|]. split; [lia | right; reflexivity]. Qed.
Lemma set_tinv : forall lv t1 lag now n s t nb tid e s1 o, flagged lv n s -> good lv n (USet t nb tid e) -> tinv t1 now s -> in_time lag now s (USet t nb tid e) -> ustep lv t1 s (USet t nb tid e) = Ok (s1, o) -> tinv t1 t s1.
Proof.
  intros lv t1 lag now n s t nb tid e s1 o F G (I0 & I1 & I2 & I3 & I4) (IT & _) E. cbn [ev_time] in IT.
  destruct (set_step lv t1 n s t nb tid e F G) as (x & X & _ & C). rewrite X in E. injection E as <- <-. destruct C as [(_ & ->) | (_ & A1 & A2 & A3 & A4 & A5 & _)].
  - split; [lia|]. split; [lia|]. split; [lia|]. split; [exact I3|]. intros s0 d TM. destruct (I4 s0 d TM) as (J0 & J). split; [lia | exact J].
  - unfold tinv. rewrite A1, A2, A3, A4, A5. split; [lia|]. split; [lia|]. split; [lia|]. destruct (u_hold s) eqn:H.
    + split; [intros _; split; [reflexivity | apply I3; reflexivity]|]. intros s0 d TM. destruct (I4 s0 d TM) as (J0 & J1 & J2 & J3 & _). split; [lia|]. split; [lia|]. split; [lia|]. split; [exact J3 | discriminate].
    + split; [intros _; split; [reflexivity | discriminate]|]. intros s0 d TM. injection TM as <- <-. split; [lia|]. split; [lia|]. split; [lia|]. split; [reflexivity | discriminate].
Qed.
Lemma fire_tinv : forall lv t1 lag now n s t nb T s1 o, lowest lv < n -> T2 <= t1 -> flagged lv n s -> good lv n (UFire t nb T) -> tinv t1 now s -> in_time lag now s (UFire t nb T) -> ustep lv t1 s (UFire t nb T) = Ok (s1, o) ->
  tinv t1 t s1 /\ (u_lastup s = 0 \/ u_lastup s + T2 - 4 * jiffy < t).
Proof.
  intros lv t1 lag now n s t nb T s1 o NP T1 F G (I0 & I1 & I2 & I3 & I4) (IT & IF) E. cbn [ev_time] in IT, IF.
  destruct (u_timer s) as [[s0 d]|] eqn:TM; [|contradiction IF]. destruct IF as (_ & IF). destruct (I4 s0 d eq_refl) as (J0 & J1 & J2 & J3 & J4). pose proof (ticks_bounds d) as TB.
  assert (LOW : u_hold s = true -> u_lastup s + T2 - 2 * jiffy < t).
  { intro H. rewrite (J3 H) in *. unfold jiffy, T2 in *. lia. }
  assert (SP : u_lastup s = 0 \/ u_lastup s + T2 - 4 * jiffy < t).
  { destruct (u_hold s); [right; specialize (LOW eq_refl); unfold jiffy in *; lia|]. destruct (J4 eq_refl) as (_ & K1 & [K2 | K2]); [right; unfold jiffy, T2 in *; lia | left; exact K2]. }
  split; [|exact SP]. destruct (fire_step lv t1 n s t nb T NP F G) as (x & y & X & _ & H0 & C). rewrite X in E. injection E as <- <-.
  unfold tinv. rewrite H0. destruct C as [(_ & _ & A1 & A2 & A3) | (_ & z & _ & _ & _ & A1 & A2 & A3 & A4 & _)].
  - rewrite A1, A2, A3. split; [lia|]. split; [lia|]. split; [lia|]. split; [discriminate|]. discriminate.
  - rewrite A1, A2, A3, A4. split; [lia|]. split; [destruct (u_any s); lia|]. split; [lia|]. split; [discriminate|]. intros s' d' E. injection E as <- <-.
    split; [lia|]. split; [lia|]. split; [lia|]. split; [discriminate|]. intros _. split; [reflexivity|]. split; [|left; reflexivity].
    destruct (u_any s) eqn:AN; [|unfold jiffy, T2 in *; lia]. destruct (u_hold s) eqn:H; [|destruct (J4 eq_refl) as (K & _); discriminate K]. specialize (LOW eq_refl). unfold jiffy, T2 in *. lia.
Qed.
Lemma step_tinv : forall lv t1 lag now n s e s1 o, lowest lv < n -> T2 <= t1 -> flagged lv n s -> good lv n e -> tinv t1 now s -> in_time lag now s e -> ustep lv t1 s e = Ok (s1, o) -> tinv t1 (ev_time e) s1 /\ flagged lv n s1.
Proof.
  intros lv t1 lag now n s e s1 o NP T1 F G I IT E. destruct e as [t nb tid e | t nb T].
  - split; [eapply set_tinv; eassumption|]. destruct (set_step lv t1 n s t nb tid e F G) as (x & X & FX & _). congruence.
  - split; [eapply fire_tinv; eassumption|]. destruct (fire_step lv t1 n s t nb T NP F G) as (x & y & X & FX & _). congruence.
Qed.
Lemma usteps_app : forall lv t1 l1 l2 s s1 o1, usteps lv t1 s l1 = Ok (s1, o1) -> usteps lv t1 s (l1 ++ l2) = bind (usteps lv t1 s1 l2) (fun '(s2, o2) => Ok (s2, o1 ++ o2)).
Proof.
  intros lv t1. induction l1 as [|e l1 IH]; intros l2 s s1 o1 E; cbn [usteps app] in *; [injection E as <- <-; destruct (usteps lv t1 s l2) as [[? ?]|]; reflexivity|].
  destruct (ustep lv t1 s e) as [[s0 o0]|]; cbn [bind] in *; [|discriminate E]. destruct (usteps lv t1 s0 l1) as [[s' o']|] eqn:E2; cbn [bind] in E; [|discriminate E]. injection E as <- <-.
  rewrite (IH l2 s0 s' o' E2). destruct (usteps lv t1 s' l2) as [[? ?]|]; cbn [bind]; [rewrite app_assoc; reflexivity | reflexivity].
Qed.
Lemma reach_inv : forall lv t1 lag n l1 l2 now s s1 o1, lowest lv < n -> T2 <= t1 -> flagged lv n s -> tinv t1 now s -> Forall (good lv n) l1 -> timely lv t1 lag now s (l1 ++ l2) -> usteps lv t1 s l1 = Ok (s1, o1) ->
  exists now1, flagged lv n s1 /\ tinv t1 now1 s1 /\ timely lv t1 lag now1 s1 l2.
Proof.
  intros lv t1 lag n. induction l1 as [|e l1 IH]; intros l2 now s s1 o1 NP T1 F I G TI E; cbn [usteps app timely] in *; [injection E as <- <-; exists now; auto|].
  inversion G as [|? ? G1 G2]; subst. destruct TI as (IT & TI). destruct (ustep lv t1 s e) as [[s0 o0]|] eqn:ES; cbn [bind] in E; [|discriminate E].
  destruct (usteps lv t1 s0 l1) as [[s' o']|] eqn:E2; cbn [bind] in E; [|discriminate E]. injection E as <- <-. destruct (step_tinv lv t1 lag now n s e s0 o0 NP T1 F G1 I IT ES) as (I' & F').
  exact (IH l2 (ev_time e) s0 s' o' NP T1 F' I' G2 (TI s0 o0 eq_refl) E2).
Qed.
(** Two updates are never closer than a second, but for the ticks of the
    timer. *)
Theorem update_spacing : forall lv n t1 lag t0 l s o, lowest lv < Z.of_nat n -> T2 <= t0 -> T2 <= t1 -> Forall (good lv (Z.of_nat n)) l -> timely lv t1 lag t0 (ustart n t1 t0) l ->
  usteps lv t1 (ustart n t1 t0) l = Ok (s, o) -> StronglySorted (fun x y => s_time x + T2 - 4 * jiffy < s_time y) o.
Proof.
  intros lv n t1 lag t0 l s o NP T0 T1 G TI E. apply (start_tinv n t1 t0 T0) in T1 as I. pose proof (start_flagged lv n t1 t0) as F.
  assert (W : forall l now s s' o, flagged lv (Z.of_nat n) s -> tinv t1 now s -> Forall (good lv (Z.of_nat n)) l -> timely lv t1 lag now s l -> usteps lv t1 s l = Ok (s', o) ->
    Forall (fun y => u_lastup s = 0 \/ u_lastup s + T2 - 4 * jiffy < s_time y) o /\ StronglySorted (fun x y => s_time x + T2 - 4 * jiffy < s_time y) o).
  { clear -NP T1. induction l as [|e l IH]; intros now s s' o F I G TI E; cbn [usteps timely] in *; [injection E as <- <-; split; constructor|].
    inversion G as [|? ? G1 G2]; subst. destruct TI as (IT & TI). destruct (ustep lv t1 s e) as [[s0 o0]|] eqn:ES; cbn [bind] in E; [|discriminate E].
    destruct (usteps lv t1 s0 l) as [[s2 o2]|] eqn:E2; cbn [bind] in E; [|discriminate E]. injection E as <- <-. destruct (step_tinv lv t1 lag now (Z.of_nat n) s e s0 o0 NP T1 F G1 I IT ES) as (I' & F').
    destruct (IH (ev_time e) s0 s2 o2 F' I' G2 (TI s0 o0 eq_refl) E2) as (H1 & H2). destruct e as [t nb tid e | t nb T].
    - destruct (set_step lv t1 _ s t nb tid e F G1) as (x & X & _ & C). rewrite X in ES. injection ES as <- <-. cbn [app]. split; [|exact H2].
      assert (L : u_lastup x = u_lastup s) by (destruct C as [(_ & ->) | (_ & _ & _ & L & _)]; [reflexivity | exact L]). rewrite <- L. exact H1.
    - destruct (fire_tinv lv t1 lag now _ s t nb T s0 o0 NP T1 F G1 I IT ES) as (_ & SP). destruct (fire_step lv t1 _ s t nb T NP F G1) as (x & y & X & _ & _ & C). rewrite X in ES. injection ES as <- <-.
      destruct C as [(_ & -> & _ & L & _) | (_ & z & -> & Z1 & _ & L & _)]; cbn [app]; [rewrite L in H1; split; assumption|]. rewrite L in H1. destruct I' as (J0 & _ & J1 & _). cbn [ev_time] in J0, J1. destruct I as (_ & _ & J2 & _). destruct IT as (IT & _). cbn [ev_time] in IT.
      assert (H3 : Forall (fun y => t + T2 - 4 * jiffy < s_time y) o2) by (eapply Forall_impl; [|exact H1]; cbn beta; intros a [A | A]; unfold T2 in *; lia).
      split; constructor; try assumption; [rewrite Z1; exact SP | | rewrite Z1; exact H3]. eapply Forall_impl; [|exact H3]. cbn beta. intros a A. destruct SP as [SP | SP]; [left; exact SP | right; unfold T2, jiffy in *; lia]. }
  eapply W; eassumption.
Qed.
Print Assumptions update_spacing.
(** While an update is being held off, it comes by the time of the timer. *)
Lemma held_comes : forall lv t1 lag n l now s s' o D s0 d, lowest lv < n -> T2 <= t1 -> flagged lv n s -> tinv t1 now s -> Forall (good lv n) l -> Forall (taken lv) l -> timely lv t1 lag now s l -> usteps lv t1 s l = Ok (s', o) ->
  u_hold s = true -> u_timer s = Some (s0, d) -> s0 + ticks d * jiffy + lag <= D -> (exists e, In e l /\ D < ev_time e) ->
  exists x nb T, In x o /\ In (UFire (s_time x) nb T) l /\ now <= s_time x <= D /\ forall i, lowest lv <= i < n -> flag (u_srm s) i = true -> shows T x i.
Proof.
  intros lv t1 lag n. induction l as [|e l IH]; intros now s s' o D s0 d NP T1 F I G TK TI E H TM LD (e0 & IE & LE); [contradiction IE|]. cbn [usteps timely] in *.
  inversion G as [|? ? G1 G2]; subst. inversion TK as [|? ? K1 K2]; subst. destruct TI as (IT & TI). destruct (ustep lv t1 s e) as [[s1 o1]|] eqn:ES; cbn [bind] in E; [|discriminate E].
  destruct (usteps lv t1 s1 l) as [[s2 o2]|] eqn:E2; cbn [bind] in E; [|discriminate E]. injection E as <- <-. destruct (step_tinv lv t1 lag now n s e s1 o1 NP T1 F G1 I IT ES) as (I' & F').
  destruct IT as (IT0 & IT). rewrite TM in IT. destruct IT as (IT1 & _). assert (IE2 : In e0 l) by (destruct IE as [-> | IE]; [lia | exact IE]). destruct e as [t nb tid e | t nb T]; cbn [ev_time] in *.
  - destruct (set_step lv t1 n s t nb tid e F G1) as (x & X & _ & C). rewrite X in ES. injection ES as <- <-.
    assert (C2 : u_hold x = true /\ u_timer x = Some (s0, d) /\ forall i, 0 <= i -> flag (u_srm s) i = true -> flag (u_srm x) i = true).
    { destruct C as [(_ & ->) | (_ & _ & A & _ & _ & B & C)]; [auto|]. rewrite H in B. split; [exact A|]. split; [congruence|]. intros i I0 FI. apply C; auto. }
    destruct C2 as (H2 & TM2 & FL). destruct (IH t x s2 o2 D s0 d NP T1 F' I' G2 K2 (TI x [] eq_refl) E2 H2 TM2 LD) as (y & nb' & T & Y1 & Y2 & Y3 & Y4); [exists e0; auto|].
    exists y, nb', T. cbn [app]. split; [exact Y1|]. split; [right; exact Y2|]. split; [lia|]. intros i R FI. apply Y4; [exact R|]. apply FL; [pose proof (lowest0 lv); lia | exact FI].
  - destruct (fire_step lv t1 n s t nb T NP F G1) as (x & y & X & _ & _ & C). rewrite X in ES. injection ES as <- <-. cbn [taken] in K1. destruct C as [(C & _) | (_ & z & -> & Z1 & _ & _ & _ & _ & _ & Z2)]; [contradiction|].
    exists z, nb, T. split; [left; reflexivity|]. rewrite Z1. split; [left; reflexivity|]. split; [lia|]. intros i R FI. apply Z2; auto.
Qed.
(** A change is told within a second, if the neighbour takes updates, with
    the distance it then has. *)
Theorem update_prompt : forall lv n t1 lag t0 l1 now nb tid e l2 s o1 s2 o2 i, lowest lv < Z.of_nat n -> T2 <= t0 -> T2 <= t1 -> 0 <= lag ->
  Forall (good lv (Z.of_nat n)) (l1 ++ [USet now nb tid e]) -> Forall (good lv (Z.of_nat n)) l2 -> timely lv t1 lag t0 (ustart n t1 t0) ((l1 ++ [USet now nb tid e]) ++ l2) ->
  usteps lv t1 (ustart n t1 t0) (l1 ++ [USet now nb tid e]) = Ok (s, o1) -> usteps lv t1 s l2 = Ok (s2, o2) ->
  listening nb -> Forall (taken lv) l2 -> tid <= i <= last_of tid e -> (exists e, In e l2 /\ now + T2 + lag < ev_time e) ->
  exists x nb T, In x o2 /\ In (UFire (s_time x) nb T) l2 /\ now <= s_time x <= now + T2 + lag /\ shows T x i.
Proof.
  intros lv n t1 lag t0 l1 now nb tid e l2 s o1 s2 o2 i NP T0 T1 LG G1 G2 TI E1 E2 LI TK R LATE.
  apply Forall_app in G1 as [GA GB]. destruct (usteps_ok lv t1 (Z.of_nat n) l1 (ustart n t1 t0) NP (start_flagged _ _ _ _) GA) as (sa & oa & EA & _).
  rewrite <- app_assoc in TI. destruct (reach_inv lv t1 lag (Z.of_nat n) l1 _ t0 _ sa oa NP T1 (start_flagged _ _ _ _) (start_tinv n t1 t0 T0 T1) GA TI EA) as (now1 & F & I & TI1).
  rewrite (usteps_app _ _ _ _ _ _ _ EA) in E1. cbn [usteps app timely] in *. inversion GB as [|? ? GB1 _]; subst. destruct TI1 as (IT & TI1).
  destruct (set_step lv t1 _ sa now nb tid e F GB1) as (x & X & FX & C). pose proof (set_tinv lv t1 lag now1 _ sa now nb tid e x [] F GB1 I IT X) as IX. rewrite X in E1. cbn [bind app] in E1. injection E1 as <- <-.
  destruct C as [(C & _) | (_ & _ & H & LU & _ & TM & FL)]; [contradiction|]. specialize (TI1 x [] X). cbn [ev_time] in TI1.
  pose proof IX as (J0 & J1 & J2 & J3 & J4). destruct (J3 H) as (AN & NN). destruct (u_timer x) as [[s0 d]|] eqn:TX; [|contradiction NN; reflexivity].
  destruct (J4 s0 d eq_refl) as (K0 & K1 & K2 & K3 & _). specialize (K3 H). pose proof (ticks_bounds d) as TB.
  destruct (held_comes lv t1 lag (Z.of_nat n) l2 now x s2 o2 (now + T2 + lag) s0 d NP T1 FX) as (y & nb' & T & Y1 & Y2 & Y3 & Y4); try assumption.
  { unfold jiffy, T2 in *. lia. }
  exists y, nb', T. split; [exact Y1|]. split; [exact Y2|]. split; [exact Y3|]. cbn [good] in GB1. pose proof (lowest0 lv). apply Y4; [lia|]. apply FL; [lia | left; exact R].
Qed.
Print Assumptions update_prompt.

(** *** Periodic updates *)
(** After an update the next one comes within T1 (and a tick; the lag counts
    twice when a change comes just before).  When nothing changes it is a
    complete one and comes within T1. *)
Definition asks (e : uev) : Prop := match e with USet _ n _ _ => listening n | _ => False end.
Lemma next_comes : forall lv t1 lag n l now s s' o u d, lowest lv < n -> T2 <= t1 -> 0 <= lag -> flagged lv n s -> tinv t1 now s -> Forall (good lv n) l -> Forall (taken lv) l -> timely lv t1 lag now s l -> usteps lv t1 s l = Ok (s', o) ->
  u_hold s = false -> u_timer s = Some (u, d) -> u_lastup s = u -> (exists e, In e l /\ u + t1 + jiffy + 2 * lag < ev_time e) ->
  (exists x, In x o /\ now <= s_time x <= u + t1 + jiffy + 2 * lag) /\
  (Forall (fun e => ~ asks e) l -> exists x nb T, In x o /\ In (UFire (s_time x) nb T) l /\ now <= s_time x <= u + t1 + lag /\ s_full x = true /\ forall i, lowest lv <= i < n -> shows T x i).
Proof.
  intros lv t1 lag n. induction l as [|e l IH]; intros now s s' o u d NP T1 LG F I G TK TI E H TM LU (e0 & IE & LE); [contradiction IE|]. cbn [usteps timely] in *.
  inversion G as [|? ? G1 G2]; subst. inversion TK as [|? ? K1 K2]; subst. destruct TI as (IT & TI). destruct (ustep lv t1 s e) as [[s1 o1]|] eqn:ES; cbn [bind] in E; [|discriminate E].
  destruct (usteps lv t1 s1 l) as [[s2 o2]|] eqn:E2; cbn [bind] in E; [|discriminate E]. injection E as <- <-. destruct (step_tinv lv t1 lag now n s e s1 o1 NP T1 F G1 I IT ES) as (I' & F').
  destruct IT as (IT0 & IT). rewrite TM in IT. destruct IT as (IT1 & _). pose proof I as (J0 & J1 & J2 & J3 & J4). destruct (J4 _ _ TM) as (Q0 & Q1 & Q2 & Q3 & Q4). destruct (Q4 H) as (AN & DB & _). pose proof (ticks_bounds d) as TB.
  assert (IE2 : In e0 l) by (destruct IE as [-> | IE]; [unfold jiffy, T2 in *; lia | exact IE]). destruct e as [t nb tid e | t nb T]; cbn [ev_time] in *.
  - destruct (set_step lv t1 n s t nb tid e F G1) as (x & X & _ & C). rewrite X in ES. injection ES as <- <-. cbn [app]. specialize (TI x [] eq_refl). destruct C as [(C & ->) | (LI & _ & A & LX & _ & B & _)].
    + destruct (IH t s s2 o2 (u_lastup s) d NP T1 LG F' I' G2 K2 TI E2 H TM eq_refl ltac:(exists e0; auto)) as (U1 & U2). split; [destruct U1 as (y & Y1 & Y2); exists y; split; [exact Y1 | lia]|].
      intro NA. inversion NA; subst. destruct (U2 ltac:(assumption)) as (y & nb' & T & Y1 & Y2 & Y3 & Y4). exists y, nb', T. split; [exact Y1|]. split; [right; exact Y2|]. split; [lia | exact Y4].
    + rewrite H in B. pose proof (ticks_bounds (Z.max (T2 - (t - u_lastup s)) 0)) as TB2.
      destruct (held_comes lv t1 lag n l t x s2 o2 (u_lastup s + t1 + jiffy + 2 * lag) t _ NP T1 F' I' G2 K2 TI E2 A B) as (y & nb' & T & Y1 & Y2 & Y3 & _); [unfold jiffy, T2 in *; lia | exists e0; auto|].
      split; [exists y; split; [exact Y1 | lia]|]. intro NA. inversion NA as [|? ? N1 _]; subst. contradiction N1.
  - destruct (fire_step lv t1 n s t nb T NP F G1) as (x & y & X & _ & _ & C). rewrite X in ES. injection ES as <- <-. cbn [taken] in K1. destruct C as [(C & _) | (_ & z & -> & Z1 & Z0 & _ & _ & _ & _ & Z2)]; [contradiction|]. rewrite AN in Z0.
    split; [exists z; split; [left; reflexivity | unfold jiffy, T2 in *; lia]|]. intros _. exists z, nb, T. split; [left; reflexivity|]. rewrite Z1. split; [left; reflexivity|]. split; [unfold jiffy, T2 in *; lia|]. split; [exact Z0|]. intros i R. apply Z2; auto.
Qed.
Theorem update_periodic : forall lv n t1 lag t0 l1 u nb T l2 s o1 s2 o2, lowest lv < Z.of_nat n -> T2 <= t0 -> T2 <= t1 -> 0 <= lag ->
  Forall (good lv (Z.of_nat n)) (l1 ++ [UFire u nb T]) -> Forall (good lv (Z.of_nat n)) l2 -> timely lv t1 lag t0 (ustart n t1 t0) ((l1 ++ [UFire u nb T]) ++ l2) ->
  usteps lv t1 (ustart n t1 t0) (l1 ++ [UFire u nb T]) = Ok (s, o1) -> usteps lv t1 s l2 = Ok (s2, o2) ->
  wants lv nb <> None -> Forall (taken lv) l2 -> (exists e, In e l2 /\ u + t1 + jiffy + 2 * lag < ev_time e) ->
  (exists x, In x o2 /\ u <= s_time x <= u + t1 + jiffy + 2 * lag) /\
  (Forall (fun e => ~ asks e) l2 -> exists x nb T, In x o2 /\ In (UFire (s_time x) nb T) l2 /\ u <= s_time x <= u + t1 + lag /\ s_full x = true /\ forall i, lowest lv <= i < Z.of_nat n -> shows T x i).
Proof.
  intros lv n t1 lag t0 l1 u nb T l2 s o1 s2 o2 NP T0 T1 LG G1 G2 TI E1 E2 W TK LATE.
  apply Forall_app in G1 as [GA GB]. destruct (usteps_ok lv t1 (Z.of_nat n) l1 (ustart n t1 t0) NP (start_flagged _ _ _ _) GA) as (sa & oa & EA & _).
  rewrite <- app_assoc in TI. destruct (reach_inv lv t1 lag (Z.of_nat n) l1 _ t0 _ sa oa NP T1 (start_flagged _ _ _ _) (start_tinv n t1 t0 T0 T1) GA TI EA) as (now1 & F & I & TI1).
  rewrite (usteps_app _ _ _ _ _ _ _ EA) in E1. cbn [usteps app timely] in *. inversion GB as [|? ? GB1 _]; subst. destruct TI1 as (IT & TI1).
  destruct (fire_step lv t1 _ sa u nb T NP F GB1) as (x & y & X & FX & H & C). destruct (fire_tinv lv t1 lag now1 _ sa u nb T x y NP T1 F GB1 I IT X) as (IX & _). specialize (TI1 x y X). rewrite X in E1. cbn [bind] in E1. injection E1 as <- <-.
  destruct C as [(C & _) | (_ & z & _ & _ & _ & LU & _ & _ & TM & _)]; [contradiction|]. eapply next_comes; eassumption.
Qed.
Print Assumptions update_periodic.
(** A complete update has every destination. *)
Theorem update_complete : forall lv n t1 t0 l s o x i, lowest lv < Z.of_nat n -> Forall (good lv (Z.of_nat n)) l -> usteps lv t1 (ustart n t1 t0) l = Ok (s, o) -> In x o -> s_full x = true -> lowest lv <= i < Z.of_nat n ->
  exists nb T, In (UFire (s_time x) nb T) l /\ shows T x i.
Proof.
  intros lv n t1 t0 l s o x i NP G E IX FX R. pose proof (start_flagged lv n t1 t0) as F. revert G E F. generalize (ustart n t1 t0). revert o IX. induction l as [|e l IH]; intros o IX s0 G E F; cbn [usteps] in E; [injection E as <- <-; contradiction IX|].
  inversion G as [|? ? G1 G2]; subst. destruct (ustep lv t1 s0 e) as [[s1 o1]|] eqn:ES; cbn [bind] in E; [|discriminate E]. destruct (usteps lv t1 s1 l) as [[s2 o2]|] eqn:E2; cbn [bind] in E; [|discriminate E]. injection E as <- <-.
  assert (F1 : flagged lv (Z.of_nat n) s1 /\ (In x o1 -> exists nb T, In (UFire (s_time x) nb T) (e :: l) /\ shows T x i)).
  { destruct e as [t nb tid e | t nb T].
    - destruct (set_step lv t1 _ s0 t nb tid e F G1) as (y & Y & FY & _). rewrite Y in ES. injection ES as <- <-. split; [exact FY | intros []].
    - destruct (fire_step lv t1 _ s0 t nb T NP F G1) as (y & z & Y & FY & _ & C). rewrite Y in ES. injection ES as <- <-. split; [exact FY|]. destruct C as [(_ & -> & _) | (_ & w & -> & W1 & W2 & _ & _ & _ & _ & W3)]; [intros []|].
      intros [-> | []]. exists nb, T. rewrite W1. split; [left; reflexivity|]. apply W3; [exact R|]. left. rewrite FX in W2. destruct (u_any s0); [discriminate W2 | reflexivity]. }
  destruct F1 as (F1 & C). apply in_app_or in IX as [IX | IX]; [exact (C IX)|]. destruct (IH o2 IX s1 G2 E2 F1) as (nb & T & H1 & H2). exists nb, T. split; [right; exact H1 | exact H2].
Qed.
Print Assumptions update_complete.
(** Level 1 updates do not leave the area, level 2 updates go to level 2 routers
    only, and only Phase III neighbours get the Phase III form (point to point). *)
Theorem update_addressee : forall lv t1 s t nb T s1 x p, ustep lv t1 s (UFire t nb T) = Ok (s1, [x]) -> nb_ptp nb = true -> In p (s_pkts x) ->
  (lv = L2 -> nb_type nb = NL2) /\ (nb_type nb = NL1 \/ nb_type nb = NL2) /\ (lv = L1 -> nb_type nb = NL2 -> nb_home nb = true) /\
  match p with U3 _ => lv = L1 /\ nb_ph3 nb = true | U4 _ => lv = L2 \/ nb_ph3 nb = false end.
Proof.
  intros lv t1 s t nb T s1 x p E P I. cbn [ustep] in E. unfold fire in E. destruct (wants lv nb) as [f|] eqn:W; [|discriminate E].
  destruct (build lv f T (u_srm s) (negb (u_any s))) as [[pk sr]|] eqn:B; cbn [bind] in E; [|discriminate E]. destruct (zlen pk =? 0); [discriminate E|]. cbn [bind] in E. injection E as _ <-. cbn [s_pkts] in I. apply rotate_in in I.
  assert (PF : match p with U3 _ => f = Fmt3 | U4 _ => f = Fmt4 end).
  { destruct f; cbn [build] in B; [injection B as <- _; destruct I as [<- | []]; reflexivity|]. destruct (build4 _ _ _ _ _ _) as [[q r]|]; cbn [bind] in B; [|discriminate B]. injection B as <- _. apply in_map_iff in I as (y & <- & _). reflexivity. }
  unfold wants in W. rewrite P in W. destruct (nb_type nb), lv; try discriminate W; destruct (nb_home nb), (nb_ph3 nb); cbn [negb] in W; try discriminate W; injection W as <-; destruct p; try discriminate PF; repeat split; auto; discriminate.
Qed.
Print Assumptions update_addressee.
(** What has been sent is not wanted again: after an update no change is left
    over (the flag of destination 0 has no meaning for the Phase III message). *)
Theorem update_settled : forall lv n t1 s now nb T s1 x i, lowest lv < n -> flagged lv n s -> good lv n (UFire now nb T) -> ustep lv t1 s (UFire now nb T) = Ok (s1, [x]) -> Z.max 1 (lowest lv) <= i < n -> flag (u_srm s1) i = false.
Proof.
  intros lv n t1 s now nb T s1 x i NP (F1 & F2) (G1 & G2) E I. cbn [ustep] in E. unfold fire in E. destruct (wants lv nb) as [f|]; [|discriminate E].
  destruct (build lv f T (u_srm s) (negb (u_any s))) as [[pk sr]|] eqn:B; cbn [bind] in E; [|discriminate E]. destruct (zlen pk =? 0); [discriminate E|]. cbn [bind] in E. injection E as <- _. cbn [u_srm]. destruct f; cbn [build] in B.
  - injection B as _ <-. unfold flag, clear_from1. destruct (u_srm s) as [|b l]; [destruct (Z.to_nat i); reflexivity|]. destruct (Z.to_nat i) as [|k] eqn:K; [lia|]. cbn [nth]. clear. revert k. induction l as [|y l IH]; intros [|k]; cbn [map nth]; auto.
  - assert (W : exists i, lowest lv <= i < zlen (t_hops T) /\ (negb (u_any s) || flag (u_srm s) i) = true).
    { destruct (u_any s) eqn:A; cbn [negb orb]; [rewrite G1; apply F2; reflexivity | exists (lowest lv); split; [lia | reflexivity]]. }
    destruct (updates_built lv (t_blk T) (t_hops T) (t_cost T) (u_srm s) (negb (u_any s)) G2 ltac:(lia) W) as (p & r & E & _ & _ & _ & C & _). rewrite E in B. cbn [bind] in B. injection B as _ <-. apply C. lia.
Qed.
Print Assumptions update_settled.
(** The messages of an update go out in turn: the update after [k] others starts
    with message number [k + 1], counted around, so that each is the first from time
    to time. *)
Theorem update_rotates : forall lv n t1 t0 l s o k x, usteps lv t1 (ustart n t1 t0) l = Ok (s, o) -> nth_error o k = Some x ->
  exists nb f T srm c P sr, In (UFire (s_time x) nb T) l /\ wants lv nb = Some f /\ build lv f T srm c = Ok (P, sr) /\
    let r := ((k + 1) mod length P)%nat in s_pkts x = skipn r P ++ firstn r P.
Proof.
  intros lv n t1 t0 l s o k x E N. assert (W : forall l a s o k x, 0 <= u_pos a -> usteps lv t1 a l = Ok (s, o) -> nth_error o k = Some x -> exists nb f T srm c P sr, In (UFire (s_time x) nb T) l /\ wants lv nb = Some f /\ build lv f T srm c = Ok (P, sr) /\ let r := ((Z.to_nat (u_pos a) + k + 1) mod length P)%nat in s_pkts x = skipn r P ++ firstn r P).
  { clear. induction l as [|e l IH]; intros a s o k x PO E N; cbn [usteps] in E; [injection E as <- <-; destruct k; discriminate N|].
    destruct (ustep lv t1 a e) as [[s1 o1]|] eqn:ES; cbn [bind] in E; [|discriminate E]. destruct (usteps lv t1 s1 l) as [[s2 o2]|] eqn:E2; cbn [bind] in E; [|discriminate E]. injection E as <- <-.
    assert (C : (o1 = [] /\ u_pos s1 = u_pos a) \/ (exists y, o1 = [y] /\ u_pos s1 = u_pos a + 1 /\ exists now nb f T srm c P sr, e = UFire now nb T /\ s_time y = now /\ wants lv nb = Some f /\ build lv f T srm c = Ok (P, sr) /\ s_pkts y = rotate ((u_pos a + 1) mod zlen P) P /\ zlen P <> 0)).
    { destruct e as [now nb tid en | now nb T]; cbn [ustep] in ES.
      - left. destruct (setsrm nb now tid en a) as [z|] eqn:Z; cbn [bind] in ES; [|discriminate ES]. injection ES as <- <-. split; [reflexivity|]. unfold setsrm, soon in Z. destruct (nb_type nb); try (injection Z as <-; reflexivity); (destruct (setall _ _) as [m|]; cbn [bind] in Z; [|discriminate Z]; cbn [u_hold] in Z; destruct (u_hold a); injection Z as <-; reflexivity).
      - unfold fire in ES. destruct (wants lv nb) as [f|] eqn:WN; [|injection ES as <- <-; left; split; reflexivity]. destruct (build lv f T (u_srm a) (negb (u_any a))) as [[pk sr]|] eqn:B; cbn [bind] in ES; [|discriminate ES]. destruct (Z.eqb_spec (zlen pk) 0); [discriminate ES|]. cbn [bind] in ES. injection ES as <- <-. right.
        eexists. split; [reflexivity|]. split; [reflexivity|]. exists now, nb, f, T, (u_srm a), (negb (u_any a)), pk, sr. repeat (split; [first [reflexivity | assumption]|]). assumption. }
    destruct C as [(-> & PS) | (y & -> & PS & now & nb & f & T & srm & c & P & sr & -> & TY & WN & B & R & NZ)]; cbn [app] in N.
    - destruct (IH s1 s2 o2 k x ltac:(lia) E2 N) as (nb & f & T & srm & c & P & sr & I1 & R). rewrite PS in R. exists nb, f, T, srm, c, P, sr. split; [right; exact I1 | exact R].
    - destruct k as [|k]; cbn [nth_error] in N.
      + injection N as <-. exists nb, f, T, srm, c, P, sr. split; [left; subst; reflexivity|]. split; [exact WN|]. split; [exact B|]. cbv zeta. rewrite R. unfold rotate, zlen in *. replace (Z.to_nat ((u_pos a + 1) mod Z.of_nat (length P))) with ((Z.to_nat (u_pos a) + 0 + 1) mod length P)%nat; [reflexivity|].
        apply Nat2Z.inj. rewrite Nat2Z.inj_mod, Z2Nat.id by (apply Z.mod_pos_bound; lia). f_equal. lia.
      + destruct (IH s1 s2 o2 k x ltac:(lia) E2 N) as (nb' & f' & T' & srm' & c' & P' & sr' & I1 & W1 & B1 & R1). exists nb', f', T', srm', c', P', sr'. split; [right; exact I1|]. split; [exact W1|]. split; [exact B1|]. cbv zeta in *. rewrite PS in R1. replace (Z.to_nat (u_pos a) + S k + 1)%nat with (Z.to_nat (u_pos a + 1) + k + 1)%nat by lia. exact R1. }
  destruct (W l (ustart n t1 t0) s o k x ltac:(cbn [ustart u_pos]; lia) E N) as (nb & f & T & srm & c & P & sr & R). exists nb, f, T, srm, c, P, sr. exact R.
Qed.
Print Assumptions update_rotates.
(** *** What the code does otherwise *)
Definition far : nbr := mkNbr true NL2 true false.
Definition tab : tables := mkT [0; 1; 2] [0; 3; 5] 576.
(** A change of destination 1 every [p] milliseconds, told one tick later. *)
Fixpoint often (p : Z) (k : nat) (t : Z) : list uev :=
  match k with O => [] | S k => USet t far 1 None :: UFire (t + jiffy) far tab :: often p k (t + p) end.
Lemma often_one : forall t1 t s, T2 <= t1 -> u_hold s = false -> u_lastfull s = 0 -> u_lastup s + T2 <= t -> t1 <= t -> length (u_srm s) = 3%nat -> (forall i, 0 <= i -> flag (u_srm s) i = false) ->
  exists s1, ustep L1 t1 s (USet t far 1 None) = Ok (s1, []) /\ u_timer s1 = Some (t, 0) /\
  exists x s2, ustep L1 t1 s1 (UFire (t + jiffy) far tab) = Ok (s2, [x]) /\ s_full x = false /\ u_hold s2 = false /\ u_lastfull s2 = 0 /\ u_lastup s2 = t + jiffy /\ length (u_srm s2) = 3%nat /\
    (forall i, 0 <= i -> flag (u_srm s2) i = false) /\ u_timer s2 = Some (t + jiffy, t1).
Proof.
  intros t1 t s T1 H LF LU TT LN FL. destruct s as [srm any hold lup lfull pos tm]. cbn [u_srm u_hold u_lastup u_lastfull u_any u_pos u_timer] in *. subst hold lfull.
  destruct srm as [|a [|b [|c [|? ?]]]]; cbn [length] in LN; try discriminate LN. pose proof (FL 0 ltac:(lia)) as F0. pose proof (FL 1 ltac:(lia)) as F1. pose proof (FL 2 ltac:(lia)) as F2. change (a = false) in F0. change (b = false) in F1. change (c = false) in F2. subst a b c.
  cbn [ustep]. unfold setsrm. cbn [nb_type far zrange Z.sub Z.add]. change (zrange 1 (1 + 1)) with [1]. cbn [u_srm setall set1 bind Z.to_nat Pos.to_nat Pos.iter_op Nat.add]. change (Z.to_nat 1) with 1%nat. cbn [set1 bind].
  unfold soon. cbn [u_hold u_srm u_any u_lastup u_lastfull u_pos u_timer]. replace (Z.max (T2 - (t - lup)) 0) with 0 by lia. eexists. split; [reflexivity|]. split; [reflexivity|].
  unfold fire. change (wants L1 far) with (Some Fmt4). cbn [u_srm u_any u_lastfull u_pos negb]. change (build L1 Fmt4 tab [false; true; false] false) with (Ok ([U4 [(1, [1027])]], [false; false; false])). cbn [bind zlen length]. change (zlen [U4 [(1, [1027])]] =? 0) with false. cbn [bind].
  eexists. eexists. split; [reflexivity|]. cbn [s_full u_hold u_lastfull u_lastup u_srm length u_timer]. split; [reflexivity|]. split; [reflexivity|]. split; [reflexivity|]. split; [reflexivity|]. split; [reflexivity|]. split.
  - intros i _. apply (flag_repeat 3).
  - f_equal. f_equal. unfold jiffy. lia.
Qed.
(** FALSE of the code: that a complete update is sent at least every T1.  After a
    partial update the timer is set to the time since the last complete one (at
    most T1) and not to what is left of T1: as long as something changes a little
    more often than every T1, no complete update is ever sent. *)
Theorem update_starved_refuted : forall t1 t0 k, 2 * T2 <= t1 -> t1 <= t0 -> (t1 mod jiffy = 0) ->
  let l := often (t1 - jiffy) k (t0 + jiffy) in
  Forall (good L1 3) l /\ Forall (taken L1) l /\ timely L1 t1 0 t0 (ustart 3 t1 t0) l /\
  exists s o, usteps L1 t1 (ustart 3 t1 t0) l = Ok (s, o) /\ length o = k /\ Forall (fun x => s_full x = false) o.
Proof.
  intros t1 t0 k T1 T0 MO l.
  assert (G : forall p k t, Forall (good L1 3) (often p k t) /\ Forall (taken L1) (often p k t)).
  { clear. intros p. induction k as [|k IH]; intro t; cbn [often]; [split; constructor|]. destruct (IH (t + p)) as [A B]. split; (constructor; [|constructor; [|assumption]]); cbn [good taken last_of lowest]; first [lia | exact Logic.I | discriminate | split; [reflexivity | cbn; lia]]. }
  destruct (G (t1 - jiffy) k (t0 + jiffy)) as [G1 G2]. split; [exact G1|]. split; [exact G2|]. subst l.
  assert (TK : ticks t1 * jiffy = t1). { unfold ticks, jiffy, T2 in *. pose proof (Z.div_mod t1 100 ltac:(lia)). lia. }
  assert (W : forall k now t s s0, u_hold s = false -> u_lastfull s = 0 -> u_lastup s + T2 <= t -> t1 <= t -> length (u_srm s) = 3%nat -> (forall i, 0 <= i -> flag (u_srm s) i = false) -> u_timer s = Some (s0, t1) -> now <= t <= s0 + t1 ->
    timely L1 t1 0 now s (often (t1 - jiffy) k t) /\ exists s' o, usteps L1 t1 s (often (t1 - jiffy) k t) = Ok (s', o) /\ length o = k /\ Forall (fun x => s_full x = false) o).
  { induction k0 as [|k0 IH]; intros now t s s0 H LF LU TT LN FL TM NT; cbn [often usteps timely]; [split; [exact Logic.I | eexists; eexists; split; [reflexivity|]; split; [reflexivity | constructor]]|].
    destruct (often_one t1 t s ltac:(unfold T2 in *; lia) H LF LU TT LN FL) as (s1 & E1 & TM1 & x & s2 & E2 & X & H2 & LF2 & LU2 & LN2 & FL2 & TM2).
    destruct (IH (t + jiffy) (t + (t1 - jiffy)) s2 (t + jiffy) H2 LF2) as (TI & s' & o & E & LO & FO); try assumption; try (unfold T2, jiffy in *; lia).
    split.
    - split; [unfold in_time; rewrite TM; cbn [ev_time]; unfold jiffy in *; lia|]. intros s1' o1 E1'. rewrite E1 in E1'. injection E1' as <- <-. split.
      + unfold in_time. rewrite TM1. cbn [ev_time]. change (ticks 0) with 1. unfold jiffy. lia.
      + intros s2' o2 E2'. rewrite E2 in E2'. injection E2' as <- <-. exact TI.
    - rewrite E1. cbn [bind]. rewrite E2. cbn [bind]. rewrite E. cbn [bind app]. eexists. eexists. split; [reflexivity|]. cbn [length]. split; [f_equal; exact LO | constructor; assumption]. }
  apply (W k t0 (t0 + jiffy) (ustart 3 t1 t0) t0); cbn [ustart u_hold u_lastfull u_lastup u_srm u_timer]; try reflexivity; try (unfold T2, jiffy in *; lia). intros i _. apply flag_repeat.
Qed.
Print Assumptions update_starved_refuted.
(** FALSE of the code: that complete updates are T1 apart when there is
    nothing to tell.  After a complete update and, a second later, a change, the next
    complete update comes a second after that. *)
Theorem update_early_refuted : exists l s a b c, let t1 := 600000 in
  timely L1 t1 0 1000000 (ustart 3 t1 1000000) l /\ usteps L1 t1 (ustart 3 t1 1000000) l = Ok (s, [a; b; c]) /\
  map s_time [a; b; c] = [1600000; 1601000; 1602000] /\ map s_full [a; b; c] = [true; false; true].
Proof.
  exists [UFire 1600000 far tab; USet 1600500 far 1 None; UFire 1601000 far tab; UFire 1602000 far tab]. do 4 eexists. cbn zeta. split; [|split; [vm_compute; reflexivity | split; reflexivity]].
  repeat (cbn [timely]; split; [unfold in_time; vm_compute; repeat split; congruence|]; let E := fresh in intros ? ? E; vm_compute in E; injection E as <- <-). exact Logic.I.
Qed.
Print Assumptions update_early_refuted.
(** *** A case *)
(** Destinations 1 and 2 change; the update has both; the next one is complete. *)
Example update_case :
  let l1 := [UFire 1600000 far tab] in let l2 := [USet 1600300 far 2 None; UFire 1601000 far tab; UFire 1602000 far tab] in
  timely L1 600000 50 1000000 (ustart 3 600000 1000000) ((l1 ++ [USet 1600200 far 1 None]) ++ l2) /\ listening far /\ Forall (taken L1) l2 /\
  Forall (good L1 3) (l1 ++ [USet 1600200 far 1 None]) /\ Forall (good L1 3) l2 /\ (exists e, In e l2 /\ 1600200 + T2 + 50 < ev_time e) /\
  exists s o, usteps L1 600000 (ustart 3 600000 1000000) ((l1 ++ [USet 1600200 far 1 None]) ++ l2) = Ok (s, o) /\
    o = [mkSent 1600000 true [U4 [(0, [0; 1027; 2053])]]; mkSent 1601000 false [U4 [(1, [1027; 2053])]]; mkSent 1602000 true [U4 [(0, [0; 1027; 2053])]]].
Proof.
  cbn zeta. cbn [app]. split.
  { repeat (cbn [timely]; split; [unfold in_time; vm_compute; repeat split; congruence|]; let E := fresh in intros ? ? E; vm_compute in E; injection E as <- <-). exact Logic.I. }
  split; [split; discriminate|]. split; [repeat constructor; discriminate|]. split; [repeat constructor; cbn; lia|]. split; [repeat constructor; cbn; lia|]. split.
  { eexists. split; [right; right; left; reflexivity|]. cbn. unfold T2. lia. }
  eexists. eexists. split; vm_compute; reflexivity.
Qed.
(** Who takes what: a level 2 router of another area no level 1 updates, a Phase
    III router the old form, on a LAN everybody. *)
Example wants_cases : wants L1 (mkNbr true NL2 false false) = None /\ wants L2 (mkNbr true NL2 false false) = Some Fmt4 /\ wants L2 (mkNbr true NL1 true false) = None /\
  wants L1 (mkNbr true NL1 true true) = Some Fmt3 /\ wants L1 (mkNbr true NUnknown true false) = None /\ wants L1 (mkNbr false NL2 false false) = Some Fmt4.
Proof. repeat split. Qed.
