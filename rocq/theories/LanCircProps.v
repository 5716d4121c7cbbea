(** Router adjacencies on a LAN: C26 (designated router), C27 (router list),
    C28 (two-way adjacencies). *)
From Verif Require Import Base Dict RoutingModel LanCircModel LanCircProofs.

(** * All events *)
Definition end_effect (s : lst) (id bk : Z) (ok : bool) (s' : lst) : Prop :=
  match ent s id with
  | Some a => if ok && negb (a_router a) then exists a', core a' = core a /\ a_up a' = a_up a /\ forall k, ent s' k = if k =? id then Some a' else ent s k
              else forall k, ent s' k = if k =? id then None else ent s k
  | None => if ok then exists a', core a' = (id, NEnd, 0, bk) /\ a_up a' = true /\ forall k, ent s' k = if k =? id then Some a' else ent s k
            else forall k, ent s' k = ent s k
  end.
Definition step_effect (C : lcfg) (s : lst) (e : lev) (s' : lst) : Prop :=
  match e with
  | EvEnd id bk ok => if accepts C id NEnd then end_effect s id bk ok s' else forall k, ent s' k = ent s k
  | EvRouter id t prio bk rs _ => if accepts C id t then hello_effect C s id t prio bk rs s' else forall k, ent s' k = ent s k
  | EvTimeout ser => if a_tmr (get_obj s ser) then forall k, ent s' k = if k =? a_id (get_obj s ser) then None else ent s k else forall k, ent s' k = ent s k
  | _ => forall k, ent s' k = ent s k
  end.
(** As reports, but with the type of another adjacency object of the node. *)
Definition reports_any (s s' : lst) (o : list lout) : Prop :=
  (forall k a, ent s k = Some a -> a_up a = true -> (forall a', ent s' k = Some a' -> a_up a' = false) -> exists t, In (LDown k t) o) /\
  (forall k a', ent s' k = Some a' -> a_up a' = true -> exists a, ent s k = Some a /\ a_up a = true) /\
  (forall k t, ~ In (LUp k t) o).
Lemma same_reports : forall s s' o, (forall k, ent s' k = ent s k) -> (forall i t, ~ In (LUp i t) o) -> reports s s' o.
Proof.
  intros s s' o E N. split; [|split].
  - intros k a J U X. specialize (X a). rewrite E in X. apply X in J. congruence.
  - intros k a J U X. rewrite E in J. apply X in J. congruence.
  - intros k t J. destruct (N _ _ J).
Qed.
Lemma gone_reports : forall s s' o id, (forall k, ent s' k = if k =? id then None else ent s k) -> (forall i t, ~ In (LUp i t) o) ->
  (forall a, ent s id = Some a -> a_up a = true -> In (LDown id (a_type a)) o) -> reports s s' o.
Proof.
  intros s s' o id E N D. split; [|split].
  - intros k a J U X. destruct (Z.eq_dec k id) as [->|M]; [auto|]. specialize (X a). rewrite E in X. replace (k =? id) with false in X by lia. apply X in J. congruence.
  - intros k a J U X. rewrite E in J. destruct (k =? id); [discriminate|]. apply X in J. congruence.
  - intros k t J. destruct (N _ _ J).
Qed.
Lemma end_hello_spec : forall C s id bk ok s' o, inv C s -> end_hello C s id bk ok = (s', o) -> inv C s' /\ reports s s' o /\ end_effect s id bk ok s'.
Proof.
  intros C s id bk ok s' o V H. pose proof V as [W L D T]. unfold end_hello in H. unfold end_effect.
  assert (EV1 : forall i i' t, LEvDown i <> LUp i' t) by (intros; discriminate).
  destruct (dget Z.eqb (tab s) id) as [ser|] eqn:Tb.
  - destruct (w_tab s W _ _ Tb) as (a & O & I). assert (E0 : ent s id = Some a) by (unfold ent; rewrite Tb; auto). rewrite E0.
    assert (X : forall r, deladj C s ser LEvDown = r -> r = (s', o) -> inv C s' /\ reports s s' o /\ forall k, ent s' k = if k =? id then None else ent s k).
    { intros r Q ->. destruct (deladj_known _ _ _ _ _ _ _ _ V EV1 Tb O Q) as (V' & E' & U' & L'). split; [auto|]. split; [|auto].
      apply gone_reports with (id := id); auto. intros a0 J. rewrite E0 in J. injection J as <-. auto. }
    rewrite (get_obj_some _ _ _ O) in H. destruct ok; cbn [negb andb] in *; [|apply (X _ eq_refl H)].
    destruct (a_router a) eqn:R; cbn [negb]; [apply (X _ eq_refl H)|]. clear X. injection H as <- <-.
    destruct (start_spec s ser a id W Tb O) as (W1 & N1 & T1 & D1 & O1 & E1). cbv zeta in *.
    set (s1 := adj_start s ser) in *. set (a1 := match a_type a with NPh2 => a | _ => set_tmr a true end) in *.
    assert (Y : a_type a = NEnd) by (unfold a_router in R; destruct (a_type a); congruence).
    assert (Co : core a1 = core a) by (unfold a1; rewrite Y; unfold core; cbn; rewrite ?Y; reflexivity).
    assert (Ua : a_up a1 = a_up a) by (unfold a1; rewrite Y; reflexivity).
    assert (Rt : a_router a1 = false) by (unfold a_router; unfold core in Co; replace (a_type a1) with (a_type a) by congruence; rewrite Y; reflexivity).
    assert (SR : forall k b, ent s1 k = Some b -> a_router b = true -> ent s k = Some b).
    { intros k b. rewrite E1. destruct (Z.eqb_spec k id) as [->|]; [|auto]. intros J Q. injection J as <-. congruence. }
    split; [constructor; auto|].
    + enough (zlen (rids C s1) <= zlen (rids C s)) by lia. apply rids_sub; eauto.
    + intros J. apply best_mono with (s := s); auto; [eauto|]. apply D. unfold drs in D1. congruence.
    + intros k b. rewrite E1. destruct (k =? id); [|apply T]. intros J _ _. injection J as <-. unfold a1. rewrite Y. reflexivity.
    + split; [|exists a1; auto]. split; [|split].
      * intros k b J U X. destruct (Z.eq_dec k id) as [->|M].
        -- rewrite E0 in J. injection J as <-. specialize (X a1). rewrite E1, Z.eqb_refl in X. rewrite X in Ua by auto. congruence.
        -- specialize (X b). rewrite E1 in X. replace (k =? id) with false in X by lia. apply X in J. congruence.
      * intros k b J U X. rewrite E1 in J. destruct (Z.eqb_spec k id) as [->|M]; [injection J as <-; apply X in E0; congruence|apply X in J; congruence].
      * intros k t [].
  - assert (E0 : ent s id = None) by (unfold ent; rewrite Tb; auto). rewrite E0. destruct ok; cbn [negb] in H.
    2:{ injection H as <- <-. split; [auto|]. split; [apply same_reports; auto; intros i t []|auto]. }
    set (a := {| a_id := id; a_type := NEnd; a_prio := 0; a_blk := bk; a_up := true; a_tmr := false |}) in *.
    destruct (new_spec s a W Tb) as (W1 & T1 & O1 & E1 & D1). cbv zeta in *. change (a_id a) with id in *. set (s1 := new_adj s a) in *.
    unfold a_goes_up in H. rewrite (get_obj_some _ _ _ O1) in H. injection H as <- <-. 
    destruct (start_spec s1 (nxt s) a id W1 T1 O1) as (W2 & N2 & T2 & D2 & O2 & E2). cbv zeta in *. change (a_type a) with NEnd in *. cbv iota in *.
    set (s2 := adj_start s1 (nxt s)) in *. set (a' := set_tmr a true) in *.
    assert (EE : forall k, ent s2 k = if k =? id then Some a' else ent s k) by (intros k; rewrite E2, E1; destruct (k =? id); reflexivity).
    assert (SR : forall k b, ent s2 k = Some b -> a_router b = true -> ent s k = Some b).
    { intros k b. rewrite EE. destruct (Z.eqb_spec k id) as [->|]; [|auto]. intros J Q. injection J as <-. discriminate. }
    split; [constructor; auto|].
    + enough (zlen (rids C s2) <= zlen (rids C s)) by lia. apply rids_sub; eauto.
    + intros J. apply best_mono with (s := s); auto; [eauto|]. apply D. unfold drs in D1, D2. congruence.
    + intros k b. rewrite EE. destruct (k =? id); [|apply T]. intros J _ _. injection J as <-. reflexivity.
    + split; [|exists a'; auto]. split; [|split].
      * intros k b J U X. assert (k <> id) by congruence. specialize (X b). rewrite EE in X. replace (k =? id) with false in X by lia. apply X in J. congruence.
      * intros k b J U X. rewrite EE in J. destruct (Z.eqb_spec k id) as [->|M]; [injection J as <-; right; left; reflexivity|apply X in J; congruence].
      * intros k t [J|[J|[]]]; [discriminate|]. injection J as <- <-. split; [intros b B; congruence|]. exists a'. rewrite EE, Z.eqb_refl. auto.
Qed.
Lemma calcdr_inv : forall C s s' o, (isdr s = true -> findbestdr C s = None) \/ True -> wf s -> zlen (rids C s) <= l_nr C -> up_timed s -> calcdr C s = (s', o) -> inv C s' /\ (forall k, ent s' k = ent s k).
Proof.
  intros C s s' o _ W L T H. destruct (calcdr_spec _ _ _ _ H) as (S & _ & I & _). split; [|intros k; apply same_ent; auto]. constructor.
  - eapply same_wf; eauto.
  - unfold rids in *. rewrite (same_routers C true _ _ S). unfold get_obj in *. destruct S as (-> & _). exact L.
  - intros J. apply I. auto.
  - intros id a. rewrite (same_ent _ _ id S). apply T.
Qed.
Lemma lstep_spec : forall C s e s' o, 0 <= l_nr C -> inv C s -> lstep C s e = Ok (s', o) -> inv C s' /\ (match e with EvTimeout _ => reports_any | _ => reports end) s s' o /\ step_effect C s e s'.
Proof.
  intros C s e s' o NR V H. pose proof V as [W L D T].
  assert (Same : Ok (s, []) = Ok (s', o) -> inv C s' /\ reports s s' o /\ forall k, ent s' k = ent s k).
  { intros Q. injection Q as <- <-. split; [auto|]. split; [apply same_reports; auto; intros i t []|auto]. }
  assert (SamE : forall x, (exists i b, x = LPass i b) -> Ok (s, [x]) = Ok (s', o) -> inv C s' /\ reports s s' o /\ forall k, ent s' k = ent s k).
  { intros x (i & b & ->) Q. injection Q as <- <-. split; [auto|]. split; [apply same_reports; auto; intros i' t [J|[]]; discriminate|auto]. }
  assert (SamT : Ok (s, []) = Ok (s', o) -> inv C s' /\ reports_any s s' o /\ forall k, ent s' k = ent s k).
  { intros Q. injection Q as <- <-. split; [auto|]. split; [|auto]. split; [|split; [eauto|intros i t []]].
    intros k a J U X. apply X in J. congruence. }
  destruct e as [id bk ok|id t prio bk rs bad|ser| | |src data]; cbn [lstep step_effect] in *.
  - destruct (accepts C id NEnd); [|auto]. assert (H' : end_hello C s id bk ok = (s', o)) by congruence. apply (end_hello_spec C); auto.
  - destruct (accepts C id t); [|auto]. eapply router_hello_spec; eauto.
  - destruct (a_tmr (get_obj s ser)) eqn:Tm; [|auto].
    destruct (dget Z.eqb (objs s) ser) as [a|] eqn:O; [|unfold get_obj in Tm; rewrite O in Tm; discriminate].
    rewrite (get_obj_some _ _ _ O) in *. assert (H' : adj_timeout C s ser = (s', o)) by congruence. clear H. unfold adj_timeout in H'.
    rewrite (get_obj_some _ _ _ O) in H'. unfold a_goes_down in H'. set (s0 := put_obj s ser (set_tmr a false)) in *.
    assert (O0 : dget Z.eqb (objs s0) ser = Some (set_tmr a false)) by (unfold s0; rewrite put_obj_get, Z.eqb_refl; reflexivity).
    assert (W0 : wf s0) by (eapply put_wf; eauto). rewrite (get_obj_some _ _ _ O0) in H'.
    set (a1 := set_tmr (set_tmr a false) false) in *. set (s1 := put_obj s0 ser a1) in *.
    assert (O1 : dget Z.eqb (objs s1) ser = Some a1) by (unfold s1; rewrite put_obj_get, Z.eqb_refl; reflexivity).
    assert (W1 : wf s1) by (eapply put_wf; eauto).
    assert (E1 : forall k, k <> a_id a -> ent s1 k = ent s k).
    { intros k N. unfold ent. change (tab s1) with (tab s). destruct (dget Z.eqb (tab s) k) as [j|] eqn:Q; [|reflexivity].
      assert (j <> ser) by (intros ->; destruct (w_tab s W _ _ Q) as (b & B1 & B2); congruence).
      unfold s1, s0. rewrite !put_obj_get. replace (j =? ser) with false by lia. reflexivity. }
    destruct (deladj C s1 ser LEvDown) as [s2 o2] eqn:DL. destruct (deladj_spec _ _ _ _ _ _ _ W1 O1 DL) as (W2 & _ & E2 & _ & I2 & _ & L2).
    change (a_id a1) with (a_id a) in *.
    assert (s2 = s') by congruence. assert (LDown (a_id (set_tmr a false)) (a_type (set_tmr a false)) :: o2 = o) by (cbn [app] in H'; congruence). subst s' o. clear H'.
    change (a_id (set_tmr a false)) with (a_id a). change (a_type (set_tmr a false)) with (a_type a).
    assert (EE : forall k, ent s2 k = if k =? a_id a then None else ent s k).
    { intros k. rewrite E2. destruct (Z.eqb_spec k (a_id a)) as [->|N]; [reflexivity|auto]. }
    assert (SR : forall k b, ent s2 k = Some b -> ent s k = Some b) by (intros k b; rewrite EE; destruct (k =? a_id a); [discriminate|auto]).
    assert (NU : forall i t, ~ In (LUp i t) (LDown (a_id a) (a_type a) :: o2)).
    { intros i t [J|J]; [discriminate|]. apply L2 in J. destruct J as (? & J). discriminate. }
    split; [constructor; auto|].
    + enough (zlen (rids C s2) <= zlen (rids C s)) by lia. apply rids_sub; eauto.
    + intros J. apply best_mono with (s := s); auto; [eauto|]. apply D. apply (I2 J).
    + intros k b J. exact (T _ _ (SR _ _ J)).
    + split; [|auto]. split; [|split].
      * intros k b J U X. destruct (Z.eq_dec k (a_id a)) as [->|M]; [|specialize (X b); rewrite EE in X; replace (k =? a_id a) with false in X by lia; apply X in J; congruence].
        exists (a_type a). left. reflexivity.
      * intros k b J U. apply SR in J. eauto.
      * auto.
  - destruct (drt s); [|auto]. assert (H' : becomedr C s = (s', o)) by congruence. clear H. unfold becomedr in H'.
    set (s1 := withdrt (withisdr s true) false) in *. assert (S1 : same_adj s s1) by (repeat split).
    destruct (findbestdr C s1) as [d|] eqn:B.
    + assert (W1 : wf s1) by (eapply same_wf; eauto).
      destruct (calcdr_inv C s1 s' o (or_intror I) W1) as (V' & E').
      * unfold rids in *. rewrite (same_routers C true _ _ S1). unfold get_obj in *. destruct S1 as (-> & _). exact L.
      * intros id a. rewrite (same_ent _ _ id S1). apply T.
      * auto.
      * split; [auto|]. assert (EE : forall k, ent s' k = ent s k) by (intros k; rewrite E'; apply same_ent; auto). split; [|auto]. apply same_reports; auto.
        destruct (calcdr_spec _ _ _ _ H') as (_ & _ & _ & Lo & _). intros i t J. apply Lo in J. discriminate.
    + injection H' as <- <-. assert (S2 : same_adj s (withdr s1 DrMe)) by (repeat split). assert (EE : forall k, ent (withdr s1 DrMe) k = ent s k) by (intros k; apply same_ent; auto).
      split; [|split; [apply same_reports; auto; intros i t [J|[]]; discriminate|auto]]. constructor.
      * eapply same_wf; eauto.
      * unfold rids in *. rewrite (same_routers C true _ _ S2). unfold get_obj in *. destruct S2 as (-> & _). exact L.
      * intros _. rewrite (same_best C s1 (withdr s1 DrMe)); [auto|repeat split].
      * intros id a. rewrite EE. apply T.
  - destruct (calcdr C s) as [s1 o1] eqn:Q. injection H as <- <-. destruct (calcdr_inv C s s1 o1 (or_intror I) W L T Q) as (V' & E').
    split; [auto|]. split; [|auto]. apply same_reports; auto. intros i t J. apply in_app_or in J.
    destruct (calcdr_spec _ _ _ _ Q) as (_ & _ & _ & Lo & _). destruct J as [J|[J|[]]]; [apply Lo in J; discriminate|discriminate].
  - revert H. destruct src as [id|].
    + destruct (match dget Z.eqb (tab s) id with Some ser => Some (get_obj s ser) | None => None end) as [x|]; [destruct (a_up x)|]; [|destruct data|destruct data]; eauto.
    + destruct (match tab s with [] => None | (_, ser) :: _ => Some (get_obj s ser) end) as [x|]; [destruct (a_up x)|]; eauto.
Qed.

Lemma start_inv : forall C, 0 <= l_nr C -> inv C lstart.
Proof.
  intros C NR. constructor.
  - constructor; cbn; try discriminate. constructor.
  - exact NR.
  - discriminate.
  - intros id a H. discriminate.
Qed.
Lemma lsteps_app : forall C l1 l2 s, lsteps C s (l1 ++ l2) = let* (s1, o1) := lsteps C s l1 in let* (s2, o2) := lsteps C s1 l2 in Ok (s2, o1 ++ o2).
Proof.
  intros C. induction l1 as [|e l1 IH]; intros l2 s; cbn [app lsteps].
  - cbn [bind]. destruct (lsteps C s l2) as [(s2, o2)|]; reflexivity.
  - destruct (lstep C s e) as [(s1, o1)|]; cbn [bind]; [|reflexivity]. rewrite IH. destruct (lsteps C s1 l1) as [(s2, o2)|]; cbn [bind]; [|reflexivity].
    destruct (lsteps C s2 l2) as [(s3, o3)|]; cbn [bind]; [|reflexivity]. rewrite app_assoc. reflexivity.
Qed.
(** States that some sequence of hellos, packets and timer expiries leads to. *)
Definition lreach (C : lcfg) (s : lst) : Prop := exists l o, lsteps C lstart l = Ok (s, o).
Lemma lsteps_snoc : forall C l e s s' o, lsteps C s (l ++ [e]) = Ok (s', o) -> exists s1 o1 o2, lsteps C s l = Ok (s1, o1) /\ lstep C s1 e = Ok (s', o2) /\ o = o1 ++ o2.
Proof.
  intros C l e s s' o H. rewrite lsteps_app in H. destruct (lsteps C s l) as [(s1, o1)|]; cbn [bind] in H; [|discriminate].
  cbn [lsteps] in H. destruct (lstep C s1 e) as [(s2, o2)|] eqn:E; cbn [bind] in H; [|discriminate]. rewrite app_nil_r in H. injection H as <- <-. eauto 6.
Qed.
Lemma lreach_inv : forall C s, 0 <= l_nr C -> lreach C s -> inv C s.
Proof.
  intros C s NR (l & o & H). revert s o H. induction l as [|e l IH] using List.rev_ind; intros s o H.
  - injection H as <- <-. apply start_inv; auto.
  - apply lsteps_snoc in H. destruct H as (s1 & o1 & o2 & H1 & H2 & _). destruct (lstep_spec C s1 e s o2 NR (IH _ _ H1) H2) as (V & _). exact V.
Qed.

(** * C26: designated router *)
(** The routers heard in the own area. *)
Definition hears (C : lcfg) (s : lst) (id prio : Z) : Prop := exists a, ent s id = Some a /\ a_type a <> NEnd /\ a_prio a = prio /\ area_of id = area_of (l_id C).
Definition less (p i q j : Z) : Prop := p < q \/ (p = q /\ i < j).
Lemma hears_inarea : forall C s id prio, hears C s id prio <-> exists a, inarea C s id a /\ a_prio a = prio.
Proof.
  intros C s id prio. unfold hears, inarea, a_router. split; intros (a & H).
  - exists a. destruct (a_type a) eqn:Y; repeat split; try tauto; destruct H as (_ & H & _); congruence.
  - exists a. destruct (a_type a) eqn:Y; repeat split; try tauto; try congruence. destruct H as ((_ & H & _) & _). discriminate.
Qed.
Lemma less_key : forall p i q j, key_lt (p, i) (q, j) = true <-> less p i q j.
Proof. intros. rewrite key_lt_spec. unfold less. cbn [fst snd]. lia. Qed.
(** A router that considers itself designated router has the greatest
    (priority, address) of all it hears, at any time. *)
Theorem dr_is_greatest : forall C s, 0 <= l_nr C -> lreach C s -> isdr s = true ->
  forall id prio, hears C s id prio -> less prio id (l_prio C) (l_id C).
Proof.
  intros C s NR R D id prio H. pose proof (lreach_inv C s NR R) as [W L Dr T]. apply hears_inarea in H. destruct H as (a & H & <-).
  apply less_key. apply (proj1 (best_none C s W) (Dr D) id a H).
Qed.
Lemma deladj_isdr : forall C s ser ev, isdr s = false -> isdr (fst (deladj C s ser ev)) = false.
Proof.
  intros C s ser ev D. unfold deladj.
  assert (X : exists s1 o1, (if a_up (get_obj s ser) then let '(s', o') := a_goes_down (put_obj s ser (set_up (get_obj s ser) false)) ser in (s', ev (a_id (get_obj s ser)) :: o') else (s, [])) = (s1, o1) /\ isdr s1 = false).
  { destruct (a_up (get_obj s ser)); unfold a_goes_down; eexists _, _; split; try reflexivity; auto. }
  destruct X as (s1 & o1 & -> & D1). set (s2 := withtab s1 _).
  set (s3 := match dr s2 with DrAdj x => if x =? ser then withdr s2 DrNone else s2 | _ => s2 end).
  assert (D3 : isdr s3 = false) by (unfold s3; destruct (dr s2) as [| |x]; auto; destruct (x =? ser); auto).
  destruct (a_router (get_obj s ser)); [|exact D3]. destruct (calcdr C s3) as [s4 o4] eqn:Q. cbn [fst update_blk withblk isdr].
  destruct (calcdr_spec _ _ _ _ Q) as (_ & _ & I & _). destruct (isdr s4) eqn:Y; auto. destruct (I eq_refl). congruence.
Qed.
Lemma calcdr_isdr : forall C s s' o, calcdr C s = (s', o) -> isdr s = false -> isdr s' = false.
Proof. intros C s s' o Q D. destruct (calcdr_spec _ _ _ _ Q) as (_ & _ & I & _). destruct (isdr s') eqn:Y; auto. destruct (I eq_refl). congruence. Qed.
Lemma start_isdr : forall s ser, isdr (adj_start s ser) = isdr s.
Proof. intros. unfold adj_start. destruct (a_type (get_obj s ser)); reflexivity. Qed.
Lemma two_way_isdr : forall C s ser rs bad ch s' o, two_way C s ser rs bad ch = Ok (s', o) -> isdr s = false -> isdr s' = false.
Proof.
  intros C s ser rs bad ch s' o H D. unfold two_way in H. destruct (find_self (l_id C) (l_prio C) rs bad) as [me|]; cbn [bind] in H; [|discriminate].
  assert (X : forall s1 o1 o3, isdr s1 = false -> (let '(s2, o2) := calcdr C s1 in Ok (s2, o1 ++ o2 ++ o3)) = Ok (s', o) -> isdr s' = false).
  { intros s1 o1 o3 D1 Q1. destruct (calcdr C s1) as [s2 o2] eqn:Q. assert (s2 = s') by congruence. subst s2. eapply calcdr_isdr; eauto. }
  destruct me as [[]|]; destruct (a_up (get_obj s ser)); unfold a_goes_up, a_goes_down in H; (eapply X; [|exact H]); rewrite ?start_isdr; exact D.
Qed.
(** A router only becomes designated router when the delay timer expires. *)
Theorem dr_after_delay : forall C s e s' o, lstep C s e = Ok (s', o) -> isdr s = false -> isdr s' = true -> e = EvDrTimer /\ drt s = true.
Proof.
  intros C s e s' o H D D'. enough (X : isdr s' = false \/ (e = EvDrTimer /\ drt s = true)) by (destruct X; [congruence|auto]).
  assert (Same : Ok (s, @nil lout) = Ok (s', o) -> isdr s' = false) by congruence.
  destruct e as [id bk ok|id t prio bk rs bad|ser| | |src data]; cbn [lstep] in *.
  - left. destruct (accepts C id NEnd); [|auto]. assert (H' : end_hello C s id bk ok = (s', o)) by congruence. clear H. unfold end_hello in H'.
    assert (X : forall ser, deladj C s ser LEvDown = (s', o) -> isdr s' = false) by (intros ser Q; rewrite <- (deladj_isdr C s ser LEvDown D), Q; reflexivity).
    destruct (dget Z.eqb (tab s) id) as [ser|]; destruct ok; cbn [negb] in H'; try congruence; eauto.
    + destruct (a_router (get_obj s ser)); eauto. injection H' as <- <-. rewrite start_isdr. auto.
    + unfold a_goes_up in H'. injection H' as <- <-. rewrite start_isdr. exact D.
  - left. destruct (accepts C id t); [|auto]. unfold router_hello in H. destruct (dget Z.eqb (tab s) id) as [ser|].
    + destruct (changed (get_obj (adj_start s ser) ser) t prio).
      * assert (Q : deladj C (adj_start s ser) ser LEvDown = (s', o)) by congruence. pose proof (deladj_isdr C (adj_start s ser) ser LEvDown) as X. rewrite Q, start_isdr in X. auto.
      * eapply two_way_isdr; eauto. rewrite start_isdr. auto.
    + cbv zeta in H. set (s1 := new_adj s _) in *. assert (D1 : isdr s1 = false) by exact D.
      assert (X : forall s2 o2 gone, isdr s2 = false -> (if gone : bool then Ok (s2, o2) else
         if changed (get_obj (update_blk C s2) (nxt s)) t prio then let '(s4, o4) := deladj C (update_blk C s2) (nxt s) LEvDown in Ok (s4, o2 ++ o4)
         else let* (s4, o4) := two_way C (update_blk C s2) (nxt s) rs bad true in Ok (s4, o2 ++ o4)) = Ok (s', o) -> isdr s' = false).
      { intros s2 o2 gone D2 E. destruct gone; [congruence|]. assert (D3 : isdr (update_blk C s2) = false) by exact D2.
        destruct (changed (get_obj (update_blk C s2) (nxt s)) t prio).
        * pose proof (deladj_isdr C (update_blk C s2) (nxt s) LEvDown D3) as X. destruct (deladj C (update_blk C s2) (nxt s) LEvDown) as [sx ox]. assert (sx = s') by congruence. subst sx. exact X.
        * destruct (two_way C (update_blk C s2) (nxt s) rs bad true) as [(sx, ox)|] eqn:Q; cbn [bind] in E; [|discriminate]. assert (sx = s') by congruence. subst sx. eapply two_way_isdr; eauto. }
      destruct (routers C true s1) as [|x r]; [exact (X s1 [] false D1 H)|]. destruct (l_nr C <? zlen (x :: r)); [|exact (X s1 [] false D1 H)].
      match type of H with context [deladj C s1 ?m LEvRej] => pose proof (deladj_isdr C s1 m LEvRej D1) as Y; destruct (deladj C s1 m LEvRej) as [sx ox] end.
      eapply X; [exact Y|exact H].
  - left. destruct (a_tmr (get_obj s ser)); [|auto]. assert (Q : adj_timeout C s ser = (s', o)) by congruence. clear H. unfold adj_timeout, a_goes_down in Q.
    match type of Q with context [deladj C ?x ser LEvDown] => pose proof (deladj_isdr C x ser LEvDown D) as X; destruct (deladj C x ser LEvDown) as [sx ox] end.
    assert (sx = s') by congruence. subst sx. exact X.
  - destruct (drt s); [auto|left; auto].
  - left. destruct (calcdr C s) as [s1 o1] eqn:Q. assert (s1 = s') by congruence. subst s1. eapply calcdr_isdr; eauto.
  - left. revert H. destruct src as [id|].
    + destruct (match dget Z.eqb (tab s) id with Some ser => Some (get_obj s ser) | None => None end) as [x|]; [destruct (a_up x)|]; [|destruct data|destruct data]; congruence.
    + destruct (match tab s with [] => None | (_, ser) :: _ => Some (get_obj s ser) end) as [x|]; [destruct (a_up x)|]; congruence.
Qed.

Definition view (R : list lcfg) (st : Z -> lst) : Prop := forall C, In C R -> forall id p,
  hears C (st (l_id C)) id p <-> exists C', In C' R /\ l_id C' <> l_id C /\ l_id C' = id /\ l_prio C' = p.
Lemma NoDup_map_eq : forall (R : list lcfg) C W, NoDup (map l_id R) -> In C R -> In W R -> l_id C = l_id W -> C = W.
Proof.
  induction R as [|A R IH]; intros C W D I J E; [destruct I|]. cbn [map] in D. inversion D as [|? ? D1 D2]; subst.
  destruct I as [<-|I], J as [<-|J]; auto; exfalso; apply D1; [rewrite E|rewrite <- E]; apply in_map; auto.
Qed.
Lemma greatest_exists : forall R, R <> [] -> NoDup (map l_id R) -> exists W, In W R /\ forall C, In C R -> l_id C <> l_id W -> less (l_prio C) (l_id C) (l_prio W) (l_id W).
Proof.
  induction R as [|A R IH]; intros N D; [congruence|]. cbn [map] in D. inversion D as [|? ? D1 D2]; subst. destruct R as [|B R].
  - exists A. split; [left; auto|]. intros C [<-|[]] X. congruence.
  - destruct IH as (W & I & G); [discriminate|auto|]. assert (NW : l_id A <> l_id W) by (intros E; apply D1; rewrite E; apply in_map; auto).
    assert (O : less (l_prio A) (l_id A) (l_prio W) (l_id W) \/ less (l_prio W) (l_id W) (l_prio A) (l_id A)) by (unfold less; lia).
    destruct O as [O|O].
    + exists W. split; [right; auto|]. intros C [<-|J] X; auto.
    + exists A. split; [left; auto|]. intros C [<-|J] X; [congruence|]. destruct (Z.eq_dec (l_id C) (l_id W)) as [E|E].
      * rewrite (NoDup_map_eq (B :: R) C W); auto.
      * specialize (G C J E). unfold less in *. lia.
Qed.
(** Routers that hear exactly each other: exactly one of them is the designated
    router once the hello timer and then the designated router timer have
    expired, namely the greatest one; all others then have it as designated
    router; and no other one considers itself designated router even before. *)
Theorem dr_election : forall R st, R <> [] -> NoDup (map l_id R) -> (forall C, In C R -> 0 <= l_nr C /\ lreach C (st (l_id C))) -> view R st ->
  exists W, In W R /\
  (forall C, In C R -> l_id C <> l_id W -> less (l_prio C) (l_id C) (l_prio W) (l_id W)) /\
  (forall C, In C R -> isdr (st (l_id C)) = true -> C = W) /\
  (forall C, In C R -> exists s o, lsteps C (st (l_id C)) [EvHelloTimer; EvDrTimer] = Ok (s, o) /\ (isdr s = true <-> C = W) /\
     (C <> W -> exists ser, dr s = DrAdj ser /\ a_id (get_obj s ser) = l_id W)).
Proof.
  intros R st NE ND RE VW. destruct (greatest_exists R NE ND) as (W & IW & G). exists W. split; [auto|]. split; [auto|].
  assert (One : forall C, In C R -> isdr (st (l_id C)) = true -> C = W).
  { intros C I D. destruct (Z.eq_dec (l_id C) (l_id W)) as [E|E]; [apply (NoDup_map_eq R); auto|]. exfalso.
    destruct (RE C I) as [NR RC]. pose proof (dr_is_greatest C _ NR RC D (l_id W) (l_prio W)) as X. specialize (G C I E).
    assert (H : hears C (st (l_id C)) (l_id W) (l_prio W)) by (apply VW; auto; exists W; auto).
    apply X in H. unfold less in *. lia. }
  split; [auto|]. intros C I. destruct (RE C I) as [NR RC]. pose proof (lreach_inv C _ NR RC) as V. set (s0 := st (l_id C)) in *. pose proof V as [Wf L Dr T].
  cbn [lsteps lstep]. destruct (calcdr C s0) as [s1 o1] eqn:Q. cbn [bind]. destruct (calcdr_spec _ _ _ _ Q) as (S1 & _ & I1 & _ & B0 & B1).
  destruct (calcdr_inv C s0 s1 o1 (or_intror Logic.I) Wf L T Q) as (V1 & E1).
  destruct (Z.eq_dec (l_id C) (l_id W)) as [E|E].
  - assert (C = W) by (apply (NoDup_map_eq R); auto). subst W. clear E.
    assert (BN : findbestdr C s0 = None).
    { apply best_none; auto. intros id a H. apply less_key. assert (HH : hears C s0 id (a_prio a)) by (apply hears_inarea; eauto).
      apply (VW C I) in HH. destruct HH as (C' & I' & N' & <- & <-). apply G; auto. }
    destruct (B0 BN) as [X1 X2]. destruct (drt s1) eqn:DT.
    + unfold becomedr. set (s2 := withdrt (withisdr s1 true) false).
      assert (BN2 : findbestdr C s2 = None) by (rewrite (same_best C s1 s2) by (repeat split); rewrite (same_best C s0 s1 S1); auto). rewrite BN2. cbn [bind].
      eexists _, _. split; [reflexivity|]. split; [split; auto|congruence].
    + cbn [bind]. eexists _, _. split; [reflexivity|]. destruct X2 as [X2|X2]; [|discriminate]. split; [split; auto|congruence].
  - destruct (findbestdr C s0) as [d|] eqn:B.
    2:{ exfalso. assert (H : hears C s0 (l_id W) (l_prio W)) by (apply VW; auto; exists W; auto). apply hears_inarea in H. destruct H as (a & H & P).
        pose proof (proj1 (best_none C s0 Wf) B _ _ H) as X. apply less_key in X. specialize (G C I E). rewrite P in X. unfold less in *. lia. }
    destruct (B1 d eq_refl) as (D1 & x & DX & AX). destruct (best_some C s0 d Wf B) as (i & a & IA & GA & AI & KM & KO).
    assert (IW' : i = l_id W).
    { assert (HH : hears C s0 i (a_prio a)) by (apply hears_inarea; eauto). apply (VW C I) in HH. destruct HH as (C' & I' & N' & <- & P).
      assert (H : hears C s0 (l_id W) (l_prio W)) by (apply VW; auto; exists W; auto). apply hears_inarea in H. destruct H as (b & Hb & Pb).
      pose proof (KO _ _ Hb) as X. destruct (Z.eq_dec (l_id C') (l_id W)) as [EE|EE]; [auto|]. specialize (G C' I' EE).
      rewrite key_ge_spec in X. cbn [fst snd] in X. unfold less in G. lia. }
    assert (AW : a_id (get_obj s1 x) = l_id W) by (rewrite (same_get _ _ x S1), AX, GA; congruence).
    assert (NW : C <> W) by congruence.
    destruct (drt s1).
    + unfold becomedr. set (s2 := withdrt (withisdr s1 true) false). assert (S2 : same_adj s1 s2) by (repeat split).
      assert (B2 : findbestdr C s2 = Some d) by (rewrite (same_best C s1 s2 S2), (same_best C s0 s1 S1); auto). rewrite B2.
      destruct (calcdr C s2) as [s3 o3] eqn:Q3. cbn [bind]. eexists _, _. split; [reflexivity|].
      destruct (calcdr_spec _ _ _ _ Q3) as (S3 & _ & _ & _ & _ & B3). destruct (B3 d B2) as (D3 & x3 & DX3 & AX3).
      split; [split; [congruence|tauto]|]. intros _. exists x3. split; [auto|]. rewrite (same_get _ _ x3 S3), AX3, (same_get _ _ d S2), (same_get _ _ d S1), GA. congruence.
    + cbn [bind]. eexists _, _. split; [reflexivity|]. split; [split; [congruence|tauto]|]. intros _. eauto.
Qed.

(** Three routers, 1.1 (priority 64), 1.2 (64) and 1.3 (10), that have heard
    each other. *)
Definition cfg3 (n p : Z) : lcfg := {| l_id := 1024 + n; l_l2 := false; l_prio := p; l_nr := 5 |}.
Definition three : list lcfg := [cfg3 1 64; cfg3 2 64; cfg3 3 10].
Definition hello3 (C : lcfg) : lev := EvRouter (l_id C) NL1 (l_prio C) 591 (map (fun x => (l_id x, l_prio x)) (filter (fun x => negb (l_id x =? l_id C)) three)) false.
Definition st3 (id : Z) : lst :=
  match find (fun C => l_id C =? id) three with
  | Some C => match lsteps C lstart (map hello3 (filter (fun x => negb (l_id x =? l_id C)) three)) with Ok (s, _) => s | Err _ => lstart end
  | None => lstart
  end.
Lemma hears_list : forall C s id p, wf s -> (hears C s id p <-> In (id, p) (map (fun k => (a_id (get_obj s k), a_prio (get_obj s k))) (routers C false s))).
Proof.
  intros C s id p W. rewrite hears_inarea, in_map_iff. split.
  - intros (a & (E & R & A) & <-). destruct (ent_some _ _ _ W E) as (ser & T & O & I). exists ser. rewrite (get_obj_some _ _ _ O), I. split; [reflexivity|].
    apply in_routers; auto. exists id, a. rewrite (get_obj_some _ _ _ O). auto 7.
  - intros (ser & E & I). apply (in_routers C false s ser W) in I. destruct I as (id' & a & E' & T & G & R & [X|A]); [discriminate|].
    destruct (tab_ent s id' ser W T) as [_ Q]. assert (id' = id) by congruence. subst id'. exists a. split; [repeat split; congruence|congruence].
Qed.
Example dr_election_example : NoDup (map l_id three) /\ (forall C, In C three -> 0 <= l_nr C /\ lreach C (st3 (l_id C))) /\ view three st3 /\
  forall C, In C three -> exists s o, lsteps C (st3 (l_id C)) [EvHelloTimer; EvDrTimer] = Ok (s, o) /\ isdr s = (l_id C =? 1026).
Proof.
  assert (RR : forall C, In C three -> 0 <= l_nr C /\ lreach C (st3 (l_id C))).
  { intros C I. split; [destruct I as [<-|[<-|[<-|[]]]]; cbn; lia|].
    exists (map hello3 (filter (fun x => negb (l_id x =? l_id C)) three)). destruct I as [<-|[<-|[<-|[]]]]; eexists; vm_compute; reflexivity. }
  split; [|split; [|split]].
  - cbn. repeat (constructor; [cbn; lia|]). constructor.
  - exact RR.
  - intros C I id p. destruct (RR C I) as [NR R]. rewrite (hears_list C _ id p (v_wf _ _ (lreach_inv C _ NR R))).
    assert (X : map (fun k => (a_id (get_obj (st3 (l_id C)) k), a_prio (get_obj (st3 (l_id C)) k))) (routers C false (st3 (l_id C)))
       = map (fun x => (l_id x, l_prio x)) (filter (fun x => negb (l_id x =? l_id C)) three)).
    { destruct I as [<-|[<-|[<-|[]]]]; vm_compute; reflexivity. }
    rewrite X, in_map_iff. split.
    + intros (C' & E & J). apply filter_In in J. exists C'. split; [tauto|]. split; [lia|]. split; congruence.
    + intros (C' & J & N & <- & <-). exists C'. split; [reflexivity|]. apply filter_In. split; [auto|lia].
  - intros C I. destruct I as [<-|[<-|[<-|[]]]]; eexists _, _; (split; [vm_compute; reflexivity|reflexivity]).
Qed.

(** * C27: the list of routers *)
Theorem router_list_bound : forall C s, 0 <= l_nr C -> lreach C s -> forall ids, NoDup ids -> (forall id, In id ids -> exists a, ent s id = Some a /\ a_type a <> NEnd) -> zlen ids <= l_nr C.
Proof.
  intros C s NR R ids N H. pose proof (lreach_inv C s NR R) as [W L _ _]. enough (zlen ids <= zlen (rids C s)) by lia. apply incl_zlen; auto.
  intros id I. destruct (H id I) as (a & E & Y). apply in_rids; auto. exists a. split; [auto|]. unfold a_router. destruct (a_type a); congruence.
Qed.
(** A new router, when the list is full, takes the place of the least one,
    unless it is itself the least. *)
Theorem router_displaces_least : forall C s id t prio bk rs bad s' o ids, 0 <= l_nr C -> lreach C s -> accepts C id t = true -> t <> NEnd ->
  ent s id = None -> NoDup ids -> (forall k, In k ids <-> exists a, ent s k = Some a /\ a_type a <> NEnd) -> zlen ids = l_nr C ->
  lstep C s (EvRouter id t prio bk rs bad) = Ok (s', o) ->
  exists m p, ((m = id /\ p = prio) \/ exists a, In m ids /\ ent s m = Some a /\ a_prio a = p) /\
  (forall k q, (k = id /\ q = prio) \/ (exists a, In k ids /\ ent s k = Some a /\ a_prio a = q) -> k <> m -> less p m q k) /\
  (forall k, (exists a, ent s' k = Some a /\ a_type a <> NEnd) <-> (k = id \/ In k ids) /\ k <> m).
Proof.
  intros C s id t prio bk rs bad s' o ids NR R A NT E0 ND I Z H. pose proof (lreach_inv C s NR R) as V. pose proof V as [W L _ _].
  destruct (lstep_spec C s _ s' o NR V H) as (_ & _ & F). cbn [step_effect] in F. rewrite A in F.
  assert (RT : forall a, a_type a <> NEnd <-> a_router a = true) by (intros a; unfold a_router; destruct (a_type a); split; congruence).
  assert (ZR : zlen (rids C s) = l_nr C).
  { apply Z.le_antisymm; [auto|]. rewrite <- Z. apply incl_zlen; auto. intros k J. apply in_rids; auto. apply I in J. destruct J as (a & Ja & Jb). exists a. split; [auto|]. apply RT; auto. }
  assert (NI : ~ In id ids) by (intros J; apply I in J; destruct J as (a & J & _); congruence).
  destruct F as [(a & F & _)|[(a & a' & F & _)|[(_ & F & _)|[(a' & _ & _ & _ & _ & F & _)|[(a' & m & am & _ & _ & Co & _ & _ & Em & Rm & K1 & K2 & EE)|(_ & _ & _ & K & EE)]]]]]; try congruence; [lia| |].
  - exists m, (a_prio am). assert (Im : In m ids) by (apply I; exists am; split; [auto|apply RT; auto]).
    split; [right; eauto|]. split.
    + intros k q [[-> ->]|(a & J & Ja & <-)] N; apply less_key; [auto|]. apply K2; auto. apply I in J. destruct J as (b & Jb & Jc). apply RT. congruence.
    + intros k. rewrite EE. destruct (Z.eqb_spec k id) as [->|N].
      * split; [intros _; split; [auto|congruence]|]. intros _. exists a'. split; [auto|]. unfold core in Co. congruence.
      * destruct (Z.eqb_spec k m) as [->|N']; [split; [intros (a & X & _); discriminate|intros [_ X]; congruence]|]. rewrite <- I. tauto.
  - exists id, prio. split; [left; auto|]. split.
    + intros k q [[-> ->]|(a & J & Ja & <-)] N; [congruence|]. apply less_key. apply K; auto. apply I in J. destruct J as (b & Jb & Jc). apply RT. congruence.
    + intros k. rewrite EE, <- I. split; [intros J; split; [auto|congruence]|]. intros [[->|J] N]; [congruence|auto].
Qed.

(** Histories in which every node keeps its type and priority (f), with no
    adjacency timing out. *)
Definition steady (f : Z -> ntype * Z) (e : lev) : Prop :=
  match e with
  | EvRouter id t prio _ _ _ => f id = (t, prio) /\ t <> NEnd
  | EvEnd id _ ok => fst (f id) = NEnd
  | EvTimeout _ => False
  | _ => True
  end.
Definition heard_router (C : lcfg) (l : list lev) (id : Z) : Prop := exists t prio bk rs bad, In (EvRouter id t prio bk rs bad) l /\ accepts C id t = true.
(** The routers in the list are the best nr of those heard: a router heard is in
    the list if and only if fewer than nr routers heard are greater. *)
Definition outranks (f : Z -> ntype * Z) (k id : Z) : Prop := less (snd (f id)) id (snd (f k)) k.
Definition top_inv (f : Z -> ntype * Z) (C : lcfg) (l : list lev) (s : lst) : Prop :=
  (forall id a, ent s id = Some a -> a_type a = fst (f id) /\ (a_type a <> NEnd -> a_prio a = snd (f id) /\ heard_router C l id)) /\
  (forall h, heard_router C l h -> ent s h = None -> zlen (rids C s) = l_nr C /\ forall id a, ent s id = Some a -> a_type a <> NEnd -> outranks f id h).
Lemma steady_inv : forall f C l s o, 0 <= l_nr C -> Forall (steady f) l -> lsteps C lstart l = Ok (s, o) -> top_inv f C l s.
Proof.
  intros f C l. induction l as [|e l IH] using List.rev_ind; intros s o NR FS H.
  - injection H as <- <-. split; [intros id a X; discriminate|]. intros h (t & p & b & r & d & X & _). destruct X.
  - apply lsteps_snoc in H. destruct H as (s1 & o1 & o2 & H1 & H2 & _). apply Forall_app in FS. destruct FS as [FS1 FS2]. inversion FS2 as [|? ? FS _]; subst. clear FS2.
    destruct (IH _ _ NR FS1 H1) as [TA TB]. assert (V1 : inv C s1) by (apply lreach_inv; [auto|exists l, o1; auto]). pose proof V1 as [W1 L1 _ _].
    destruct (lstep_spec C s1 e s o2 NR V1 H2) as (V & _ & F). pose proof V as [W L _ _].
    assert (RT : forall a, a_type a <> NEnd <-> a_router a = true) by (intros a; unfold a_router; destruct (a_type a); split; congruence).
    assert (Grow : forall h, heard_router C l h -> heard_router C (l ++ [e]) h) by (intros h (t & p & b & r & d & X & Y); exists t, p, b, r, d; split; [apply in_or_app; auto|auto]).
    assert (Q1 : forall h, heard_router C (l ++ [e]) h -> heard_router C l h \/ exists t p b r d, e = EvRouter h t p b r d /\ accepts C h t = true).
    { intros h (t & p & b & r & d & X & Y). apply in_app_or in X. destruct X as [X|[X|[]]]; [left; exists t, p, b, r, d; auto|right; exists t, p, b, r, d; auto]. }
    assert (Same : (forall k, ent s k = ent s1 k) -> (forall h, heard_router C (l ++ [e]) h -> heard_router C l h \/ (zlen (rids C s1) = l_nr C /\ forall id a, ent s1 id = Some a -> a_type a <> NEnd -> outranks f id h)) -> top_inv f C (l ++ [e]) s).
    { intros EE HH. assert (ZZ : zlen (rids C s) = zlen (rids C s1)) by (apply rids_eq; auto; intros k; rewrite EE; reflexivity).
      split; [intros id a X; rewrite EE in X; destruct (TA _ _ X) as [X1 X2]; split; auto; intros N; destruct (X2 N); auto|].
      intros h X N. rewrite EE in N. rewrite ZZ. destruct (HH h X) as [Y|[Y1 Y2]].
      - destruct (TB h Y N) as [Z1 Z2]. split; [auto|]. intros id a J. rewrite EE in J. eauto.
      - split; [auto|]. intros id a J. rewrite EE in J. eauto. }
    destruct e as [id bk ok|id t prio bk rs bad|ser| | |src data]; cbn [step_effect steady] in *; [| |contradiction| | |].
    3,4,5: apply Same; [auto|]; intros h X; destruct (Q1 h X) as [Y|(? & ? & ? & ? & ? & Y & _)]; [auto|discriminate].
    + (* end node hello *)
      assert (NH : forall h, heard_router C (l ++ [EvEnd id bk ok]) h -> heard_router C l h) by (intros h X; destruct (Q1 h X) as [Y|(? & ? & ? & ? & ? & Y & _)]; [auto|discriminate]).
      destruct (accepts C id NEnd); [|apply Same; auto]. unfold end_effect in F.
      assert (Upd : forall x : option ladj, (forall a, x = Some a -> a_type a = NEnd) -> (forall a, ent s1 id = Some a -> a_type a = NEnd) -> (forall k, ent s k = if k =? id then x else ent s1 k) -> top_inv f C (l ++ [EvEnd id bk ok]) s).
      { intros x HX HS EE.
        assert (ZZ : zlen (rids C s) = zlen (rids C s1)).
        { apply rids_eq; auto. intros k. rewrite EE. destruct (Z.eqb_spec k id) as [->|N]; [|reflexivity].
          split; intros (a & X & Y); apply RT in Y; [apply HX in X|apply HS in X]; congruence. }
        split.
        - intros k a X. rewrite EE in X. destruct (Z.eqb_spec k id) as [->|N].
          + pose proof (HX a X) as Y. rewrite Y. split; [auto|congruence].
          + destruct (TA _ _ X) as [X1 X2]. split; auto. intros M; destruct (X2 M); auto.
        - intros h X N. apply NH in X. rewrite ZZ. assert (NN : h <> id).
          { intros ->. destruct X as (t' & p' & b' & r' & d' & X & _). rewrite Forall_forall in FS1. specialize (FS1 _ X). cbn [steady] in FS1. destruct FS1 as [FS1 FS3]. rewrite FS1 in FS. cbn in FS. congruence. }
          rewrite EE in N. replace (h =? id) with false in N by lia. destruct (TB h X N) as [Z1 Z2]. split; [auto|].
          intros k a J Y. rewrite EE in J. destruct (Z.eqb_spec k id) as [->|M]; [apply HX in J; congruence|eauto]. }
      destruct (ent s1 id) as [a|] eqn:E1.
      * assert (YA : a_type a = NEnd) by (destruct (TA _ _ E1) as [X _]; congruence).
        assert (YR : a_router a = false) by (unfold a_router; rewrite YA; auto). rewrite YR in F. destruct ok; cbn [negb andb] in F.
        -- destruct F as (a' & Co & _ & EE). apply (Upd (Some a')); auto; [|intros b X; injection X as <-; auto]. intros b X. injection X as <-. unfold core in Co. congruence.
        -- apply (Upd None); auto; [discriminate|]. intros b X. injection X as <-. auto.
      * destruct ok; [|apply Same; auto]. destruct F as (a' & Co & _ & EE). apply (Upd (Some a')); auto; [|discriminate]. intros b X. injection X as <-. unfold core in Co. congruence.
    + (* router hello *)
      destruct FS as [FI NT]. destruct (accepts C id t) eqn:A.
      2:{ apply Same; auto. intros h X. destruct (Q1 h X) as [Y|(t' & ? & ? & ? & ? & Y & Z)]; [auto|]. injection Y as <- <- <- <- <- <-. congruence. }
      assert (HN : heard_router C (l ++ [EvRouter id t prio bk rs bad]) id) by (exists t, prio, bk, rs, bad; split; [apply in_or_app; right; left; auto|auto]).
      assert (Q2 : forall h, heard_router C (l ++ [EvRouter id t prio bk rs bad]) h -> h = id \/ heard_router C l h).
      { intros h X. destruct (Q1 h X) as [Y|(? & ? & ? & ? & ? & Y & _)]; [auto|]. injection Y. auto. }
      destruct F as [(a & F1 & F2 & _)|[(a & a' & F1 & _ & _ & _ & Co & _ & EE)|[(_ & F & _)|[(a' & F0 & _ & Co & _ & F & EE)|[(a' & m & am & F0 & _ & Co & _ & ZN & Em & Rm & K1 & K2 & EE)|(F0 & _ & ZN & K & EE)]]]]]; try congruence.
      * exfalso. destruct (TA _ _ F1) as [X1 X2]. rewrite FI in X1, X2. cbn [fst snd] in X1, X2. assert (NX : a_type a <> NEnd) by congruence. destruct (X2 NX) as [X3 _].
        apply RT in NX. destruct F2 as [F2|[F2|F2]]; congruence.
      * assert (Ty : a_type a' = a_type a) by (unfold core in Co; congruence).
        assert (ZZ : zlen (rids C s) = zlen (rids C s1)).
        { apply rids_eq; auto. intros k. rewrite EE. destruct (Z.eqb_spec k id) as [->|N]; [|reflexivity].
          split; intros (b & X & Y); apply RT in Y; [injection X as <-; exists a; split; [auto|apply RT; congruence]|exists a'; split; [auto|apply RT; congruence]]. }
        split.
        -- intros k b X. rewrite EE in X. destruct (Z.eqb_spec k id) as [->|N].
           ++ injection X as <-. rewrite Ty. destruct (TA _ _ F1) as [X1 X2]. split; [auto|]. intros M. destruct (X2 M) as [X3 _]. split; [unfold core in Co; congruence|auto].
           ++ destruct (TA _ _ X) as [X1 X2]. split; auto. intros M; destruct (X2 M); auto.
        -- intros h X N. rewrite EE in N. destruct (Z.eqb_spec h id) as [->|M]; [discriminate|]. destruct (Q2 h X) as [X'|X']; [congruence|].
           destruct (TB h X' N) as [Z1 Z2]. rewrite ZZ. split; [auto|]. intros k b J Y. rewrite EE in J. destruct (Z.eqb_spec k id) as [->|]; [injection J as <-; apply (Z2 id a); auto; congruence|eauto].
      * (* room *)
        assert (Pa : a_type a' = t /\ a_prio a' = prio) by (unfold core in Co; split; congruence). destruct Pa as [Pt Pp].
        split.
        -- intros k b X. rewrite EE in X. destruct (Z.eqb_spec k id) as [->|N].
           ++ injection X as <-. rewrite FI. cbn [fst snd]. split; [auto|]. intros _. auto.
           ++ destruct (TA _ _ X) as [X1 X2]. split; auto. intros M; destruct (X2 M); auto.
        -- intros h X N. exfalso. rewrite EE in N. destruct (Z.eqb_spec h id) as [->|M]; [discriminate|]. destruct (Q2 h X) as [X'|X']; [congruence|].
           destruct (TB h X' N) as [Z1 _]. lia.
      * (* displaced *)
        assert (Pa : a_type a' = t /\ a_prio a' = prio) by (unfold core in Co; split; congruence). destruct Pa as [Pt Pp].
        assert (NM : m <> id) by congruence.
        assert (ZZ : zlen (rids C s) = l_nr C).
        { apply Z.le_antisymm; [auto|]. enough (X : zlen (id :: rids C s1) <= zlen (m :: rids C s)) by (rewrite !zlen_cons in X; lia). apply incl_zlen.
          - constructor; [|apply NoDup_rids; auto]. intros X. apply in_rids in X; auto. destruct X as (b & X & _). congruence.
          - intros k [<-|X]; [right; apply in_rids; auto; exists a'; rewrite EE, Z.eqb_refl; split; [auto|apply RT; congruence]|].
            apply in_rids in X; auto. destruct X as (b & X & Y). destruct (Z.eq_dec k m) as [->|N]; [left; auto|right]. apply in_rids; auto. exists b. rewrite EE.
            destruct (Z.eqb_spec k id) as [->|]; [congruence|]. replace (k =? m) with false by lia. auto. }
        assert (Fm : fst (f m) = a_type am /\ snd (f m) = a_prio am) by (destruct (TA _ _ Em) as [X1 X2]; apply RT in Rm; destruct (X2 Rm); auto). destruct Fm as [Fm1 Fm2].
        assert (Om : forall k b, ent s k = Some b -> a_type b <> NEnd -> outranks f k m).
        { intros k b J Y. unfold outranks. rewrite Fm2. apply less_key. rewrite EE in J. destruct (Z.eqb_spec k id) as [->|]; [rewrite FI; auto|]. destruct (Z.eqb_spec k m); [discriminate|].
          destruct (TA _ _ J) as [_ X2]. destruct (X2 Y) as [X3 _]. rewrite <- X3. apply K2; auto. apply RT; auto. }
        split.
        -- intros k b X. rewrite EE in X. destruct (Z.eqb_spec k id) as [->|N].
           ++ injection X as <-. rewrite FI. cbn [fst snd]. split; [auto|]. intros _. auto.
           ++ destruct (Z.eqb_spec k m); [discriminate|]. destruct (TA _ _ X) as [X1 X2]. split; auto. intros M; destruct (X2 M); auto.
        -- intros h X N. rewrite EE in N. destruct (Z.eqb_spec h id) as [->|M]; [discriminate|]. destruct (Q2 h X) as [X'|X']; [congruence|]. split; [auto|].
           destruct (Z.eqb_spec h m) as [->|M']; [auto|]. destruct (TB h X' N) as [_ Z2]. apply RT in Rm. pose proof (Z2 _ _ Em Rm) as O1.
           intros k b J Y. pose proof (Om k b J Y) as O2. unfold outranks, less in *. lia.
      * apply Same; auto. intros h X. destruct (Q2 h X) as [->|Y]; [right|auto]. split; [auto|]. intros k a J Y. unfold outranks. rewrite FI. cbn [snd].
        destruct (TA _ _ J) as [_ X2]. destruct (X2 Y) as [X3 _]. rewrite <- X3. apply less_key. apply K; auto. apply RT; auto.
Qed.
Theorem router_list_is_top : forall f C l s o, 0 <= l_nr C -> Forall (steady f) l -> lsteps C lstart l = Ok (s, o) ->
  forall id, heard_router C l id ->
  ((exists a, ent s id = Some a) <-> forall better, NoDup better -> (forall k, In k better -> heard_router C l k /\ outranks f k id) -> zlen better < l_nr C).
Proof.
  intros f C l s o NR FS H id HI. destruct (steady_inv f C l s o NR FS H) as [TA TB]. assert (V : inv C s) by (apply lreach_inv; [auto|exists l, o; auto]). pose proof V as [W L _ _].
  assert (RT : forall a, a_type a <> NEnd <-> a_router a = true) by (intros a; unfold a_router; destruct (a_type a); split; congruence).
  assert (NE : forall h, heard_router C l h -> fst (f h) <> NEnd).
  { intros h (t & p & b & r & d & X & _). rewrite Forall_forall in FS. specialize (FS _ X). cbn [steady] in FS. destruct FS as [-> FS]. exact FS. }
  split.
  - intros (a & E) better ND B. destruct (TA _ _ E) as [Ty _]. assert (Ya : a_type a <> NEnd) by (rewrite Ty; auto).
    enough (X : zlen (id :: better) <= zlen (rids C s)) by (rewrite zlen_cons in X; lia). apply incl_zlen.
    + constructor; auto. intros X. apply B in X. destruct X as [_ X]. unfold outranks, less in X. lia.
    + intros k [<-|X]; [apply in_rids; auto; exists a; split; [auto|apply RT; auto]|]. destruct (B k X) as [X1 X2]. apply in_rids; auto.
      destruct (ent s k) as [b|] eqn:Eb; [exists b; split; [auto|]; apply RT; destruct (TA _ _ Eb) as [-> _]; auto|].
      destruct (TB k X1 Eb) as [_ Y]. specialize (Y _ _ E Ya). unfold outranks, less in *. lia.
  - intros B. destruct (ent s id) as [a|] eqn:E; [eauto|]. destruct (TB id HI E) as [Z1 Z2]. exfalso.
    assert (X : zlen (rids C s) < l_nr C); [|lia]. apply B; [apply NoDup_rids; auto|]. intros k X. apply in_rids in X; auto. destruct X as (b & Eb & Rb). apply RT in Rb.
    split; [apply (TA _ _ Eb); auto|]. eapply Z2; eauto.
Qed.

(** * C28: two-way adjacencies *)
Definition hello_from (C : lcfg) (id : Z) (e : lev) : Prop :=
  match e with
  | EvEnd i _ _ => i = id /\ accepts C i NEnd = true
  | EvRouter i t _ _ _ _ => i = id /\ accepts C i t = true
  | _ => False
  end.
(** An up router adjacency: the last accepted hello from that node is a router
    hello of that type and priority that lists this router. *)
Theorem two_way_history : forall C l s o id a, 0 <= l_nr C -> lsteps C lstart l = Ok (s, o) -> ent s id = Some a -> a_type a <> NEnd -> a_up a = true ->
  exists l1 l2 bk rs bad, l = l1 ++ EvRouter id (a_type a) (a_prio a) bk rs bad :: l2 /\ accepts C id (a_type a) = true /\ In (l_id C, l_prio C) rs /\
  forall e, In e l2 -> ~ hello_from C id e.
Proof.
  intros C l. induction l as [|e l IH] using List.rev_ind; intros s o id a NR H E Y U.
  - injection H as <- <-. discriminate.
  - apply lsteps_snoc in H. destruct H as (s1 & o1 & o2 & H1 & H2 & _).
    assert (V1 : inv C s1) by (apply lreach_inv; [auto|exists l, o1; auto]). destruct (lstep_spec C s1 e s o2 NR V1 H2) as (V & _ & F).
    assert (RT : forall a, a_type a <> NEnd <-> a_router a = true) by (intros b; unfold a_router; destruct (a_type b); split; congruence).
    assert (Old : ent s1 id = Some a -> ~ hello_from C id e -> exists l1 l2 bk rs bad, l ++ [e] = l1 ++ EvRouter id (a_type a) (a_prio a) bk rs bad :: l2 /\ accepts C id (a_type a) = true /\ In (l_id C, l_prio C) rs /\
       forall e', In e' l2 -> ~ hello_from C id e').
    { intros X N. destruct (IH s1 o1 id a NR H1 X Y U) as (l1 & l2 & bk & rs & bad & -> & A & I & Q). exists l1, (l2 ++ [e]), bk, rs, bad.
      split; [rewrite <- app_assoc; reflexivity|]. split; [auto|]. split; [auto|]. intros e' J. apply in_app_or in J. destruct J as [J|[<-|[]]]; auto. }
    destruct e as [i bk ok|i t prio bk rs bad|ser| | |src data]; cbn [step_effect] in F.
    + destruct (accepts C i NEnd) eqn:A; [|apply Old; [rewrite <- F; auto|intros [_ X]; congruence]]. unfold end_effect in F.
      assert (M : ent s1 id = Some a -> i <> id -> ~ hello_from C id (EvEnd i bk ok)) by (intros _ N [X _]; congruence).
      destruct (ent s1 i) as [b|] eqn:Eb.
      * destruct (ok && negb (a_router b)) eqn:Q.
        -- destruct F as (a' & Co & _ & EE). rewrite EE in E. destruct (Z.eqb_spec id i) as [->|N]; [|apply Old; auto].
           injection E as <-. exfalso. assert (X : a_router b = true) by (apply RT; unfold core in Co; congruence). rewrite X, andb_false_r in Q. discriminate.
        -- rewrite F in E. destruct (Z.eqb_spec id i) as [->|N]; [discriminate|apply Old; auto].
      * destruct ok.
        -- destruct F as (a' & Co & _ & EE). rewrite EE in E. destruct (Z.eqb_spec id i) as [->|N]; [|apply Old; auto]. injection E as <-. unfold core in Co. congruence.
        -- rewrite F in E. apply Old; auto. apply M; auto. intros ->. congruence.
    + destruct (accepts C i t) eqn:A; [|apply Old; [rewrite <- F; auto|intros [_ X]; congruence]].
      assert (M : i <> id -> ~ hello_from C id (EvRouter i t prio bk rs bad)) by (intros N [X _]; congruence).
      assert (New : forall a', core a' = (i, t, prio, bk) \/ (a_type a' = t /\ a_prio a' = prio) -> (a_up a' = true <-> listed C rs) -> ent s i = Some a' -> id = i -> exists l1 l2 bk0 rs0 bad0, l ++ [EvRouter i t prio bk rs bad] = l1 ++ EvRouter id (a_type a) (a_prio a) bk0 rs0 bad0 :: l2 /\ accepts C id (a_type a) = true /\ In (l_id C, l_prio C) rs0 /\
         forall e', In e' l2 -> ~ hello_from C id e').
      { intros a' Co UP Ei ->. assert (a' = a) by congruence. subst a'. assert (Ty : a_type a = t /\ a_prio a = prio) by (unfold core in Co; destruct Co as [Co|Co]; [split; congruence|auto]).
        destruct Ty as [-> ->]. exists l, [], bk, rs, bad. split; [reflexivity|]. split; [auto|]. split; [apply UP; auto|intros e' []]. }
      destruct F as [(b & F1 & F2 & EE)|[(b & a' & F1 & _ & Ty & Pr & Co & UP & EE)|[(F0 & F & EE)|[(a' & F0 & _ & Co & UP & F & EE)|[(a' & m & am & F0 & _ & Co & UP & ZN & Em & Rm & K1 & K2 & EE)|(F0 & _ & ZN & K & EE)]]]]];
        pose proof (EE id) as Ei; rewrite E in Ei; destruct (Z.eqb_spec id i) as [Q|N].
      * discriminate.
      * apply Old; auto.
      * apply (New a'); auto; [right; unfold core in Co; split; congruence|rewrite EE, Z.eqb_refl; reflexivity].
      * apply Old; auto.
      * congruence.
      * apply Old; auto.
      * apply (New a'); auto. rewrite EE, Z.eqb_refl; reflexivity.
      * apply Old; auto.
      * apply (New a'); auto. rewrite EE, Z.eqb_refl; reflexivity.
      * destruct (id =? m); [discriminate|]. apply Old; auto.
      * congruence.
      * apply Old; auto.
    + destruct (a_tmr (get_obj s1 ser)).
      * rewrite F in E. destruct (id =? a_id (get_obj s1 ser)); [discriminate|]. apply Old; auto.
      * rewrite F in E. apply Old; auto.
    + rewrite F in E. apply Old; auto.
    + rewrite F in E. apply Old; auto.
    + rewrite F in E. apply Old; auto.
Qed.
(** A hello that omits this router takes the adjacency down, and routing is
    told so. *)
Theorem omitted_goes_down : forall C s id t prio bk rs bad s' o, 0 <= l_nr C -> lreach C s -> accepts C id t = true -> ~ In (l_id C, l_prio C) rs ->
  lstep C s (EvRouter id t prio bk rs bad) = Ok (s', o) ->
  (forall a', ent s' id = Some a' -> a_up a' = false) /\
  (forall a, ent s id = Some a -> a_up a = true -> In (LDown id (a_type a)) o).
Proof.
  intros C s id t prio bk rs bad s' o NR R A NI H. pose proof (lreach_inv C s NR R) as V. destruct (lstep_spec C s _ s' o NR V H) as (_ & RP & F).
  cbn [step_effect] in F. rewrite A in F.
  assert (X : forall a', ent s' id = Some a' -> a_up a' = false).
  { intros a' E. destruct (a_up a') eqn:U; [|reflexivity]. exfalso.
    destruct F as [(b & F1 & F2 & EE)|[(b & b' & F1 & _ & Ty & Pr & Co & UP & EE)|[(F0 & F & EE)|[(b' & F0 & _ & Co & UP & F & EE)|[(b' & m & am & F0 & _ & Co & UP & ZN & Em & Rm & K1 & K2 & EE)|(F0 & _ & ZN & K & EE)]]]]];
      rewrite EE, ?Z.eqb_refl in E; try congruence; injection E as <-; apply NI; apply UP; auto. }
  split; [exact X|]. intros a E U. destruct RP as [RP _]. apply (RP id a E U X).
Qed.
(** An up adjacency has its listen timer running (unless it claims to be a Phase
    II node), and when the timer expires the adjacency is gone and routing is told. *)
Theorem up_is_timed : forall C s id a, 0 <= l_nr C -> lreach C s -> ent s id = Some a -> a_up a = true -> a_type a <> NPh2 -> a_tmr a = true.
Proof. intros C s id a NR R E U N. exact (v_tm C s (lreach_inv C s NR R) id a E U N). Qed.
Theorem timeout_goes_down : forall C s id ser a s' o, 0 <= l_nr C -> lreach C s -> dget Z.eqb (tab s) id = Some ser -> dget Z.eqb (objs s) ser = Some a -> a_tmr a = true ->
  lstep C s (EvTimeout ser) = Ok (s', o) -> ent s' id = None /\ (forall k, k <> id -> ent s' k = ent s k) /\ In (LDown id (a_type a)) o.
Proof.
  intros C s id ser a s' o NR R T O TM H. pose proof (lreach_inv C s NR R) as V. destruct (lstep_spec C s _ s' o NR V H) as (_ & _ & F).
  assert (I : a_id a = id) by (destruct (w_tab s (v_wf _ _ V) _ _ T) as (b & B1 & B2); congruence).
  cbn [step_effect] in F. rewrite (get_obj_some _ _ _ O), TM, I in F. split; [rewrite F, Z.eqb_refl; reflexivity|].
  split; [intros k N; rewrite F; replace (k =? id) with false by lia; reflexivity|].
  cbn [lstep] in H. rewrite (get_obj_some _ _ _ O), TM in H. unfold adj_timeout, a_goes_down in H. rewrite (get_obj_some _ _ _ O), put_get, Z.eqb_refl in H.
  destruct (deladj C _ ser LEvDown) as [s2 o2]. assert (X : [LDown (a_id (set_tmr a false)) (a_type (set_tmr a false))] ++ o2 = o) by congruence. rewrite <- X. left. cbn. congruence.
Qed.
(** Routing is told of an adjacency exactly when it becomes up or ceases to be. *)
Theorem routing_is_told : forall C s e s' o, 0 <= l_nr C -> lreach C s -> lstep C s e = Ok (s', o) ->
  (forall k a, ent s k = Some a -> a_up a = true -> (forall a', ent s' k = Some a' -> a_up a' = false) -> exists t, In (LDown k t) o) /\
  (forall k a', ent s' k = Some a' -> a_up a' = true -> (forall a, ent s k = Some a -> a_up a = false) -> In (LUp k (a_type a')) o) /\
  (forall k t, In (LUp k t) o -> (forall a, ent s k = Some a -> a_up a = false) /\ exists a', ent s' k = Some a' /\ a_up a' = true /\ a_type a' = t).
Proof.
  intros C s e s' o NR R H. pose proof (lreach_inv C s NR R) as V. destruct (lstep_spec C s _ s' o NR V H) as (_ & RP & _).
  assert (X : forall s0 s1 o0, reports s0 s1 o0 -> (forall k a, ent s0 k = Some a -> a_up a = true -> (forall a', ent s1 k = Some a' -> a_up a' = false) -> exists t, In (LDown k t) o0)).
  { intros s0 s1 o0 [P _] k a J U Q. eauto. }
  destruct e; cbv iota in RP; try (split; [exact (X _ _ _ RP)|exact (proj2 RP)]).
  destruct RP as (P1 & P2 & P3). split; [exact P1|]. split; [|intros k t J; destruct (P3 _ _ J)].
  intros k a' J U Q. destruct (P2 k a' J U) as (a & Ja & Jb). apply Q in Ja. congruence.
Qed.
(** Packets reach routing only from an up adjacency, except that data packets
    are also taken from nodes that are none. *)
Theorem packets_from_up : forall C s src data s' o id dummy, lstep C s (EvPacket src data) = Ok (s', o) -> wf s -> In (LPass id dummy) o ->
  s' = s /\ if dummy : bool then src = Some id /\ data = true else exists a, ent s id = Some a /\ a_up a = true /\ (src = None \/ src = Some id).
Proof.
  intros C s src data s' o id dummy H W I. cbn [lstep] in H. destruct src as [i|].
  - destruct (dget Z.eqb (tab s) i) as [ser|] eqn:T.
    + destruct (tab_ent s i ser W T) as [E A]. destruct (a_up (get_obj s ser)) eqn:U.
      * injection H as <- <-. destruct I as [I|[]]. injection I as <- <-. rewrite A. split; [auto|]. exists (get_obj s ser). auto.
      * destruct data; injection H as <- <-; [|destruct I]. destruct I as [I|[]]. injection I as <- <-. auto.
    + destruct data; injection H as <- <-; [|destruct I]. destruct I as [I|[]]. injection I as <- <-. auto.
  - destruct (tab s) as [|(k, ser) t] eqn:T; [injection H as <- <-; destruct I|]. destruct (a_up (get_obj s ser)) eqn:U; injection H as <- <-; [|destruct I].
    destruct I as [I|[]]. injection I as <- <-. split; [auto|].
    assert (TT : dget Z.eqb (tab s) k = Some ser) by (rewrite T; cbn; rewrite Z.eqb_refl; reflexivity).
    destruct (tab_ent s k ser W TT) as [E A]. rewrite A. exists (get_obj s ser). auto.
Qed.


(** * Which hellos count *)
(** The nodes this router may be adjacent to on a LAN: those of its own area,
    and, between area routers, any area router. *)
Definition in_scope (C : lcfg) (id : Z) (t : ntype) : Prop := id / 1024 = l_id C / 1024 \/ (l_l2 C = true /\ t = NL2).
Lemma accepts_scope : forall C id t, accepts C id t = true <-> in_scope C id t.
Proof.
  intros C id t. unfold accepts, in_scope, area_of. rewrite orb_true_iff, andb_true_iff, Z.eqb_eq.
  destruct t; cbn; split; intros [X|[X Y]]; auto; discriminate.
Qed.
Theorem foreign_hello_ignored : forall C s e, (match e with EvEnd id _ _ => ~ in_scope C id NEnd | EvRouter id t _ _ _ _ => ~ in_scope C id t | _ => False end) ->
  lstep C s e = Ok (s, []).
Proof.
  intros C s e H. destruct e as [id bk ok|id t prio bk rs bad|ser| | |src data]; try contradiction; rewrite <- accepts_scope in H; cbn [lstep];
  destruct (accepts C id _); congruence.
Qed.
(** A hello in scope that lists this router makes the adjacency come up, if
    there is room for it or it is known with the same type and priority. *)
Theorem listed_hello_up : forall C s id t prio bk rs bad s' o ids, 0 <= l_nr C -> lreach C s -> in_scope C id t -> t <> NEnd -> In (l_id C, l_prio C) rs ->
  NoDup ids -> (forall k, In k ids <-> exists a, ent s k = Some a /\ a_type a <> NEnd) ->
  (match ent s id with Some a => a_type a = t /\ a_prio a = prio | None => zlen ids < l_nr C end) ->
  lstep C s (EvRouter id t prio bk rs bad) = Ok (s', o) ->
  exists a, ent s' id = Some a /\ a_up a = true /\ a_type a = t /\ a_prio a = prio /\ (forall k, k <> id -> ent s' k = ent s k) /\
    ((forall b, ent s id = Some b -> a_up b = false) -> In (LUp id t) o).
Proof.
  intros C s id t prio bk rs bad s' o ids NR R SC NT LI ND IDS EX H. pose proof (lreach_inv C s NR R) as V. pose proof V as [W L _ _].
  apply accepts_scope in SC. destruct (lstep_spec C s _ s' o NR V H) as (V' & [_ [RP _]] & F). cbn [step_effect] in F. rewrite SC in F.
  assert (Z : zlen (rids C s) <= zlen ids).
  { apply incl_zlen; [apply NoDup_rids; auto|]. intros k K. apply in_rids in K; auto. destruct K as (a & A & B). apply IDS. exists a. split; [auto|].
    unfold a_router in B. destruct (a_type a); congruence. }
  assert (LS : listed C rs) by (exact LI).
  assert (UPK : forall a, ent s' id = Some a -> a_up a = true -> a_type a = t -> (forall b, ent s id = Some b -> a_up b = false) -> In (LUp id t) o).
  { intros a A U Y X. rewrite <- Y. apply RP with (a := a) || apply RP with (a' := a); auto. }
  assert (FIN : forall a, core a = (id, t, prio, bk) \/ (a_type a = t /\ a_prio a = prio) -> a_up a = true -> (forall k, ent s' k = if k =? id then Some a else ent s k) ->
     exists a, ent s' id = Some a /\ a_up a = true /\ a_type a = t /\ a_prio a = prio /\ (forall k, k <> id -> ent s' k = ent s k) /\
       ((forall b, ent s id = Some b -> a_up b = false) -> In (LUp id t) o)).
  { intros a Co U X. assert (T : a_type a = t /\ a_prio a = prio) by (destruct Co as [Co|Co]; [unfold core in Co; inversion Co; auto|auto]). destruct T as [T1 T2].
    assert (E : ent s' id = Some a) by (rewrite X, Z.eqb_refl; auto). exists a. split; [exact E|]. split; [exact U|]. split; [exact T1|]. split; [exact T2|].
    split; [intros k K; rewrite X; replace (k =? id) with false by lia; auto|]. apply UPK with (a := a); auto. }
  destruct F as [(a & E & X & _)|[(a & a' & E & _ & Y1 & Y2 & Co & U & X)|[(_ & X & _)|[(a' & E & _ & Co & U & _ & X)|[(a' & m & am & E & _ & _ & _ & X & _)|(E & _ & X & _)]]]]].
  - rewrite E in EX. destruct EX as [E1 E2]. destruct X as [X|[X|X]]; try congruence. unfold a_router in X. rewrite E1 in X. destruct t; congruence.
  - apply (FIN a'); [right; unfold core in Co; inversion Co; split; congruence|apply U; auto|auto].
  - congruence.
  - apply (FIN a'); [auto|apply U; auto|auto].
  - rewrite E in EX. lia.
  - rewrite E in EX. lia.
Qed.
(** The same hello again changes nothing and causes no message, unless this
    router has just ceased to be the designated router. *)
Lemma find_listed : forall me p rs bad, In (me, p) rs -> match find_self me p rs bad with Ok None => False | _ => True end.
Proof.
  intros me p. induction rs as [|[r q] t IH]; intros bad I; [destruct I|]. cbn [find_self]. destruct (Z.eqb_spec r me) as [E|E].
  - destruct (q =? p); auto.
  - apply IH. destruct I as [I|I]; [congruence|auto].
Qed.
Theorem known_hello_quiet : forall C s id a bk rs bad s' o, 0 <= l_nr C -> lreach C s -> in_scope C id (a_type a) -> ent s id = Some a -> a_type a <> NEnd -> a_up a = true ->
  In (l_id C, l_prio C) rs -> lstep C s (EvRouter id (a_type a) (a_prio a) bk rs bad) = Ok (s', o) ->
  o = if isdr s && negb (isdr s') then [LNewHello] else [].
Proof.
  intros C s id a bk rs bad s' o NR R SC E NT U LI H. pose proof (lreach_inv C s NR R) as V. pose proof V as [W L _ _]. apply accepts_scope in SC.
  cbn [lstep] in H. rewrite SC in H. unfold router_hello in H. destruct (ent_some _ _ _ W E) as (ser & T & O & I). rewrite T in H.
  destruct (start_spec s ser a id W T O) as (W1 & N1 & T1 & D1 & O1 & E1).
  set (a1 := match a_type a with NPh2 => a | _ => set_tmr a true end) in *.
  assert (G : get_obj (adj_start s ser) ser = a1) by (apply get_obj_some; auto).
  assert (Y : a_type a1 = a_type a /\ a_prio a1 = a_prio a /\ a_up a1 = true) by (unfold a1; destruct (a_type a) eqn:Q; cbn; rewrite ?Q; auto). destruct Y as (Y1 & Y2 & Y3).
  rewrite G in H. unfold changed in H. rewrite Y1, Y2, Z.eqb_refl in H.
  replace (ntype_eqb (a_type a) (a_type a)) with true in H by (destruct (a_type a); auto).
  replace (a_router a1) with true in H by (unfold a_router; rewrite Y1; destruct (a_type a); congruence). cbn [negb orb] in H.
  unfold two_way in H. rewrite G, Y3 in H. pose proof (find_listed _ _ _ bad LI) as FL.
  destruct (find_self (l_id C) (l_prio C) rs bad) as [[u|]|x]; cbn [bind] in H; [|contradiction|discriminate].
  unfold calcdr in H. rewrite start_isdr in H.
  destruct (findbestdr C (adj_start s ser)) as [d|].
  - destruct (isdr s) eqn:Q.
    + destruct (dr_is _ d) in H; inversion H; subst; cbn; reflexivity.
    + destruct (dr_is _ d) in H; inversion H; subst; cbn; reflexivity.
  - destruct (negb (isdr s) && negb (drt (adj_start s ser))); inversion H; subst; cbn; rewrite ?start_isdr; destruct (isdr s); reflexivity.
Qed.
(** Nothing but a message or the hello timer starts the delay after which this
    router becomes designated router. *)
Theorem dr_needs_start : forall C l s o, lsteps C lstart l = Ok (s, o) -> isdr s = true ->
  exists l1 l2 e, l = l1 ++ EvDrTimer :: l2 /\ In e l1 /\ e <> EvDrTimer.
Proof.
  intros C l. induction l as [|e l IH] using List.rev_ind; intros s o H D.
  - inversion H; subst. discriminate.
  - apply lsteps_snoc in H. destruct H as (s1 & o1 & o2 & H1 & H2 & _). destruct (isdr s1) eqn:D1.
    + destruct (IH _ _ H1 D1) as (l1 & l2 & x & -> & I & N). exists l1, (l2 ++ [e]), x. rewrite <- app_assoc. auto.
    + destruct (dr_after_delay _ _ _ _ _ H2 D1 D) as [-> T]. clear IH.
      enough (exists x, In x l /\ x <> EvDrTimer) as (x & I & N) by (exists l, [], x; auto).
      revert s1 o1 H1 D1 T H2. induction l as [|x l IH] using List.rev_ind; intros s1 o1 H1 D1 T H2.
      * inversion H1; subst. discriminate.
      * destruct (lsteps_snoc _ _ _ _ _ _ H1) as (s2 & o3 & o4 & H3 & H4 & _).
        assert (K : x = EvDrTimer \/ x <> EvDrTimer) by (destruct x; auto; right; discriminate).
        destruct K as [-> | K]; [|exists x; split; [apply in_app_iff; right; left; auto|auto]].
        cbn [lstep] in H4. destruct (drt s2) eqn:T2; [|inversion H4; subst; congruence].
        destruct (isdr s2) eqn:D2.
        -- exfalso. assert (becomedr C s2 = (s1, o4)) as B by congruence. unfold becomedr in B.
           destruct (findbestdr C (withdrt (withisdr s2 true) false)) eqn:FB; [|inversion B; subst; cbn in D1; discriminate].
           unfold calcdr in B. rewrite FB in B. cbn [isdr withdrt withisdr] in B. destruct (dr_is _ _) in B; inversion B; subst; cbn in T; discriminate.
        -- assert (becomedr C s2 = (s1, o4)) as B by congruence. exfalso. unfold becomedr in B.
           destruct (findbestdr C (withdrt (withisdr s2 true) false)) eqn:FB; [|inversion B; subst; cbn in D1; discriminate].
           unfold calcdr in B. rewrite FB in B. cbn [isdr withdrt withisdr] in B. destruct (dr_is _ _) in B; inversion B; subst; cbn in T; discriminate.
Qed.

(** A history: router 1.2 is heard, lists us, omits us, lists us, times out. *)
Definition cfgx : lcfg := {| l_id := 1025; l_l2 := false; l_prio := 64; l_nr := 2 |}.
Definition hx (id prio : Z) (rs : list (Z * Z)) : lev := EvRouter id NL1 prio 591 rs false.
Example two_way_example : exists s1 s2 s3 s4 s5 o1 o2 o3 o4 o5,
  lsteps cfgx lstart [hx 1026 10 []] = Ok (s1, o1) /\ option_map a_up (ent s1 1026) = Some false /\
  lstep cfgx s1 (hx 1026 10 [(1030, 5); (1025, 64)]) = Ok (s2, o2) /\ option_map a_up (ent s2 1026) = Some true /\ In (LUp 1026 NL1) o2 /\
  lstep cfgx s2 (hx 1026 10 [(1030, 5)]) = Ok (s3, o3) /\ option_map a_up (ent s3 1026) = Some false /\ In (LDown 1026 NL1) o3 /\
  lstep cfgx s3 (hx 1026 10 [(1025, 64)]) = Ok (s4, o4) /\ option_map a_up (ent s4 1026) = Some true /\
  lstep cfgx s4 (EvTimeout 0) = Ok (s5, o5) /\ ent s5 1026 = None.
Proof.
  eexists _, _, _, _, _, _, _, _, _, _. split; [vm_compute; reflexivity|]. split; [reflexivity|]. split; [vm_compute; reflexivity|]. split; [reflexivity|]. split; [cbn; auto|].
  split; [vm_compute; reflexivity|]. split; [reflexivity|]. split; [cbn; auto|]. split; [vm_compute; reflexivity|]. split; [reflexivity|]. split; [vm_compute; reflexivity|reflexivity].
Qed.
(** A full list (two routers): 1.5 with priority 10 displaces 1.2 with priority
    3, and 1.6 with priority 1 does not get in. *)
Definition fx (id : Z) : ntype * Z := (NL1, if id =? 1026 then 3 else if id =? 1027 then 20 else if id =? 1029 then 10 else 1).
Example router_list_example : exists s o, lsteps cfgx lstart [hx 1026 3 []; hx 1027 20 []; hx 1029 10 []; hx 1030 1 []; hx 1026 3 []] = Ok (s, o) /\
  map fst (tab s) = [1027; 1029] /\ Forall (steady fx) [hx 1026 3 []; hx 1027 20 []; hx 1029 10 []; hx 1030 1 []; hx 1026 3 []].
Proof.
  eexists _, _. split; [vm_compute; reflexivity|]. split; [reflexivity|]. repeat constructor; discriminate.
Qed.

(** A hello from area 2 is out of scope; a hello of a new router that lists us;
    the same hello again is quiet. *)
Example scope_example : exists s1 o1 s2,
  ~ in_scope cfgx 2050 NL1 /\ in_scope cfgx 1026 NL1 /\ ent lstart 1026 = None /\
  lstep cfgx lstart (hx 1026 10 [(1025, 64)]) = Ok (s1, o1) /\ In (LUp 1026 NL1) o1 /\ In LNewHello o1 /\ option_map a_up (ent s1 1026) = Some true /\
  lstep cfgx s1 (hx 1026 10 [(1025, 64)]) = Ok (s2, []).
Proof.
  eexists _, _, _. split; [intros [X|[X _]]; vm_compute in X; discriminate|]. split; [left; reflexivity|]. split; [reflexivity|].
  split; [vm_compute; reflexivity|]. split; [cbn; auto|]. split; [cbn; auto|]. split; vm_compute; reflexivity.
Qed.

(** * What does not hold *)
(** An adjacency whose hellos never listed us has no listen timer: a router that
    was heard once stays in the list, and stays designated router, whatever
    timers expire. *)
Definition timer_event (e : lev) : Prop := match e with EvTimeout _ | EvDrTimer | EvHelloTimer => True | _ => False end.
Definition silent_obj : ladj := {| a_id := 1026; a_type := NL1; a_prio := 100; a_blk := 591; a_up := false; a_tmr := false |}.
Definition silent_state (s : lst) : Prop := objs s = [(0, silent_obj)] /\ tab s = [(1026, 0)] /\ dr s = DrAdj 0 /\ isdr s = false /\ drt s = false.
Theorem silent_router_refuted : exists s0 o0, lsteps cfgx lstart [hx 1026 100 []] = Ok (s0, o0) /\
  forall l, Forall timer_event l -> exists s o, lsteps cfgx s0 l = Ok (s, o) /\ ent s 1026 = Some silent_obj /\ dr s = DrAdj 0 /\ isdr s = false.
Proof.
  eexists _, _. split; [vm_compute; reflexivity|].
  assert (X : forall l s, silent_state s -> Forall timer_event l -> exists s' o, lsteps cfgx s l = Ok (s', o) /\ silent_state s').
  { induction l as [|e l IH]; intros s S F; [exists s, []; auto|]. inversion F as [|? ? F1 F2]; subst. destruct S as (S1 & S2 & S3 & S4 & S5).
    assert (Y : exists o, lstep cfgx s e = Ok (s, o)).
    { destruct s as [so st sn sd si sx sb]. cbn in S1, S2, S3, S4, S5. subst. destruct e; cbn [timer_event] in F1; try contradiction; cbn [lstep].
      - assert (Q : a_tmr (get_obj {| objs := [(0, silent_obj)]; tab := [(1026, 0)]; nxt := sn; dr := DrAdj 0; isdr := false; drt := false; blk := sb |} ser) = false).
        { unfold get_obj. cbn [objs dget]. destruct (ser =? 0); reflexivity. }
        rewrite Q. eauto.
      - cbn [drt]. eauto.
      - eexists. cbn. reflexivity. }
    destruct Y as (o & Y). cbn [lsteps]. rewrite Y. cbn [bind]. destruct (IH s) as (s' & o' & H1 & H2); [repeat split; auto|auto|]. rewrite H1. cbn [bind]. eauto. }
  intros l F. match goal with |- exists s o, lsteps cfgx ?s0 l = _ /\ _ => destruct (X l s0) as (s & o & H & S1 & S2 & S3 & S4 & S5); [repeat split|auto|] end.
  exists s, o. split; [exact H|]. unfold ent. rewrite S1, S2. auto.
Qed.
(** A deleted adjacency that was not up keeps its listen timer: when it expires,
    the new adjacency of the node is deleted although its hellos keep coming. *)
Theorem orphan_timer_refuted : exists s o s' o',
  lsteps cfgx lstart [hx 1026 10 []; hx 1026 10 []; hx 1026 20 [(1025, 64)]; hx 1026 20 [(1025, 64)]] = Ok (s, o) /\ option_map a_up (ent s 1026) = Some true /\
  dget Z.eqb (tab s) 1026 = Some 1 /\ lstep cfgx s (EvTimeout 0) = Ok (s', o') /\ ent s' 1026 = None /\ a_tmr (get_obj s' 1) = true.
Proof. eexists _, _, _, _. split; [vm_compute; reflexivity|]. split; [reflexivity|]. split; [reflexivity|]. split; [vm_compute; reflexivity|]. split; reflexivity. Qed.
(** A timeout of an up adjacency tells routing twice, and of one that was never
    up once. *)
Theorem timeout_tells_twice_refuted : exists s o s' n, lsteps cfgx lstart [hx 1026 10 [(1025, 64)]] = Ok (s, o) /\
  lstep cfgx s (EvTimeout 0) = Ok (s', [LDown 1026 NL1; LEvDown 1026; LDown 1026 NL1; n]).
Proof. eexists _, _, _, _. split; vm_compute; reflexivity. Qed.
Theorem timeout_never_up_refuted : exists s o s' o', lsteps cfgx lstart [hx 1026 10 []; hx 1026 10 []] = Ok (s, o) /\ option_map a_up (ent s 1026) = Some false /\
  lstep cfgx s (EvTimeout 0) = Ok (s', o') /\ In (LDown 1026 NL1) o'.
Proof. eexists _, _, _, _. split; [vm_compute; reflexivity|]. split; [reflexivity|]. split; [vm_compute; reflexivity|]. cbn. auto. Qed.
(** A hello with an undecodable router list, or with our priority wrong, raises
    an exception that nothing catches. *)
Theorem hello_crash_refuted : lstep cfgx lstart (EvRouter 1026 NL1 10 591 [] true) = Err EDecode /\ lstep cfgx lstart (hx 1026 10 [(1025, 63)]) = Err EName.
Proof. split; vm_compute; reflexivity. Qed.
(** Two routers with the same address and priority: neither is designated router. *)
Theorem dr_same_address_refuted : exists s o, lsteps cfgx lstart [hx 1025 64 []; EvHelloTimer; EvDrTimer] = Ok (s, o) /\ isdr s = false /\ dr s = DrAdj 0.
Proof. eexists _, _. split; [vm_compute; reflexivity|]. split; reflexivity. Qed.
(** A router hello with the Phase II type gives an adjacency that is up and
    never times out. *)
Theorem phase2_hello_refuted : exists s o, lsteps cfgx lstart [EvRouter 1026 NPh2 10 591 [(1025, 64)] false] = Ok (s, o) /\ exists a, ent s 1026 = Some a /\ a_up a = true /\ a_tmr a = false.
Proof. eexists _, _. split; [vm_compute; reflexivity|]. eexists. split; [vm_compute; reflexivity|]. split; reflexivity. Qed.

Print Assumptions dr_is_greatest.
Print Assumptions dr_after_delay.
Print Assumptions dr_election.
Print Assumptions router_list_bound.
Print Assumptions router_displaces_least.
Print Assumptions router_list_is_top.
Print Assumptions two_way_history.
Print Assumptions omitted_goes_down.
Print Assumptions up_is_timed.
Print Assumptions timeout_goes_down.
Print Assumptions routing_is_told.
Print Assumptions packets_from_up.
Print Assumptions silent_router_refuted.
Print Assumptions foreign_hello_ignored.
Print Assumptions listed_hello_up.
Print Assumptions known_hello_quiet.
Print Assumptions dr_needs_start.
