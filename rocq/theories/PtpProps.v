(** C29: the point to point circuit. *)
From Verif Require Import Base RoutingModel PtpModel.
From Coq Require Import ZifyBool.

(** * Specification *)
(** The packet the state method gets from an event. *)
Definition arrives (s : ps) (e : pev) (p : pkt) : Prop :=
  match e with
  | ERecv (OPkt q) _ _ _ => q = p /\ takes (st s) p = true
  | EParsed q _ _ => q = p
  | _ => False
  end.
(** An init message acceptable to this node, from neighbour [i] of phase [r]. *)
Definition good_init (C : pcfg) (p : pkt) (i r : Z) : Prop :=
  match p with
  | PInit4 src t blo _ =>
      4 <= c_phase C /\ t <> NPh2 /\ blo = false /\ i = src /\ r = 4 /\ src mod 1024 <> 0 /\
      (is_router (c_type C) = true -> src mod 1024 <= c_maxnodes C) /\
      (if is_l2 t && is_l2 (c_type C) then 1 <= src / 1024 <= c_maxarea C else src / 1024 = c_area C)
  | PInit3 src t blk _ =>
      3 <= c_phase C /\ (t = NEnd \/ t = NL1) /\ src <> 0 /\ r = 3 /\
      (is_router (c_type C) = true -> src <= c_maxnodes C) /\
      (t = NL1 -> is_router (c_type C) = true -> c_maxnodes C * 2 + 6 <= blk) /\
      i = (if c_phase C =? 4 then c_area C * 1024 else 0) + src mod 1024
  | PNodeInit src name _ =>
      src <> 0 /\ r = 2 /\ (is_router (c_type C) = true -> src <= c_maxnodes C) /\ c_name C name = Some i
  | _ => False
  end.
(** A verification message from neighbour [i] of phase [r] with the password
    configured for it.  Phase II passwords are 8 bytes, padded with zeros. *)
Definition good_verify (C : pcfg) (p : pkt) (i r : Z) : Prop :=
  match p with
  | PVerify src v => r <> 2 /\ src = (if r =? 4 then i else i mod 1024) /\ c_iverif C i = Some v
  | PNodeVerify v => r = 2 /\ exists x, c_iverif C i = Some x /\ v = firstn 8 (x ++ repeat 0 7)
  | _ => False
  end.
Definition verifying (x : pstate) : bool := match x with SRv | SRv2 => true | _ => false end.
(** All states passed while taking the events [l], from [s], satisfy [f]. *)
Definition along (C : pcfg) (f : pstate -> bool) (s : ps) (l : list pev) : Prop :=
  forall l1 l2 s1 o1, l = l1 ++ l2 -> psteps C s l1 = Ok (s1, o1) -> f (st s1) = true.

(** * Running *)
Lemma psteps_app : forall C l1 l2 s s' o, psteps C s (l1 ++ l2) = Ok (s', o) ->
  exists s1 o1 o2, psteps C s l1 = Ok (s1, o1) /\ psteps C s1 l2 = Ok (s', o2) /\ o = o1 ++ o2.
Proof.
  induction l1 as [|e t IH]; intros l2 s s' o H.
  - exists s, [], o. repeat split; auto.
  - cbn [app psteps] in H |- *. apply bind_ok in H. destruct H as [[s1 o1] [E H]]. rewrite E. cbn [bind].
    apply bind_ok in H. destruct H as [[s2 o2] [E2 H]]. inversion H; subst.
    destruct (IH _ _ _ _ E2) as [s3 [o3 [o4 [A [B D]]]]]. rewrite A. cbn [bind]. subst.
    exists s3, (o1 ++ o3), o4. repeat split; auto. rewrite app_assoc. auto.
Qed.
Lemma psteps_glue : forall C l1 l2 s s1 o1 s2 o2, psteps C s l1 = Ok (s1, o1) -> psteps C s1 l2 = Ok (s2, o2) ->
  psteps C s (l1 ++ l2) = Ok (s2, o1 ++ o2).
Proof.
  induction l1 as [|e t IH]; intros l2 s s1 o1 s2 o2 A B.
  - inversion A; subst. auto.
  - cbn [app psteps] in A |- *. apply bind_ok in A. destruct A as [[s3 o3] [E A]]. rewrite E. cbn [bind].
    apply bind_ok in A. destruct A as [[s4 o4] [E2 A]]. inversion A; subst. rewrite (IH _ _ _ _ _ _ E2 B). cbn [bind].
    rewrite app_assoc. auto.
Qed.
Lemma psteps_snoc : forall C l e s s' o, psteps C s (l ++ [e]) = Ok (s', o) ->
  exists s1 o1 o2, psteps C s l = Ok (s1, o1) /\ pstep C s1 e = Ok (s', o2) /\ o = o1 ++ o2.
Proof.
  intros C l e s s' o H. destruct (psteps_app _ _ _ _ _ _ H) as [s1 [o1 [o2 [A [B D]]]]].
  exists s1, o1, o2. split; [auto|]. split; [|auto]. cbn [psteps] in B. apply bind_ok in B. destruct B as [[s3 o3] [E B]].
  cbn [bind] in B. inversion B; subst. rewrite app_nil_r. auto.
Qed.
(** * Steps *)
Lemma restart_st : forall C s, st (fst (restart C s)) = SDs.
Proof. intros C s. unfold restart. destruct (running (st s) && adj s); reflexivity. Qed.
Lemma down_st : forall C s, st (fst (circuit_down C s)) = SDs \/ fst (circuit_down C s) = s /\ st s = SHa.
Proof. intros C s. unfold circuit_down. destruct (st s) eqn:E; auto; left; apply restart_st. Qed.
Lemma rustate_running : forall C s, running (rustate C s) = true.
Proof. intros C s. unfold rustate. destruct (rph s =? 4), (c_type C), (nty s) as [[]|]; reflexivity. Qed.
(** The result of an accepted init. *)
Definition quiet (o : list pout) : Prop := forall x, In x o -> match x with PUp _ | PDown _ | PPass _ => False | _ => True end.
Definition upped (o : list pout) : Prop := forall x, In x o -> match x with PDown _ | PPass _ => False | _ => True end.
Record inited (C : pcfg) (p : pkt) (s' : ps) (o : list pout) : Prop := {
  in_good : good_init C p (nid s') (rph s');
  in_adj : adj s' = true;
  in_out : upped o;
  in_no : c_verify C = false -> running (st s') = true /\ In (PUp (nid s')) o /\ (tmr s' = true \/ nty s' = Some NPh2) /\ nrec s' = Some 0 /\
            (rph s' = 2 <-> st s' = SRu2);
  in_yes : c_verify C = true -> st s' = (if rph s' =? 2 then SRv2 else SRv) /\ pw s' = c_iverif C (nid s') /\ tmr s' = false /\ quiet o }.
Lemma restart_quiet : forall C s, running (st s) = false -> quiet (snd (restart C s)).
Proof.
  intros C s E x H. unfold restart in H. rewrite E in H. cbn in H. destruct H as [<-|[]]. destruct (c_works C); exact I.
Qed.
Lemma quiet_app : forall a b, quiet a -> quiet b -> quiet (a ++ b).
Proof. intros a b A B x H. apply in_app_iff in H. destruct H as [H|H]; [exact (A x H)|exact (B x H)]. Qed.
Lemma quiet_upped : forall a, quiet a -> upped a.
Proof. intros a A x H. specialize (A x H). destruct x; auto. Qed.
Lemma upped_app : forall a b, upped a -> upped b -> upped (a ++ b).
Proof. intros a b A B x H. apply in_app_iff in H. destruct H as [H|H]; [exact (A x H)|exact (B x H)]. Qed.
Lemma one_upped : forall i, upped [PUp i].
Proof. intros i x [<-|[]]. exact I. Qed.
Lemma send_quiet : forall s x, quiet (snd (dlsend s x)).
Proof. intros s x y H. cbn in H. destruct H as [<-|[]]. exact I. Qed.
Lemma nil_quiet : quiet [].
Proof. intros x []. Qed.
Lemma ru_not2 : forall C s, rustate C s <> SRu2.
Proof. intros C s. unfold rustate. destruct (rph s =? 4), (c_type C), (nty s) as [[]|]; discriminate. Qed.
Lemma init34_spec : forall C s i r t v o p s' o', init34 C s i r t v o = (s', o') -> quiet o -> t <> NPh2 -> r <> 2 -> good_init C p i r -> inited C p s' o'.
Proof.
  intros C s i r t v o p s' o' H Q T R G. unfold init34, dlsend in H.
  assert (X : forall s2 o2, nid s2 = i -> rph s2 = r -> nty s2 = Some t -> quiet o2 ->
     (if c_verify C then (withst (withpw (withadj s2 true false) (c_iverif C i)) SRv, o ++ o2)
      else let '(s4, o4) := p_up (withadj s2 true false) in (withst s4 (rustate C s4), o ++ o2 ++ o4)) = (s', o') -> inited C p s' o').
  { intros s2 o2 A B D Q2 X. destruct (c_verify C) eqn:V.
    - inversion X; subst s' o'. split; cbn [withst withpw withadj withnrec nid rph adj pw tmr nrec nty st]; rewrite ?A, ?B; auto; try (now repeat apply upped_app; auto using quiet_upped, one_upped); intros V1; try congruence.
      rewrite (proj2 (Z.eqb_neq r 2)) by auto. repeat split; auto using quiet_app.
    - unfold p_up in X. inversion X; subst s' o'. split; cbn [withst withpw withadj withnrec nid rph adj pw tmr nrec nty st]; rewrite ?A, ?B; auto; try (now repeat apply upped_app; auto using quiet_upped, one_upped); intros V1; try congruence.
      split; [apply rustate_running|]. split; [rewrite !in_app_iff; right; right; left; auto|].
      split; [left; rewrite D; destruct t; auto; congruence|]. split; [auto|]. split; [congruence|]. intros Y. destruct (ru_not2 _ _ Y). }
  destruct v; eapply X; [| | | | exact H | | | | | exact H]; try reflexivity; [apply send_quiet with (s := s) (x := SVerify (password (c_overif C i)))|apply nil_quiet].
Qed.
Lemma quiet_snoc_if : forall (b : bool) s x, quiet (snd (if b then dlsend s x else (s, []))).
Proof. intros [|] s x; [apply send_quiet|apply nil_quiet]. Qed.
Lemma ri_init4_spec : forall C s src t blo v s' o, ri_init4 C s src t blo v = (s', o) -> st s = SRi ->
  (s' = s /\ o = []) \/ (st s' = SDs /\ tmr s' = tmr s /\ quiet o) \/ inited C (PInit4 src t blo v) s' o.
Proof.
  intros C s src t blo v s' o H E. unfold ri_init4 in H.
  destruct (c_phase C <? 4) eqn:P; [inversion H; auto|].
  assert (R : restart C s = (s', o) -> st s' = SDs /\ tmr s' = tmr s /\ quiet o).
  { intros X. assert (running (st s) = false) as F by (rewrite E; auto). pose proof (restart_quiet C s F). pose proof (restart_st C s). rewrite X in *.
    split; [auto|]. split; [|auto]. unfold restart in X. rewrite F in X. inversion X; auto. }
  destruct ((match t with NPh2 => true | _ => false end) || blo) eqn:T; [auto|]. cbv zeta in H.
  match type of H with (if ?c then _ else _) = _ => destruct c eqn:D end; [auto|].
  right; right. rewrite !orb_false_iff, !andb_false_iff, !negb_false_iff, !orb_false_iff, !negb_false_iff in D.
  apply orb_false_iff in T. destruct T as [T1 T2]. destruct D as [[[D1 D2] D3] D4].
  eapply init34_spec; [exact H|apply nil_quiet|intros ->; discriminate|lia|]. cbn.
  assert (t <> NPh2) by (intros ->; discriminate). unfold isrouter in D2.
  split; [lia|]. split; [auto|]. split; [auto|]. split; [auto|]. split; [auto|]. split; [lia|]. split; [intros R1; destruct D2; [congruence|lia]|].
  destruct (is_l2 t), (is_l2 (c_type C)); cbn [andb]; try (destruct D4 as [[? ?]|]; [try congruence|lia]).
  destruct D3 as [[|]|D3]; try congruence. lia.
Qed.
Lemma ri_init3_spec : forall C s src t blk v s' o, ri_init3 C s src t blk v = (s', o) -> st s = SRi ->
  (s' = s /\ o = []) \/ (st s' = SDs /\ tmr s' = tmr s /\ quiet o) \/ inited C (PInit3 src t blk v) s' o.
Proof.
  intros C s src t blk v s' o H E. unfold ri_init3 in H.
  destruct (c_phase C <? 3) eqn:P; [inversion H; auto|].
  assert (R : restart C s = (s', o) -> st s' = SDs /\ tmr s' = tmr s /\ quiet o).
  { intros X. assert (running (st s) = false) as F by (rewrite E; auto). pose proof (restart_quiet C s F). pose proof (restart_st C s). rewrite X in *.
    split; [auto|]. split; [|auto]. unfold restart in X. rewrite F in X. inversion X; auto. }
  destruct (negb _) eqn:T in H; [auto|].
  destruct ((src =? 0) || (isrouter C && (c_maxnodes C <? src))) eqn:D1; [auto|].
  match type of H with (if ?c then _ else _) = _ => destruct c eqn:D end; [auto|]. right; right.
  assert (TT : t = NEnd \/ t = NL1) by (destruct t; auto; discriminate).
  apply orb_false_iff in D1. destruct D1 as [D1 D2]. apply andb_false_iff in D2. unfold isrouter in *.
  assert (G : good_init C (PInit3 src t blk v) (if c_phase C =? 4 then c_area C * 1024 + src mod 1024 else src mod 1024) 3).
  { cbn. split; [lia|]. split; [auto|]. split; [lia|]. split; [auto|]. split; [intros R1; destruct D2; [congruence|lia]|].
    split; [|destruct (c_phase C =? 4); lia]. intros -> R1. rewrite R1 in D. cbn in D. lia. }
  assert (t <> NPh2) by (destruct TT; congruence).
  destruct (3 <? c_phase C); cbn [dlsend] in H; (eapply init34_spec; [exact H| |auto|lia|exact G]); [apply send_quiet with (s := s) (x := SInit3)|apply nil_quiet].
Qed.
Lemma ri_node_spec : forall C s src name v s' o, ri_node C s src name v = (s', o) -> st s = SRi ->
  (st s' = SDs /\ tmr s' = tmr s /\ quiet o) \/ inited C (PNodeInit src name v) s' o.
Proof.
  intros C s src name v s' o H E. unfold ri_node in H.
  assert (R : forall s0 x y, st s0 = SRi -> restart C s0 = (x, y) -> st x = SDs /\ tmr x = tmr s0 /\ quiet y).
  { intros s0 x y E0 X. assert (running (st s0) = false) as F by (rewrite E0; auto). pose proof (restart_quiet C s0 F). pose proof (restart_st C s0). rewrite X in *.
    split; [auto|]. split; [|auto]. unfold restart in X. rewrite F in X. inversion X; auto. }
  destruct ((src =? 0) || _) eqn:D1 in H; [left; eauto|].
  apply orb_false_iff in D1. destruct D1 as [D1 D2]. apply andb_false_iff in D2. unfold isrouter in *.
  assert (X : forall s1 o1, st s1 = SRi -> tmr s1 = tmr s -> quiet o1 ->
    match c_name C name with
    | None => let '(s2, o2) := restart C (withneigh s1 (nid s1) 2 (Some NPh2)) in (s2, o1 ++ o2)
    | Some i =>
      let s2 := withadj (withneigh s1 i 2 (Some NPh2)) true false in
      let '(s3, o3) := if v then dlsend s2 (SVerify2 (password (c_overif C i))) else (s2, []) in
      if c_verify C then (withst (withpw s3 (c_iverif C i)) SRv2, o1 ++ o3)
      else let '(s4, o4) := p_up s3 in (withst s4 SRu2, o1 ++ o3 ++ o4)
    end = (s', o) -> (st s' = SDs /\ tmr s' = tmr s /\ quiet o) \/ inited C (PNodeInit src name v) s' o).
  { clear H. intros s1 o1 S1 T1 Q1 H. destruct (c_name C name) as [i|] eqn:N.
    - right. cbv zeta in H.
      assert (Y : forall s3 o3, nid s3 = i -> rph s3 = 2 -> nty s3 = Some NPh2 -> adj s3 = true -> tmr s3 = false -> quiet o3 ->
         (if c_verify C then (withst (withpw s3 (c_iverif C i)) SRv2, o1 ++ o3) else let '(s4, o4) := p_up s3 in (withst s4 SRu2, o1 ++ o3 ++ o4)) = (s', o) ->
         inited C (PNodeInit src name v) s' o).
      { clear H. intros s3 o3 A B T AD TM Q3 H.
        assert (G : good_init C (PNodeInit src name v) (nid s3) (rph s3)).
        { cbn. rewrite A, B. split; [lia|]. split; [auto|]. split; [intros R1; destruct D2; [congruence|lia]|auto]. }
        destruct (c_verify C) eqn:V.
        - inversion H; subst s' o. split; [exact G|exact AD|now repeat apply upped_app; auto using quiet_upped|intros; congruence|]. cbn. intros _. rewrite A, B. repeat split; auto using quiet_app.
        - unfold p_up in H. inversion H; subst s' o. split; [exact G|reflexivity|now repeat apply upped_app; auto using quiet_upped, one_upped| |intros; congruence]. cbn. intros _. split; [auto|].
          split; [rewrite !in_app_iff; right; right; left; auto|]. split; [auto|]. split; [auto|]. rewrite B. split; auto. }
      destruct v; eapply Y; [| | | | | |exact H| | | | | | |exact H]; try reflexivity; [apply send_quiet with (s := s) (x := SVerify2 (password (c_overif C i)))|apply nil_quiet].
    - left. destruct (restart C _) as [x y] eqn:R1 in H. inversion H; subst s' o. apply R in R1; [|auto]. destruct R1 as [A [B D]].
      split; [auto|]. split; [rewrite B; auto|]. apply quiet_app; auto. }
  destruct (2 <? c_phase C); [refine (X (fst (dlsend s SInit2)) (snd (dlsend s SInit2)) _ _ _ H)|refine (X s [] _ _ _ H)]; auto; [apply send_quiet|apply nil_quiet].
Qed.
Definition pinv (s : ps) : Prop :=
  (running (st s) = true -> adj s = true /\ (tmr s = true \/ nty s = Some NPh2) /\ nrec s <> None) /\
  (running (st s) = false -> tmr s = false).
(** What a step can do: stay, with the same neighbour; take the circuit down,
    telling routing if it was running; accept an init; accept a verification. *)
Inductive ptrans (C : pcfg) (s : ps) (e : pev) (s' : ps) (o : list pout) : Prop :=
  | TStay : st s' = st s -> (running (st s) || verifying (st s) = true -> nid s' = nid s /\ rph s' = rph s /\ pw s' = pw s) ->
      (forall i, ~ In (PUp i) o /\ ~ In (PDown i) o) -> (forall p, In (PPass p) o -> running (st s) = true /\ arrives s e p) ->
      ptrans C s e s' o
  | TOff : running (st s') = false -> verifying (st s') = false -> (running (st s) = true -> In (PDown (nid s)) o) ->
      (forall i, ~ In (PUp i) o /\ (In (PDown i) o -> running (st s) = true)) -> (forall p, ~ In (PPass p) o) ->
      ptrans C s e s' o
  | TInit : forall p, st s = SRi -> arrives s e p -> inited C p s' o -> ptrans C s e s' o
  | TVer : forall p v, verifying (st s) = true -> arrives s e p -> pw s = Some v -> running (st s') = true -> nid s' = nid s -> rph s' = rph s ->
      match p with
      | PVerify src w => st s = SRv /\ checksrc s src = true /\ w = v
      | PNodeVerify w => st s = SRv2 /\ w = firstn 8 (v ++ repeat 0 7)
      | _ => False
      end -> In (PUp (nid s)) o -> (forall i, ~ In (PDown i) o) -> (forall q, ~ In (PPass q) o) -> ptrans C s e s' o.
Lemma restart_trans : forall C s e s' o x, restart C s = (s', o) -> pinv s -> quiet x -> ptrans C s e s' (o ++ x) /\ pinv s'.
Proof.
  intros C s e s' o x H [I1 I2] Q. unfold restart in H.
  assert (W : forall i, ~ In (PUp i) [if c_works C then PDlRestart else PQueueUp] /\ ~ In (PDown i) [if c_works C then PDlRestart else PQueueUp]) by
    (intros i; destruct (c_works C); cbn; split; intros [?|[]]; discriminate).
  assert (W2 : forall p, ~ In (PPass p) [if c_works C then PDlRestart else PQueueUp]) by (intros i; destruct (c_works C); cbn; intros [?|[]]; discriminate).
  destruct (running (st s)) eqn:R.
  - destruct (I1 eq_refl) as [A _]. rewrite A in H. cbn in H. inversion H; subst s' o.
    split.
    + apply TOff; try reflexivity.
      * intros _. cbn. left. auto.
      * intros i. split; [|auto]. cbn. intros [Y|[Y|Y]]; [discriminate| |exact (Q _ Y)]. apply (proj1 (W i)). left. auto.
      * intros p. cbn. intros [Y|[Y|Y]]; [discriminate| |exact (Q _ Y)]. apply (W2 p). left. auto.
    + split; cbn; auto. intros; discriminate.
  - cbn in H. inversion H; subst s' o. split.
    + apply TOff; try reflexivity.
      * intros Y. congruence.
      * intros i. cbn. split; intros [Y|Y]; try (destruct (Q _ Y)); exfalso; [apply (proj1 (W i))|apply (proj2 (W i))]; left; auto.
      * intros p. cbn. intros [Y|Y]; [|exact (Q _ Y)]. apply (W2 p). left. auto.
    + split; cbn; [intros; discriminate|auto].
Qed.
Lemma restart_trans0 : forall C s e, pinv s -> ptrans C s e (fst (restart C s)) (snd (restart C s)) /\ pinv (fst (restart C s)).
Proof.
  intros C s e I. destruct (restart C s) as [s' o] eqn:H. pose proof (restart_trans C s e s' o [] H I nil_quiet) as X. rewrite app_nil_r in X. exact X.
Qed.
Lemma quiet_outs : forall o, quiet o -> (forall i, ~ In (PUp i) o /\ ~ In (PDown i) o) /\ (forall p, ~ In (PPass p) o).
Proof. intros o Q. split; [intros i; split|intros p]; intros H; exact (Q _ H). Qed.
Lemma stay : forall C s e s' o, pinv s -> st s' = st s -> nid s' = nid s -> rph s' = rph s -> pw s' = pw s -> adj s' = adj s -> tmr s' = tmr s -> nty s' = nty s ->
  (nrec s <> None -> nrec s' <> None) -> quiet o -> ptrans C s e s' o /\ pinv s'.
Proof.
  intros C s e s' o [I1 I2] E1 E2 E3 E4 E5 E6 E7 E8 Q. destruct (quiet_outs _ Q) as [Q1 Q2]. split.
  - apply TStay; auto. intros p H. destruct (Q2 _ H).
  - unfold pinv. rewrite E1, E5, E6, E7. split; [|auto]. intros R. destruct (I1 R) as [A [B D]]. auto.
Qed.
Lemma neigh_trans : forall C s e, st s = SDs \/ st s = SHa -> pinv s ->
  (forall s' o, ptrans C (r_neigh s) e s' o /\ pinv s' -> running (st s') = false -> verifying (st s') = false -> ptrans C s e s' o /\ pinv s').
Proof.
  intros C s e E I s' o [T P] R V. split; [|auto].
  assert (F : running (st s) = false /\ verifying (st s) = false) by (destruct E as [-> | ->]; auto). destruct F as [F1 F2].
  inversion T as [A B D H|A B D H H1|p A B D|p v A B]; subst.
  - apply TOff; auto; try congruence; [intros i; split; [apply D|intros X; destruct (D i); contradiction]|].
    intros p X. destruct (H _ X) as [Y _]. cbn in Y. congruence.
  - apply TOff; auto; try congruence.
  - cbn in A. destruct E; congruence.
  - cbn in A. congruence.
Qed.
Lemma pinv_neigh : forall s, st s = SDs \/ st s = SHa -> pinv s -> pinv (r_neigh s).
Proof. intros s E [I1 I2]. split; cbn; [|auto]. destruct E as [-> | ->]; discriminate. Qed.
Lemma down_trans : forall C s e x, pinv s -> quiet x -> ptrans C s e (fst (circuit_down C s)) (snd (circuit_down C s) ++ x) /\ pinv (fst (circuit_down C s)).
Proof.
  intros C s e x I Q. unfold circuit_down.
  assert (K : ptrans C s e (fst (restart C s)) (snd (restart C s) ++ x) /\ pinv (fst (restart C s))).
  { destruct (restart C s) as [s' o] eqn:H. exact (restart_trans C s e s' o x H I Q). }
  destruct (st s) eqn:E; try exact K.
  - cbn. apply stay; auto.
  - clear K. apply (neigh_trans C s e (or_introl E) I); [|rewrite restart_st; auto|rewrite restart_st; auto].
    destruct (restart C (r_neigh s)) as [s' o] eqn:H. apply (restart_trans C (r_neigh s) e s' o x H); [|auto]. apply pinv_neigh; auto.
Qed.
Lemma inited_trans : forall C s e p s' o, st s = SRi -> arrives s e p -> inited C p s' o ->
  ptrans C s e s' o /\ pinv s'.
Proof.
  intros C s e p s' o E A I. split; [eapply TInit; eauto|]. destruct I as [G AD U X Y]. destruct (c_verify C).
  - destruct (Y eq_refl) as [Y1 [Y2 [Y3 Y4]]]. split; [|auto]. rewrite Y1. destruct (rph s' =? 2); discriminate.
  - destruct (X eq_refl) as [X1 [X2 [X3 [X4 X5]]]]. split; [intros _|congruence]. rewrite X4. split; [auto|]. split; [auto|discriminate].
Qed.
Lemma ru_trans : forall C s e p s' o, running (st s) = true -> st s <> SRu2 -> pinv s -> arrives s e p -> ru C s p = (s', o) -> ptrans C s e s' o /\ pinv s'.
Proof.
  intros C s e p s' o R N [I1 I2] A H. destruct (I1 R) as [AD [TM NR]]. unfold ru in H.
  set (s1 := withadj _ _ _) in H.
  assert (S1 : st s1 = st s /\ nid s1 = nid s /\ rph s1 = rph s /\ pw s1 = pw s) by (cbn; auto). destruct S1 as [S1 [S2 [S3 S4]]].
  assert (J : pinv s1).
  { split; [intros _|rewrite S1; congruence]. split; [exact AD|]. split; [|cbn; destruct (nrec s); congruence].
    cbn. destruct (nty s) as [[]|]; auto. }
  assert (R1 : restart C s1 = (s', o) -> ptrans C s e s' o /\ pinv s').
  { intros X. pose proof (restart_trans0 C s1 e J) as [T P]. rewrite X in T, P. cbn [fst snd] in T, P. split; [|auto].
    pose proof (restart_st C s1) as Y. rewrite X in Y. cbn in Y.
    inversion T as [B1 B2 B3 B4|B1 B2 B3 B4 B5|q B1 B2 B3|q v B1 B2 B3 B4]; subst.
    - rewrite Y, S1 in B1. rewrite <- B1 in R. discriminate.
    - rewrite S1, S2 in *. apply TOff; auto.
    - rewrite S1 in B1. rewrite B1 in R. discriminate.
    - rewrite Y in B4. discriminate. }
  assert (R2 : (s1, [PPass p]) = (s', o) -> ptrans C s e s' o /\ pinv s').
  { intros X. inversion X; subst s' o. split; [|auto]. apply TStay; auto.
    - intros i. cbn. split; intros [?|[]]; discriminate.
    - intros q [Y|[]]. inversion Y; subst. auto. }
  assert (R3 : (s1, []) = (s', o) -> ptrans C s e s' o /\ pinv s').
  { intros X. inversion X; subst s' o. split; [|auto]. apply TStay; auto. intros q []. }
  destruct (ctl_src p) as [a|]; [|auto].
  destruct (negb (checksrc s1 a)); [auto|]. destruct p; auto. destruct testok; auto.
Qed.
Lemma ru2_trans : forall C s e p i j s' o, st s = SRu2 -> pinv s -> arrives s e p -> ru2 s p i j = (s', o) -> ptrans C s e s' o /\ pinv s'.
Proof.
  intros C s e p i j s' o E I A H. unfold ru2 in H. set (s1 := withnrec _ _) in H.
  assert (N : nrec s <> None -> nrec s1 <> None) by (cbn; destruct (nrec s); congruence).
  assert (R2 : (s1, [PPass p]) = (s', o) -> ptrans C s e s' o /\ pinv s').
  { intros X. inversion X; subst s' o. destruct (stay C s e s1 [] I) as [T P]; auto using nil_quiet. split; [|auto].
    apply TStay; auto.
    - intros k. cbn. split; intros [?|[]]; discriminate.
    - intros q [Y|[]]. inversion Y; subst. rewrite E. auto. }
  assert (R3 : (s1, []) = (s', o) -> ptrans C s e s' o /\ pinv s') by (intros X; inversion X; subst s' o; apply stay; auto using nil_quiet).
  assert (R4 : dlsend s1 SIntercept = (s', o) -> ptrans C s e s' o /\ pinv s').
  { intros X. pose proof (send_quiet s1 SIntercept) as Q. rewrite X in Q. inversion X; subst s' o. apply stay; auto. }
  destruct p; auto; destruct i; auto; destruct j; auto.
Qed.
Lemma p_up_spec : forall C s e p v f s' o, (let '(s1, o1) := p_up s in Ok (withst s1 (f s1), o1)) = Ok (s', o) -> (forall x, running (f x) = true) ->
  verifying (st s) = true -> arrives s e p -> pw s = Some v ->
  match p with
  | PVerify src w => st s = SRv /\ checksrc s src = true /\ w = v
  | PNodeVerify w => st s = SRv2 /\ w = firstn 8 (v ++ repeat 0 7)
  | _ => False
  end -> ptrans C s e s' o /\ pinv s'.
Proof.
  intros C s e p v f s' o H F V A P M. unfold p_up in H. inversion H; subst s' o. split.
  - apply (TVer C s e _ _ p v); cbn [withst st]; try apply F; auto; try (cbn; auto; fail); try (intros i [?|[]]; discriminate).
  - split; cbn [withst withnrec withadj st adj tmr nty nrec]; [intros _|rewrite F; discriminate]. split; [auto|]. split; [|discriminate]. destruct (nty s) as [[]|]; auto.
Qed.
Lemma restart_eq : forall C s e s' o, Ok (restart C s) = Ok (s', o) -> pinv s -> ptrans C s e s' o /\ pinv s'.
Proof.
  intros C s e s' o H I. pose proof (restart_trans0 C s e I) as X. assert (restart C s = (s', o)) as E by congruence. rewrite E in X. exact X.
Qed.
Lemma deliver_trans : forall C s e p i j s' o, pinv s -> arrives s e p -> deliver C s p i j = Ok (s', o) -> ptrans C s e s' o /\ pinv s'.
Proof.
  intros C s e p i j s' o I A H. unfold deliver in H.
  assert (ST : Ok (s, []) = Ok (s', o) -> ptrans C s e s' o /\ pinv s') by (intros X; inversion X; subst s' o; apply stay; auto using nil_quiet).
  assert (Z : forall s0 x y, restart C s0 = (x, y) -> (st x = SDs /\ tmr x = tmr s0 /\ quiet y)-> True) by auto.
  assert (OFF : st s = SRi -> st s' = SDs /\ tmr s' = tmr s /\ quiet o -> ptrans C s e s' o /\ pinv s').
  { intros E [X1 [X2 X3]]. destruct (quiet_outs _ X3) as [Q1 Q2]. split.
    - apply TOff; rewrite ?X1, ?E; auto; try discriminate. intros k. split; [apply Q1|intros Y; destruct (Q1 k); contradiction].
    - split; rewrite X1; [discriminate|]. intros _. rewrite X2. destruct I as [_ I]. apply I. rewrite E. auto. }
  destruct (st s) eqn:E.
  - auto.
  - inversion H; subst s' o. apply (neigh_trans C s e (or_introl E) I); cbn; rewrite ?E; auto. apply stay; auto using nil_quiet. apply pinv_neigh; auto.
  - destruct p; auto.
    + assert (X : ri_init4 C s src t blo verif = (s', o)) by congruence. destruct (ri_init4_spec _ _ _ _ _ _ _ _ X E) as [[-> ->]|[Y|Y]]; auto.
      eapply inited_trans; eauto.
    + assert (X : ri_init3 C s src t blk verif = (s', o)) by congruence. destruct (ri_init3_spec _ _ _ _ _ _ _ _ X E) as [[-> ->]|[Y|Y]]; auto.
      eapply inited_trans; eauto.
    + assert (X : ri_node C s src name verif = (s', o)) by congruence. destruct (ri_node_spec _ _ _ _ _ _ _ X E) as [Y|Y]; auto.
      eapply inited_trans; eauto.
    + eapply restart_eq; eauto.
  - destruct p; cbn [ctl_src] in H; try discriminate; try (destruct (negb (checksrc s src)); [eapply restart_eq; eauto|discriminate]).
    destruct (checksrc s src) eqn:K; cbn [negb] in H; [|eapply restart_eq; eauto].
    destruct (pw s) as [v|] eqn:P; [|eapply restart_eq; eauto].
    destruct (leqb val v) eqn:L; [|eapply restart_eq; eauto]. apply leqb_eq in L. subst v.
    eapply (p_up_spec C s e _ _ (rustate C)); eauto; rewrite ?E; auto. apply rustate_running.
  - destruct (pw s) as [v|] eqn:P; [|discriminate]. destruct p; try discriminate.
    destruct (leqb _ _) eqn:L in H; [|eapply restart_eq; eauto]. apply leqb_eq in L. 
    eapply (p_up_spec C s e _ _ (fun _ => SRu2)); eauto; rewrite ?E; auto.
  - apply (ru_trans C s e p s' o); try rewrite E; auto; congruence.
  - apply (ru_trans C s e p s' o); try rewrite E; auto; congruence.
  - apply (ru_trans C s e p s' o); try rewrite E; auto; congruence.
  - apply (ru_trans C s e p s' o); try rewrite E; auto; congruence.
  - apply (ru_trans C s e p s' o); try rewrite E; auto; congruence.
  - apply (ru2_trans C s e p i j s' o); auto. congruence.
Qed.
Lemma step_trans : forall C s e s' o, pinv s -> pstep C s e = Ok (s', o) -> ptrans C s e s' o /\ pinv s'.
Proof.
  intros C s e s' o I H.
  assert (DN : Ok (circuit_down C s) = Ok (s', o) -> ptrans C s e s' o /\ pinv s').
  { intros X. pose proof (down_trans C s e [] I nil_quiet) as Y. rewrite app_nil_r in Y. assert (circuit_down C s = (s', o)) as Z by congruence. rewrite Z in Y. exact Y. }
  assert (ST : forall s0 o0, Ok (s0, o0) = Ok (s', o) -> quiet o0 -> st s0 = st s -> nid s0 = nid s -> rph s0 = rph s -> pw s0 = pw s -> adj s0 = adj s -> tmr s0 = tmr s -> nty s0 = nty s -> nrec s0 = nrec s ->
     ptrans C s e s' o /\ pinv s') by (intros s0 o0 X; intros; inversion X; subst s' o; apply stay; auto; congruence).
  assert (OFF : running (st s) = false -> running (st s') = false -> verifying (st s') = false -> tmr s' = tmr s -> quiet o -> ptrans C s e s' o /\ pinv s').
  { intros F X1 X2 X3 X4. destruct (quiet_outs _ X4) as [Q1 Q2]. split.
    - apply TOff; auto; try congruence. intros k. split; [apply Q1|intros Y; destruct (Q1 k); contradiction].
    - split; [congruence|]. intros _. rewrite X3. destruct I as [_ I]. auto. }
  assert (QO : quiet [PDlOpen] /\ quiet [PDlClose]) by (split; intros x [<-|[]]; exact Logic.I). destruct QO as [QO QC].
  assert (QN := nil_quiet).
  destruct e as [| p1 p2 i j | p i j | up | | | | ]; cbn [pstep] in H.
  - eapply ST; eauto.
  - assert (FALL : match p2 with
        | OPkt q =>
          if negb (c_works C) && is_init q then
            match linit s with
            | None => Err EAttr
            | Some true =>
              match nrec s with
              | None => Err EAttr
              | Some n => if n =? 0 then Ok (withlinit s (Some false), [])
                          else let '(s1, o1) := restart C s in Ok (s1, o1 ++ [PRequeue q])
              end
            | Some false => let '(s1, o1) := restart C s in Ok (s1, o1 ++ [PRequeue q])
            end
          else Ok (circuit_down C s)
        | _ => Ok (circuit_down C s)
        end = Ok (s', o) -> ptrans C s (ERecv p1 p2 i j) s' o /\ pinv s').
    { clear H. intros H. destruct p2 as [q| |]; auto. destruct (negb (c_works C) && is_init q); auto.
      assert (RQ : (let '(s1, o1) := restart C s in Ok (s1, o1 ++ [PRequeue q])) = Ok (s', o) -> ptrans C s (ERecv p1 (OPkt q) i j) s' o /\ pinv s').
      { intros X. destruct (restart C s) as [s1 o1] eqn:R. inversion X; subst s' o. apply (restart_trans C s _ s1 o1 [PRequeue q] R I). intros x [<-|[]]. exact Logic.I. }
      destruct (linit s) as [[|]|]; [|auto|discriminate]. destruct (nrec s) as [n|] eqn:N; [|discriminate].
      destruct (n =? 0); [|auto]. eapply ST; eauto. }
    destruct p1 as [p| |]; auto.
    destruct (takes (st s) p) eqn:T; [|auto].
    eapply deliver_trans; eauto. cbn. auto.
  - eapply deliver_trans; eauto. cbn. auto.
  - destruct (st s) eqn:E.
    + eapply ST; eauto.
    + destruct up.
      * cbn in H. inversion H; subst s' o. apply OFF; cbn; auto. intros x [<-|[]]. exact Logic.I.
      * assert (ptrans C (r_neigh s) (EDl false) s' o /\ pinv s') by (eapply restart_eq; eauto using pinv_neigh).
        pose proof (restart_st C (r_neigh s)) as Y. assert (restart C (r_neigh s) = (s', o)) as Z by congruence. rewrite Z in Y. cbn in Y.
        apply (neigh_trans C s _ (or_introl E) I); auto; rewrite Y; auto.
    + destruct up; [eapply ST; eauto|eapply restart_eq; eauto].
    + destruct up; [eapply ST; eauto|eapply restart_eq; eauto].
    + destruct up; [eapply ST; eauto|eapply restart_eq; eauto].
    + destruct up; [eapply ST; eauto|eapply restart_eq; eauto].
    + destruct up; [eapply ST; eauto|eapply restart_eq; eauto].
    + destruct up; [eapply ST; eauto|eapply restart_eq; eauto].
    + destruct up; [eapply ST; eauto|eapply restart_eq; eauto].
    + destruct up; [eapply ST; eauto|eapply restart_eq; eauto].
    + destruct up; [eapply ST; eauto|eapply restart_eq; eauto].
  - destruct (st s) eqn:E; try (eapply restart_eq; eauto; fail); try (eapply ST; eauto; fail);
    try (eapply ST; [exact H|apply send_quiet with (s := s) (x := SHello)|..]; auto; fail).
    + inversion H; subst s' o. apply OFF; auto.
    + inversion H; subst s' o. apply OFF; cbn; rewrite ?E; auto.
  - destruct (st s) eqn:E; try (eapply ST; eauto; fail).
    + inversion H; subst s' o. apply OFF; auto.
    + inversion H; subst s' o. apply OFF; cbn; rewrite ?E; auto.
  - assert (DW : running (st s) = true -> (let '(s1, o1) := p_down s in Ok (withst s1 SHa, o1 ++ [PDlClose])) = Ok (s', o) -> ptrans C s EStop s' o /\ pinv s').
    { clear H. intros R H. destruct I as [I1 I2]. destruct (I1 R) as [A _]. unfold p_down in H. rewrite A in H. cbn in H. inversion H; subst s' o. split.
      - apply TOff; cbn; auto; [intros k; split; [intros [?|[?|[]]]; discriminate|auto]|intros p [?|[?|[]]]; discriminate].
      - split; cbn; auto. discriminate. }
    destruct (st s) eqn:E; auto.
    + eapply ST; eauto.
    + inversion H; subst s' o. apply OFF; auto.
    + inversion H; subst s' o. apply OFF; auto.
    + inversion H; subst s' o. apply OFF; auto.
    + inversion H; subst s' o. apply OFF; auto.
  - destruct (tmr s) eqn:T; [|eapply ST; eauto].
    assert (R : running (st s) = true) by (destruct I as [_ I2]; destruct (running (st s)); auto; rewrite I2 in T; auto; discriminate).
    unfold restart in H. cbn [withadj adj] in H. rewrite andb_false_r in H. inversion H; subst s' o. split.
    + apply TOff; cbn; auto.
      * intros k. split; [|auto]. intros [?|[X|[]]]; [discriminate|]. destruct (c_works C); discriminate.
      * intros p [?|[X|[]]]; [discriminate|]. destruct (c_works C); discriminate.
    + split; cbn; auto. discriminate.
Qed.
Lemma steps_inv : forall C l s o, psteps C pstart l = Ok (s, o) -> pinv s.
Proof.
  induction l using List.rev_ind; intros s o H.
  - inversion H; subst. split; cbn; auto. discriminate.
  - destruct (psteps_snoc _ _ _ _ _ _ H) as [s1 [o1 [o2 [A [B _]]]]]. apply (step_trans C s1 x s o2); eauto.
Qed.
Lemma steps_trans : forall C l e s o, psteps C pstart (l ++ [e]) = Ok (s, o) ->
  exists s1 o1 o2, psteps C pstart l = Ok (s1, o1) /\ pstep C s1 e = Ok (s, o2) /\ o = o1 ++ o2 /\ ptrans C s1 e s o2.
Proof.
  intros C l e s o H. destruct (psteps_snoc _ _ _ _ _ _ H) as [s1 [o1 [o2 [A [B D]]]]]. exists s1, o1, o2. repeat split; auto.
  apply (step_trans C s1 e s o2); auto. eapply steps_inv; eauto.
Qed.
Lemma along_nil : forall C f s, f (st s) = true -> along C f s [].
Proof.
  intros C f s H l1 l2 s1 o1 E P. symmetry in E. apply app_eq_nil in E. destruct E as [-> ->]. inversion P; subst. auto.
Qed.
Lemma along_snoc : forall C f s l e s1 o1 s2 o2, along C f s l -> psteps C s l = Ok (s1, o1) -> pstep C s1 e = Ok (s2, o2) -> f (st s2) = true -> along C f s (l ++ [e]).
Proof.
  intros C f s l e s1 o1 s2 o2 A P Q F l1 l2 s3 o3 E P3.
  destruct l2 as [|x t] using List.rev_ind.
  - rewrite app_nil_r in E. subst l1. destruct (psteps_snoc _ _ _ _ _ _ P3) as [s4 [o4 [o5 [B1 [B2 _]]]]].
    assert (s4 = s1) by congruence. subst. assert (s3 = s2) by congruence. subst. auto.
  - rewrite app_assoc in E. apply app_inj_tail in E. destruct E as [E _]. eapply A; eauto.
Qed.
(** The circuit has been opened by an acceptable init and is verifying. *)
Definition opened (C : pcfg) (l : list pev) (s : ps) : Prop :=
  exists l1 ei l2 s1 o1 s2 o2 o3 p, l = l1 ++ ei :: l2 /\ psteps C pstart l1 = Ok (s1, o1) /\ st s1 = SRi /\
    arrives s1 ei p /\ good_init C p (nid s) (rph s) /\ pstep C s1 ei = Ok (s2, o2) /\ psteps C s2 l2 = Ok (s, o3) /\ along C verifying s2 l2.
Lemma verify_inv : forall C l s o, psteps C pstart l = Ok (s, o) -> verifying (st s) = true ->
  opened C l s /\ c_verify C = true /\ pw s = c_iverif C (nid s) /\ (st s = SRv2 <-> rph s = 2).
Proof.
  induction l using List.rev_ind; intros s o H V.
  - inversion H; subst. discriminate.
  - destruct (steps_trans _ _ _ _ _ H) as [s1 [o1 [o2 [A [B [_ T]]]]]].
    inversion T as [B1 B2 B3 B4|B1 B2 B3 B4 B5|q B1 B2 B3|q v B1 B2 B3 B4]; try congruence.
    + rewrite B1 in V. destruct B2 as [N1 [N2 N3]]; [rewrite V; apply orb_true_r|].
      destruct (IHl _ _ A V) as [O [X1 [X2 X3]]]. rewrite B1, N1, N2, N3. split; [|auto].
      destruct O as [l1 [ei [l2 [sa [oa [sb [ob [oc [p [Y1 [Y2 [Y3 [Y4 [Y5 [Y6 [Y7 Y8]]]]]]]]]]]]]]]].
      exists l1, ei, (l2 ++ [x]), sa, oa, sb, ob, (oc ++ o2), p. subst l. rewrite <- app_assoc. cbn [app].
      split; [auto|]. split; [auto|]. split; [auto|]. split; [auto|]. split; [rewrite N1, N2; auto|]. split; [auto|].
      split. { eapply psteps_glue; eauto. cbn [psteps]. rewrite B. cbn [bind]. rewrite app_nil_r. auto. }
      eapply along_snoc; eauto. congruence.
    + destruct B3 as [G AD U X Y]. destruct (c_verify C) eqn:CV.
      * destruct (Y eq_refl) as [Y1 [Y2 [Y3 Y4]]]. split; [|split; [auto|split; [auto|rewrite Y1; destruct (Z.eqb_spec (rph s) 2); split; congruence]]].
        exists l, x, [], s1, o1, s, o2, [], q. repeat split; auto. apply along_nil. auto.
      * destruct (X eq_refl) as [X1 _]. destruct (st s); discriminate.
    + destruct (st s); discriminate.
Qed.
(** C29: the circuit runs only after an acceptable init message taken in the
    init state and, if verification is required, a verification message with the
    password of that neighbour; from the init on it has been verifying and then
    running without leaving those states. *)
Theorem running_history : forall C l s o, psteps C pstart l = Ok (s, o) -> running (st s) = true ->
  exists l1 ei l2 s1 o1 s2 o2 o3 p, l = l1 ++ ei :: l2 /\ psteps C pstart l1 = Ok (s1, o1) /\ st s1 = SRi /\
    arrives s1 ei p /\ good_init C p (nid s) (rph s) /\ pstep C s1 ei = Ok (s2, o2) /\ psteps C s2 l2 = Ok (s, o3) /\
    if c_verify C then
      exists l3 ev l4 s3 ob s4 oc od pv, l2 = l3 ++ ev :: l4 /\ psteps C s2 l3 = Ok (s3, ob) /\ along C verifying s2 l3 /\
        arrives s3 ev pv /\ good_verify C pv (nid s) (rph s) /\ pstep C s3 ev = Ok (s4, oc) /\ psteps C s4 l4 = Ok (s, od) /\ along C running s4 l4
    else along C running s2 l2.
Proof.
  induction l using List.rev_ind; intros s o H V.
  - inversion H; subst. discriminate.
  - destruct (steps_trans _ _ _ _ _ H) as [s1 [o1 [o2 [A [B [_ T]]]]]].
    assert (ONE : psteps C s1 [x] = Ok (s, o2)) by (cbn [psteps]; rewrite B; cbn [bind]; rewrite app_nil_r; auto).
    inversion T as [B1 B2 B3 B4|B1 B2 B3 B4 B5|q B1 B2 B3|q v B1 B2 B3 B4 B5 B6 B7 B8 B9 B10]; try congruence.
    + rewrite B1 in V. destruct B2 as [N1 [N2 N3]]; [rewrite V; auto|].
      destruct (IHl _ _ A V) as [l1 [ei [l2 [sa [oa [sb [ob [oc [p [Y1 [Y2 [Y3 [Y4 [Y5 [Y6 [Y7 Y8]]]]]]]]]]]]]]]].
      exists l1, ei, (l2 ++ [x]), sa, oa, sb, ob, (oc ++ o2), p. subst l. rewrite <- app_assoc. cbn [app]. rewrite N1, N2.
      split; [auto|]. split; [auto|]. split; [auto|]. split; [auto|]. split; [auto|]. split; [auto|].
      split; [eapply psteps_glue; eauto|]. destruct (c_verify C).
      * destruct Y8 as [l3 [ev [l4 [s3 [od [s4 [oe [of [pv [Z1 [Z2 [Z3 [Z4 [Z5 [Z6 [Z7 Z8]]]]]]]]]]]]]]]].
        exists l3, ev, (l4 ++ [x]), s3, od, s4, oe, (of ++ o2), pv. subst l2. rewrite <- app_assoc. cbn [app].
        split; [auto|]. split; [auto|]. split; [auto|]. split; [auto|]. split; [auto|]. split; [auto|]. split; [eapply psteps_glue; eauto|].
        eapply along_snoc; eauto. congruence.
      * eapply along_snoc; eauto. congruence.
    + destruct B3 as [G AD U X Y]. destruct (c_verify C) eqn:CV.
      * destruct (Y eq_refl) as [Y1 _]. rewrite Y1 in V. destruct (rph s =? 2); discriminate.
      * exists l, x, [], s1, o1, s, o2, [], q. repeat split; auto. apply along_nil. auto.
    + destruct (verify_inv _ _ _ _ A B1) as [O [X1 [X2 X3]]]. rewrite X1.
      destruct O as [l1 [ei [l2 [sa [oa [sb [ob [oc [p [Y1 [Y2 [Y3 [Y4 [Y5 [Y6 [Y7 Y8]]]]]]]]]]]]]]]].
      exists l1, ei, (l2 ++ [x]), sa, oa, sb, ob, (oc ++ o2), p. subst l. rewrite <- app_assoc. cbn [app]. rewrite B5, B6.
      split; [auto|]. split; [auto|]. split; [auto|]. split; [auto|]. split; [auto|]. split; [auto|].
      split; [eapply psteps_glue; eauto|].
      exists l2, x, [], s1, oc, s, o2, [], q. repeat split; auto; [|apply along_nil; auto].
      destruct q; try contradiction.
      * destruct B7 as [M1 M2]. cbn. split; [apply X3; auto|]. exists v. split; [congruence|auto].
      * destruct B7 as [M1 [M2 M3]]. cbn. subst. split; [intros R2; apply X3 in R2; congruence|]. unfold checksrc in M2. split; [lia|congruence].
Qed.
Print Assumptions running_history.
(** C29: only packets that arrive in a running state are passed to routing. *)
Theorem passes_only_running : forall C l e s o s' o' p, psteps C pstart l = Ok (s, o) -> pstep C s e = Ok (s', o') -> In (PPass p) o' ->
  running (st s) = true /\ st s' = st s /\ arrives s e p.
Proof.
  intros C l e s o s' o' p H B P. destruct (step_trans C s e s' o' (steps_inv _ _ _ _ H) B) as [T _].
  inversion T as [B1 B2 B3 B4|B1 B2 B3 B4 B5|q B1 B2 B3|q v B1 B2 B3 B4 B5 B6 B7 B8 B9 B10].
  - destruct (B4 _ P). auto.
  - destruct (B5 _ P).
  - destruct (in_out _ _ _ _ B3 _ P).
  - destruct (B10 _ P).
Qed.
(** C29: routing is told that the neighbour is up exactly when the circuit starts
    running, and that it is down exactly when it stops running. *)
Theorem adjacency_told : forall C l e s o s' o', psteps C pstart l = Ok (s, o) -> pstep C s e = Ok (s', o') ->
  ((exists i, In (PUp i) o') <-> running (st s) = false /\ running (st s') = true) /\
  ((exists i, In (PDown i) o') <-> running (st s) = true /\ running (st s') = false) /\
  (running (st s) = false -> running (st s') = true -> In (PUp (nid s')) o') /\
  (running (st s) = true -> running (st s') = false -> In (PDown (nid s)) o') /\
  (running (st s) = true -> running (st s') = true -> nid s' = nid s).
Proof.
  intros C l e s o s' o' H B. destruct (step_trans C s e s' o' (steps_inv _ _ _ _ H) B) as [T _].
  inversion T as [B1 B2 B3 B4|B1 B2 B3 B4 B5|q B1 B2 B3|q v B1 B2 B3 B4 B5 B6 B7 B8 B9 B10].
  - rewrite B1. split; [split; [intros [i X]; destruct (B3 i); contradiction|intros [X Y]; congruence]|].
    split; [split; [intros [i X]; destruct (B3 i); contradiction|intros [X Y]; congruence]|].
    split; [congruence|]. split; [congruence|]. intros X _. apply B2. rewrite X. auto.
  - rewrite B1. split; [split; [intros [i X]; destruct (B4 i); contradiction|intros [X Y]; congruence]|].
    split; [split; [intros [i X]; destruct (B4 i); auto|intros [X Y]; eauto]|].
    split; [congruence|]. split; [auto|]. congruence.
  - rewrite B1. cbn [running]. destruct B3 as [G AD U X Y].
    assert (D : forall i, ~ In (PDown i) o') by (intros i Z; exact (U _ Z)).
    split; [|split; [split; [intros [i Z]; destruct (D i Z)|intros [? ?]; discriminate]|split; [|split; discriminate]]].
    + destruct (c_verify C) eqn:CV.
      * destruct (Y eq_refl) as [Y1 [Y2 [Y3 Y4]]]. split; [intros [i Z]; destruct (Y4 _ Z)|]. rewrite Y1. intros [_ Z]. destruct (rph s' =? 2); discriminate.
      * destruct (X eq_refl) as [X1 [X2 _]]. split; eauto.
    + intros _ R. destruct (c_verify C) eqn:CV.
      * destruct (Y eq_refl) as [Y1 _]. rewrite Y1 in R. destruct (rph s' =? 2); discriminate.
      * apply X. auto.
  - assert (R : running (st s) = false) by (destruct (st s); auto; discriminate). rewrite R, B4.
    split; [split; eauto|]. split; [split; [intros [i Z]; destruct (B9 i Z)|intros [? ?]; discriminate]|].
    rewrite B5. split; [auto|]. split; discriminate.
Qed.
(** C29: what makes the circuit restart.  [bad s e]: a control message from
    another node than the neighbour, a hello with wrong test data, a verification
    message with a wrong password, a packet with a wrong checksum, one that the
    state does not take, or one that does not parse. *)
Definition bad (C : pcfg) (s : ps) (e : pev) : Prop :=
  let expected := if rph s =? 4 then nid s else nid s mod 1024 in
  match e with
  | ERecv OChk _ _ _ => True
  | ERecv (OPkt p) p2 _ _ =>
      if takes (st s) p then
        match p with
        | PHello a ok => a <> expected \/ ok = false
        | PL1 a | PL2 a | PP3 a => a <> expected
        | PVerify a v => a <> expected \/ pw s <> Some v
        | _ => False
        end
      else match p2 with OPkt q => c_works C = true \/ is_init q = false | _ => True end
  | ERecv OBad p2 _ _ => match p2 with OPkt q => c_works C = true \/ is_init q = false | _ => True end
  | _ => False
  end.
Theorem bad_restarts : forall C l e s o, psteps C pstart l = Ok (s, o) -> st s <> SHa -> bad C s e ->
  exists s' o', pstep C s e = Ok (s', o') /\ st s' = SDs /\ (running (st s) = true -> In (PDown (nid s)) o') /\
    In (if c_works C then PDlRestart else PQueueUp) o' /\ (forall p, ~ In (PPass p) o').
Proof.
  intros C l e s o H N B.
  assert (RS : forall s0, st s0 = st s -> nid s0 = nid s -> pinv s0 ->
     st (fst (restart C s0)) = SDs /\ (running (st s) = true -> In (PDown (nid s)) (snd (restart C s0))) /\
     In (if c_works C then PDlRestart else PQueueUp) (snd (restart C s0)) /\ (forall p, ~ In (PPass p) (snd (restart C s0)))).
  { intros s0 E1 E2 I0. split; [apply restart_st|]. unfold restart. rewrite E1, E2.
    destruct (running (st s)) eqn:R; cbn [andb].
    - destruct I0 as [I1 _]. rewrite E1, R in I1. destruct (I1 eq_refl) as [-> _]. cbn. split; [auto|]. split; [auto|].
      intros p [?|[X|[]]]; [discriminate|destruct (c_works C); discriminate].
    - cbn. split; [discriminate|]. split; [auto|]. intros p [X|[]]; destruct (c_works C); discriminate. }
  pose proof (steps_inv _ _ _ _ H) as I.
  assert (DN : forall e0, pstep C s e0 = Ok (circuit_down C s) -> exists s' o', pstep C s e0 = Ok (s', o') /\ st s' = SDs /\
    (running (st s) = true -> In (PDown (nid s)) o') /\ In (if c_works C then PDlRestart else PQueueUp) o' /\ (forall p, ~ In (PPass p) o')).
  { intros e0 ->. exists (fst (circuit_down C s)), (snd (circuit_down C s)). split; [destruct (circuit_down C s); auto|].
    unfold circuit_down. destruct (st s) eqn:E; try congruence; try (apply RS; auto; fail).
    assert (st (r_neigh s) = SDs) as E1 by exact E. split; [apply restart_st|]. unfold restart. rewrite E1. cbn. split; [discriminate|].
    split; [auto|]. intros p [X|[]]; destruct (c_works C); discriminate. }
  assert (RR : forall s0, st s0 = st s -> nid s0 = nid s -> pinv s0 -> pstep C s e = Ok (restart C s0) -> exists s' o', pstep C s e = Ok (s', o') /\ st s' = SDs /\
    (running (st s) = true -> In (PDown (nid s)) o') /\ In (if c_works C then PDlRestart else PQueueUp) o' /\ (forall p, ~ In (PPass p) o')).
  { intros s0 E1 E2 I0 ->. exists (fst (restart C s0)), (snd (restart C s0)). split; [destruct (restart C s0); auto|]. apply RS; auto. }
  unfold bad in B. cbv zeta in B.
  destruct e as [| p1 p2 i j | p i j | up | | | | ]; try contradiction.
  assert (F2 : match p2 with OPkt q => c_works C = true \/ is_init q = false | _ => True end ->
    match p2 with
        | OPkt q =>
          if negb (c_works C) && is_init q then
            match linit s with
            | None => Err EAttr
            | Some true =>
              match nrec s with
              | None => Err EAttr
              | Some n => if n =? 0 then Ok (withlinit s (Some false), [])
                          else let '(s1, o1) := restart C s in Ok (s1, o1 ++ [PRequeue q])
              end
            | Some false => let '(s1, o1) := restart C s in Ok (s1, o1 ++ [PRequeue q])
            end
          else Ok (circuit_down C s)
        | _ => Ok (circuit_down C s)
        end = Ok (circuit_down C s)).
  { destruct p2 as [q| |]; auto. intros [-> | ->]; [|rewrite andb_false_r]; auto. }
  destruct p1 as [p| |].
  - destruct (takes (st s) p) eqn:T.
    + pose (s1 := withadj (withnrec s (match nrec s with Some n => Some (n + 1) | None => None end)) (adj s) (match nty s with Some NPh2 => tmr s | _ => true end)).
      assert (RU : running (st s) = true -> st s <> SRu2 -> forall a, ctl_src p = Some a -> (a <> (if rph s =? 4 then nid s else nid s mod 1024) \/ exists b, p = PHello b false) ->
        pstep C s (ERecv (OPkt p) p2 i j) = Ok (restart C s1) /\ pinv s1).
      { intros R N2 a A X. split.
        - cbn [pstep]. rewrite T. assert (D : deliver C s p i j = Ok (ru C s p)) by (unfold deliver; destruct (st s); auto; try discriminate; congruence).
          rewrite D. f_equal. unfold ru. fold s1. rewrite A. unfold checksrc. cbn [s1 withadj withnrec rph nid].
          destruct X as [X|[b ->]].
          + destruct (Z.eqb_spec a (if rph s =? 4 then nid s else nid s mod 1024)); [congruence|auto].
          + match goal with |- (if ?c then _ else _) = _ => destruct c end; reflexivity.
        - destruct I as [I1 I2]. destruct (I1 R) as [A1 [A2 A3]]. split; [intros _|cbn; congruence]. split; [auto|]. split; [|cbn; destruct (nrec s); congruence].
          cbn. destruct (nty s) as [[]|]; auto. }
      assert (FIN : running (st s) = true -> st s <> SRu2 -> forall a, ctl_src p = Some a -> (a <> (if rph s =? 4 then nid s else nid s mod 1024) \/ exists b, p = PHello b false) -> 
        exists s' o', pstep C s (ERecv (OPkt p) p2 i j) = Ok (s', o') /\ st s' = SDs /\
        (running (st s) = true -> In (PDown (nid s)) o') /\ In (if c_works C then PDlRestart else PQueueUp) o' /\ (forall p, ~ In (PPass p) o')).
      { intros R N2 a A X. destruct (RU R N2 a A X) as [Y1 Y2]. apply (RR s1); auto. }
      destruct p; try contradiction.
      * (* verification *)
        assert (E : st s = SRv) by (destruct (st s); auto; discriminate).
        apply (RR s); auto. cbn [pstep]. rewrite T. unfold deliver. rewrite E. unfold checksrc.
        destruct B as [B|B].
        -- rewrite (proj2 (Z.eqb_neq _ _)) by auto. auto.
        -- match goal with |- (if ?c then _ else _) = _ => destruct c; [reflexivity|] end. destruct (pw s) as [v|] eqn:P; [|reflexivity].
           destruct (leqb val v) eqn:L; [|reflexivity]. apply leqb_eq in L. congruence.
      * assert (R : running (st s) = true /\ st s <> SRu2) by (destruct (st s); try discriminate; split; auto; discriminate). destruct R.
        apply (FIN ltac:(auto) ltac:(auto) src); auto. destruct B as [B| ->]; [auto|eauto].
      * assert (R : running (st s) = true /\ st s <> SRu2) by (destruct (st s); try discriminate; split; auto; discriminate). destruct R. eapply FIN; eauto. reflexivity.
      * assert (R : running (st s) = true /\ st s <> SRu2) by (destruct (st s); try discriminate; split; auto; discriminate). destruct R. eapply FIN; eauto. reflexivity.
      * assert (R : running (st s) = true /\ st s <> SRu2) by (destruct (st s); try discriminate; split; auto; discriminate). destruct R. eapply FIN; eauto. reflexivity.
    + apply DN. cbn [pstep]. rewrite T. auto.
  - apply DN. reflexivity.
  - apply DN. cbn [pstep]. auto.
Qed.
Print Assumptions passes_only_running.
Print Assumptions adjacency_told.
Print Assumptions bad_restarts.
(** * Acceptance *)
(** C29: in the init state an acceptable init message is accepted: the circuit
    records that neighbour and comes up, or awaits the verification message. *)
Theorem init_accepted : forall C l e s o p i r, psteps C pstart l = Ok (s, o) -> st s = SRi -> arrives s e p -> good_init C p i r ->
  exists s' o', pstep C s e = Ok (s', o') /\ nid s' = i /\ rph s' = r /\
    if c_verify C then st s' = (if r =? 2 then SRv2 else SRv) /\ (forall j, ~ In (PUp j) o')
    else running (st s') = true /\ In (PUp i) o'.
Proof.
  intros C l e s o p i r H E A G.
  assert (IN : forall s' o', inited C p s' o' -> nid s' = i -> rph s' = r -> pstep C s e = Ok (s', o') ->
     exists s' o', pstep C s e = Ok (s', o') /\ nid s' = i /\ rph s' = r /\
       if c_verify C then st s' = (if r =? 2 then SRv2 else SRv) /\ (forall j, ~ In (PUp j) o') else running (st s') = true /\ In (PUp i) o').
  { intros s' o' [X1 X2 X3 X4 X5] N R P. exists s', o'. split; [auto|]. split; [auto|]. split; [auto|]. subst i r. destruct (c_verify C).
    - destruct (X5 eq_refl) as [Y1 [_ [_ Y2]]]. split; [auto|]. intros j Z. exact (Y2 _ Z).
    - destruct (X4 eq_refl) as [Y1 [Y2 _]]. auto. }
  assert (D : forall f, match p with PInit4 _ _ _ _ | PInit3 _ _ _ _ | PNodeInit _ _ _ => True | _ => False end ->
     (forall a b, deliver C s p a b = Ok f) -> pstep C s e = Ok f).
  { intros f _ X. destruct e as [| p1 p2 a b | q a b | up | | | | ]; cbn [arrives] in A; try contradiction.
    - destruct p1 as [q| |]; try contradiction. destruct A as [-> T]. cbn [pstep]. rewrite T. apply X.
    - subst q. cbn [pstep]. apply X. }
  destruct p as [src t blo v|src t blk v| |src name v| | | | | | | | | | | |]; try contradiction.
  - destruct (ri_init4 C s src t blo v) as [s' o'] eqn:R.
    pose proof G as [P [T [B [I [RR [S0 [MX AR]]]]]]]. 
    assert (K : ri_init4 C s src t blo v = init34 C s src 4 t v []).
    { unfold ri_init4. rewrite (proj2 (Z.ltb_ge _ _)) by auto. rewrite B.
      destruct t; try congruence; cbn [orb]; cbv zeta;
      unfold isrouter; destruct (Z.eqb_spec (src mod 1024) 0) as [X|X]; try congruence; cbn [orb];
      destruct (is_router (c_type C)); cbn [andb orb]; try (rewrite (proj2 (Z.ltb_ge _ _)) by auto; cbn [orb]);
      destruct (is_l2 (c_type C)); cbn [is_l2 andb orb negb] in AR |- *;
      try (rewrite (proj2 (Z.eqb_eq _ _) AR); reflexivity);
      rewrite (proj2 (Z.leb_le _ _)), (proj2 (Z.leb_le _ _)) by lia; reflexivity. }
    assert (Y : inited C (PInit4 src t blo v) s' o') by (rewrite K in R; eapply init34_spec; eauto using nil_quiet; [lia|subst r i; auto]).
    assert (Z : nid s' = src /\ rph s' = 4) by (destruct Y as [[Y1 [Y2 [Y3 [Y4 [Y5 _]]]]] _ _ _ _]; auto). destruct Z.
    apply (IN s' o' Y); try congruence. apply D; auto. intros a b. unfold deliver. rewrite E, R. auto.
  - destruct (ri_init3 C s src t blk v) as [s' o'] eqn:R.
    pose proof G as [P [T [S0 [RR [MX [BK I]]]]]].
    assert (K : ri_init3 C s src t blk v = let '(s1, o1) := if 3 <? c_phase C then dlsend s SInit3 else (s, []) in
       init34 C s1 (if c_phase C =? 4 then c_area C * 1024 + src mod 1024 else src mod 1024) 3 t v o1).
    { unfold ri_init3. rewrite (proj2 (Z.ltb_ge _ _)) by auto.
      replace (match t with NEnd | NL1 => true | _ => false end) with true by (destruct T; subst; auto). cbn [negb].
      rewrite (proj2 (Z.eqb_neq _ _)) by auto. cbn [orb]. unfold isrouter. destruct (is_router (c_type C)); cbn [andb].
      - rewrite (proj2 (Z.ltb_ge _ _)) by auto. rewrite andb_true_r. destruct T as [-> | ->]; cbn [andb]; [reflexivity|].
        rewrite (proj2 (Z.ltb_ge _ _)) by auto. reflexivity.
      - rewrite andb_false_r. reflexivity. }
    assert (Y : inited C (PInit3 src t blk v) s' o').
    { destruct (ri_init3_spec _ _ _ _ _ _ _ _ R E) as [[-> ->]|[[Y _]|Y]]; [| |exact Y]; exfalso.
      - rewrite K in R. assert (X : forall s1 o1 q, init34 C s1 (if c_phase C =? 4 then c_area C * 1024 + src mod 1024 else src mod 1024) 3 t v o1 = (q, []) -> st q <> SRi).
        { intros s1 o1 q X Z. unfold init34, dlsend, p_up in X. destruct v; destruct (c_verify C); assert (F := f_equal fst X); cbn [fst] in F; rewrite <- F in Z; cbn [withst st] in Z; try discriminate;
          (pose proof (rustate_running C) as W; match type of Z with rustate C ?q = _ => specialize (W q); rewrite Z in W; discriminate end). }
        destruct (3 <? c_phase C); cbn [dlsend] in R; apply X in R; auto.
      - rewrite K in R. assert (X : forall s1 o1 q o2, init34 C s1 (if c_phase C =? 4 then c_area C * 1024 + src mod 1024 else src mod 1024) 3 t v o1 = (q, o2) -> st q <> SDs).
        { intros s1 o1 q o2 X Z. unfold init34, dlsend, p_up in X. destruct v; destruct (c_verify C); assert (F := f_equal fst X); cbn [fst] in F; rewrite <- F in Z; cbn [withst st] in Z; try discriminate;
          (pose proof (rustate_running C) as W; match type of Z with rustate C ?q = _ => specialize (W q); rewrite Z in W; discriminate end). }
        destruct (3 <? c_phase C); cbn [dlsend] in R; apply X in R; auto. }
    assert (Z : nid s' = i /\ rph s' = r) by (destruct Y as [[Y1 [Y2 [Y3 [Y4 [Y5 [Y6 Y7]]]]]] _ _ _ _]; split; congruence). destruct Z.
    apply (IN s' o' Y); auto. apply D; auto. intros a b. unfold deliver. rewrite E, R. auto.
  - destruct (ri_node C s src name v) as [s' o'] eqn:R.
    pose proof G as [S0 [RR [MX N]]].
    assert (Y : inited C (PNodeInit src name v) s' o').
    { destruct (ri_node_spec _ _ _ _ _ _ _ R E) as [[Y _]|Y]; [|exact Y]. exfalso.
      unfold ri_node in R. rewrite N in R. rewrite (proj2 (Z.eqb_neq _ _)) in R by auto. cbn [orb] in R. unfold isrouter in R.
      replace (is_router (c_type C) && (c_maxnodes C <? src)) with false in R
        by (destruct (is_router (c_type C)); cbn [andb]; [rewrite (proj2 (Z.ltb_ge _ _)) by auto|]; auto).
      unfold dlsend, p_up in R. cbv zeta in R.
      destruct (2 <? c_phase C), v, (c_verify C); assert (F := f_equal fst R); cbn [fst] in F; rewrite <- F in Y; cbn [withst st] in Y; discriminate. }
    assert (Z : nid s' = i /\ rph s' = r) by (destruct Y as [[Y1 [Y2 [Y3 Y4]]] _ _ _ _]; split; congruence). destruct Z.
    apply (IN s' o' Y); auto. apply D; auto. intros a b. unfold deliver. rewrite E, R. auto.
Qed.
Print Assumptions init_accepted.
(** C29: while the verification is awaited, the message with the password
    configured for the neighbour brings the circuit up. *)
Theorem verify_accepted : forall C l e s o p, psteps C pstart l = Ok (s, o) -> verifying (st s) = true -> arrives s e p -> good_verify C p (nid s) (rph s) ->
  exists s' o', pstep C s e = Ok (s', o') /\ nid s' = nid s /\ rph s' = rph s /\ running (st s') = true /\ In (PUp (nid s)) o'.
Proof.
  intros C l e s o p H V A G. destruct (verify_inv _ _ _ _ H V) as [_ [_ [W X]]].
  assert (D : forall f, (forall a b, deliver C s p a b = Ok f) -> pstep C s e = Ok f).
  { intros f Y. destruct e as [| p1 p2 a b | q a b | up | | | | ]; cbn [arrives] in A; try contradiction.
    - destruct p1 as [q| |]; try contradiction. destruct A as [-> T]. cbn [pstep]. rewrite T. apply Y.
    - subst q. cbn [pstep]. apply Y. }
  destruct p as [| | | |pw1|src1 val1| | | | | | | | | |]; try contradiction; cbn [good_verify] in G.
  - destruct G as [G [x [G1 G2]]]. apply X in G. rewrite G1 in W.
    exists (withst (fst (p_up s)) SRu2), (snd (p_up s)). split; [apply D; intros a b; unfold deliver; rewrite G, W|].
    + replace (leqb pw1 (upto 8 (x ++ zeros7))) with true; [reflexivity|]. symmetry. apply leqb_eq. subst pw1. reflexivity.
    + cbn. auto.
  - destruct G as [G [G1 G2]]. rewrite G2 in W.
    assert (E : st s = SRv) by (destruct (st s); try discriminate; auto; destruct X as [X _]; specialize (X eq_refl); contradiction).
    exists (withst (fst (p_up s)) (rustate C (fst (p_up s)))), (snd (p_up s)). split; [apply D; intros a b; unfold deliver; rewrite E, W|].
    + unfold checksrc. rewrite (proj2 (Z.eqb_eq _ _) G1). cbn [negb]. rewrite (proj2 (leqb_eq _ _) eq_refl). reflexivity.
    + cbn [withst st nid rph]. split; [reflexivity|]. split; [reflexivity|]. split; [apply rustate_running|]. cbn. auto.
Qed.
Print Assumptions verify_accepted.
(** On a datalink that cannot restart, an init message in a running circuit
    means that the neighbour has restarted, unless the last message sent here
    was an init and nothing has been received since the circuit came up (the
    neighbour's answer to that init). *)
Fixpoint last_sent (o : list pout) : option smsg :=
  match o with
  | [] => None
  | x :: t => match last_sent t with Some m => Some m | None => match x with PSend m => Some m | _ => None end end
  end.
Definition init_msg (m : smsg) : bool := match m with SInit | SInit2 | SInit3 => true | _ => false end.
Lemma last_sent_app : forall a b, last_sent (a ++ b) = match last_sent b with Some m => Some m | None => last_sent a end.
Proof. induction a as [|x t IH]; intros b; cbn [app last_sent]; [destruct (last_sent b); auto|]. rewrite IH. destruct (last_sent b); auto. Qed.
Definition sent_ok (s : ps) (o : list pout) (s' : ps) : Prop :=
  match last_sent o with Some m => linit s' = Some (init_msg m) | None => linit s' = linit s \/ linit s' = Some false end.
Lemma sent_same : forall s s' o, linit s' = linit s -> last_sent o = None -> sent_ok s o s'.
Proof. intros s s' o A B. unfold sent_ok. rewrite B. auto. Qed.
Lemma restart_sent : forall C s x, last_sent x = None -> linit (fst (restart C s)) = linit s /\ last_sent (snd (restart C s) ++ x) = None.
Proof. intros C s x X. unfold restart. destruct (running (st s) && adj s), (c_works C); cbn; rewrite X; auto. Qed.
Lemma restart_sent0 : forall C s s' o, restart C s = (s', o) -> linit s' = linit s /\ last_sent o = None.
Proof. intros C s s' o H. destruct (restart_sent C s [] eq_refl) as [A B]. rewrite app_nil_r, H in *. auto. Qed.
Lemma init34_sent : forall C s i r t v o s' o', init34 C s i r t v o = (s', o') ->
  match last_sent o with Some m => linit s = Some (init_msg m) | None => True end -> 
  match last_sent o' with Some m => linit s' = Some (init_msg m) | None => linit s' = linit s end.
Proof.
  intros C s i r t v o s' o' H A. unfold init34, dlsend, p_up in H.
  destruct v, (c_verify C); inversion H; subst s' o'; rewrite ?last_sent_app; cbn; auto;
  destruct (last_sent o); auto.
Qed.
Lemma step_sent : forall C s e s' o, pstep C s e = Ok (s', o) -> sent_ok s o s'.
Proof.
  intros C s e s' o H.
  assert (RS : forall s0, linit s0 = linit s -> Ok (restart C s0) = Ok (s', o) -> sent_ok s o s').
  { intros s0 L X. assert (restart C s0 = (s', o)) as Y by congruence. destruct (restart_sent0 _ _ _ _ Y). apply sent_same; congruence. }
  assert (DN : Ok (circuit_down C s) = Ok (s', o) -> sent_ok s o s').
  { intros X. unfold circuit_down in X. destruct (st s); try (eapply RS; [|exact X]; reflexivity). inversion X; subst. apply sent_same; auto. }
  assert (I34 : forall s0 o0 i r t v, linit s0 = linit s \/ last_sent o0 <> None -> match last_sent o0 with Some m => linit s0 = Some (init_msg m) | None => True end ->
    init34 C s0 i r t v o0 = (s', o) -> sent_ok s o s').
  { intros s0 o0 i r t v L M X. pose proof (init34_sent _ _ _ _ _ _ _ _ _ X M) as Y. unfold sent_ok. destruct (last_sent o) eqn:LS; [auto|].
    destruct L as [L|L]; [left; congruence|]. exfalso. unfold init34, dlsend, p_up in X. destruct (last_sent o0) eqn:L0; [|congruence].
    destruct v, (c_verify C); inversion X; subst o; rewrite ?last_sent_app, L0 in LS; cbn in LS; discriminate. }
  assert (DL : forall p a b, deliver C s p a b = Ok (s', o) -> sent_ok s o s').
  { intros p a b X. unfold deliver in X.
    assert (RU : Ok (ru C s p) = Ok (s', o) -> sent_ok s o s').
    { clear X. intros X. assert (ru C s p = (s', o)) as Y by congruence. clear X. unfold ru in Y. set (s1 := withadj _ _ _) in Y.
      assert (R1 : restart C s1 = (s', o) -> sent_ok s o s') by (intros Z; apply (RS s1); [reflexivity|congruence]).
      assert (R2 : forall q, (s1, [PPass q]) = (s', o) -> sent_ok s o s') by (intros q Z; inversion Z; subst s' o; apply sent_same; auto).
      assert (R3 : (s1, []) = (s', o) -> sent_ok s o s') by (intros Z; inversion Z; subst s' o; apply sent_same; auto).
      destruct (ctl_src p); [|eauto]. destruct (negb _); [auto|]. destruct p; eauto. destruct testok; auto. }
    assert (UP : forall f, (let '(s1, o1) := p_up s in Ok (withst s1 (f s1), o1)) = Ok (s', o) -> sent_ok s o s')
      by (intros f Y; unfold p_up in Y; inversion Y; subst s' o; apply sent_same; reflexivity).
    destruct (st s); try (exact (RU X)).
    - inversion X; subst. apply sent_same; auto.
    - inversion X; subst. apply sent_same; auto.
    - destruct p; try (inversion X; subst; apply sent_same; auto; fail).
      + assert (ri_init4 C s src t blo verif = (s', o)) as Y by congruence. clear X. unfold ri_init4 in Y.
        destruct (c_phase C <? 4); [inversion Y; subst; apply sent_same; auto|].
        destruct (_ || blo) in Y; [eapply RS; [|rewrite Y]; reflexivity|]. cbv zeta in Y.
        match type of Y with (if ?c then _ else _) = _ => destruct c end; [eapply RS; [|rewrite Y]; reflexivity|].
        eapply I34; [| |exact Y]; auto. cbn. auto.
      + assert (ri_init3 C s src t blk verif = (s', o)) as Y by congruence. clear X. unfold ri_init3 in Y.
        destruct (c_phase C <? 3); [inversion Y; subst; apply sent_same; auto|].
        destruct (negb _) in Y; [eapply RS; [|rewrite Y]; reflexivity|].
        match type of Y with (if ?c then _ else _) = _ => destruct c end; [eapply RS; [|rewrite Y]; reflexivity|].
        match type of Y with (if ?c then _ else _) = _ => destruct c end; [eapply RS; [|rewrite Y]; reflexivity|].
        destruct (3 <? c_phase C); cbn [dlsend] in Y; (eapply I34; [| |exact Y]); cbn; auto. right. discriminate.
      + assert (ri_node C s src name verif = (s', o)) as Y by congruence. clear X. unfold ri_node in Y.
        match type of Y with (if ?c then _ else _) = _ => destruct c end; [eapply RS; [|rewrite Y]; reflexivity|].
        destruct (c_name C name) as [i|].
        * cbv zeta in Y. unfold dlsend, p_up in Y.
          destruct (2 <? c_phase C), verif, (c_verify C); inversion Y; subst s' o; unfold sent_ok; cbn; auto.
        * destruct (2 <? c_phase C); cbn [dlsend] in Y.
          -- destruct (restart C _) as [s2 o2] eqn:R in Y. inversion Y; subst s' o. destruct (restart_sent0 _ _ _ _ R) as [L1 L2].
             unfold sent_ok. cbn [app last_sent]. rewrite L2, L1. reflexivity.
          -- destruct (restart C _) as [s2 o2] eqn:R in Y. inversion Y; subst s' o. destruct (restart_sent0 _ _ _ _ R) as [L1 L2].
             apply sent_same; auto.
      + eapply RS; [|exact X]; reflexivity.
    - destruct p; cbn [ctl_src] in X; try discriminate; try (destruct (negb (checksrc s src)); [eapply RS; [|exact X]; reflexivity|discriminate]).
      destruct (negb (checksrc s src)); [eapply RS; [|exact X]; reflexivity|].
      match type of X with (if ?c then _ else _) = _ => destruct c end; [eapply (UP (rustate C)); eauto|eapply RS; [|exact X]; reflexivity].
    - destruct (pw s); [|discriminate]. destruct p; try discriminate.
      destruct (leqb _ _) in X; [apply (UP (fun _ => SRu2)); auto|eapply RS; [|exact X]; reflexivity].
    - assert (ru2 s p a b = (s', o)) as Y by congruence. clear X. unfold ru2, dlsend in Y.
      destruct p; try (inversion Y; subst s' o; apply sent_same; reflexivity); destruct a; try (inversion Y; subst s' o; apply sent_same; reflexivity);
      destruct b; inversion Y; subst s' o; try (apply sent_same; reflexivity); reflexivity. }
  destruct e as [| p1 p2 i j | p i j | up | | | | ]; cbn [pstep] in H.
  - inversion H; subst. apply sent_same; auto.
  - assert (FALL : match p2 with
        | OPkt q =>
          if negb (c_works C) && is_init q then
            match linit s with
            | None => Err EAttr
            | Some true =>
              match nrec s with
              | None => Err EAttr
              | Some n => if n =? 0 then Ok (withlinit s (Some false), [])
                          else let '(s1, o1) := restart C s in Ok (s1, o1 ++ [PRequeue q])
              end
            | Some false => let '(s1, o1) := restart C s in Ok (s1, o1 ++ [PRequeue q])
            end
          else Ok (circuit_down C s)
        | _ => Ok (circuit_down C s)
        end = Ok (s', o) -> sent_ok s o s').
    { clear H. intros H. destruct p2 as [q| |]; auto. destruct (negb (c_works C) && is_init q); auto.
      assert (RQ : (let '(s1, o1) := restart C s in Ok (s1, o1 ++ [PRequeue q])) = Ok (s', o) -> sent_ok s o s').
      { intros X. destruct (restart_sent C s [PRequeue q] eq_refl) as [L1 L2]. destruct (restart C s) as [s1 o1] eqn:R. inversion X; subst s' o. apply sent_same; auto. }
      destruct (linit s) as [[|]|]; [|auto|discriminate]. destruct (nrec s) as [n|] eqn:N; [|discriminate].
      destruct (n =? 0); [|auto]. inversion H; subst. unfold sent_ok. cbn. auto. }
    destruct p1 as [p| |]; auto.
    destruct (takes (st s) p) eqn:T; [|auto]. eauto.
  - eauto.
  - destruct (st s), up; try (inversion H; subst; apply sent_same; reflexivity); try (eapply RS; [|exact H]; reflexivity).
    cbn in H. inversion H; subst. reflexivity.
  - destruct (st s); try (inversion H; subst; apply sent_same; reflexivity); try (eapply RS; [|exact H]; reflexivity);
    cbn in H; inversion H; subst; reflexivity.
  - destruct (st s); try (inversion H; subst; apply sent_same; reflexivity).
  - assert (DW : (let '(s1, o1) := p_down s in Ok (withst s1 SHa, o1 ++ [PDlClose])) = Ok (s', o) -> sent_ok s o s').
    { intros X. unfold p_down in X. destruct (adj s); inversion X; subst; apply sent_same; reflexivity. }
    destruct (st s); auto; inversion H; subst; apply sent_same; reflexivity.
  - destruct (tmr s); [|inversion H; subst; apply sent_same; reflexivity].
    destruct (restart C _) as [s2 o2] eqn:R in H. inversion H; subst. destruct (restart_sent0 _ _ _ _ R) as [L1 L2].
    apply sent_same; [exact L1|cbn; rewrite L2; auto].
Qed.
Lemma sent_inv : forall C l s o, psteps C pstart l = Ok (s, o) ->
  match last_sent o with Some m => linit s = Some (init_msg m) \/ linit s = Some false | None => linit s = None \/ linit s = Some false end.
Proof.
  induction l using List.rev_ind; intros s o H.
  - inversion H; subst. cbn. auto.
  - destruct (psteps_snoc _ _ _ _ _ _ H) as [s1 [o1 [o2 [A [B ->]]]]]. rewrite last_sent_app. specialize (IHl _ _ A).
    pose proof (step_sent _ _ _ _ _ B) as X. unfold sent_ok in X. destruct (last_sent o2); [auto|].
    destruct X as [X|X]; rewrite X; [|destruct (last_sent o1); auto]. auto.
Qed.
Theorem init_noticed : forall C l s o p1 q a b m, psteps C pstart l = Ok (s, o) -> running (st s) = true -> c_works C = false ->
  p1 <> OChk -> (forall p, p1 = OPkt p -> takes (st s) p = false) -> is_init q = true ->
  last_sent o = Some m -> init_msg m = false ->
  exists s' o', pstep C s (ERecv p1 (OPkt q) a b) = Ok (s', o') /\ st s' = SDs /\ o' = [PDown (nid s); PQueueUp; PRequeue q].
Proof.
  intros C l s o p1 q a b m H R W N T Q L M. pose proof (sent_inv _ _ _ _ H) as X. rewrite L, M in X.
  assert (LI : linit s = Some false) by (destruct X; auto). destruct (steps_inv _ _ _ _ H) as [I1 _]. destruct (I1 R) as [AD _].
  assert (E : pstep C s (ERecv p1 (OPkt q) a b) = let '(s1, o1) := restart C s in Ok (s1, o1 ++ [PRequeue q])).
  { cbn [pstep]. rewrite W, Q, LI. cbn [negb andb]. destruct p1 as [p| |]; [rewrite (T p eq_refl); auto|congruence|auto]. }
  rewrite E. unfold restart. rewrite R, AD, W. cbn [andb app]. eexists. eexists. split; [reflexivity|]. auto.
Qed.
Print Assumptions init_noticed.

(** * A concrete circuit *)
(** A level 1 router 1.1 with verification, neighbour 1.2 with password "AB",
    Phase II neighbour named "X" at 1.3. *)
Definition Cx (works verify : bool) : pcfg := {| c_phase := 4; c_type := NL1; c_area := 1; c_tid := 1; c_maxnodes := 100; c_maxarea := 63; c_works := works; c_verify := verify;
  c_iverif := fun i => if i =? 1026 then Some [65; 66] else None; c_overif := fun _ => None; c_name := fun n => if leqb n [88] then Some 1027 else None |}.
Definition rcv (p : pkt) : pev := ERecv (OPkt p) (OPkt p) true false.
Example ptp_example :
  option_map st (match psteps (Cx true true) pstart [EStart; EDl true; rcv (PInit4 1026 NL1 false true); rcv (PVerify 1026 [65; 66]); rcv (PShort 1030 1031)] with Ok (s, _) => Some s | _ => None end) = Some SRu4l1 /\
  match psteps (Cx true true) pstart [EStart; EDl true; rcv (PInit4 1026 NL1 false true); rcv (PVerify 1026 [65; 66]); rcv (PShort 1030 1031); rcv (PHello 1027 true)] with
  | Ok (s, o) => st s = SDs /\ o = [PDlOpen; PSend SInit; PSend (SVerify []); PUp 1026; PPass (PShort 1030 1031); PDown 1026; PDlRestart]
  | _ => False end.
Proof. vm_compute. auto. Qed.
(** The hypotheses of bad_restarts are met in that running circuit. *)
Example bad_example : match psteps (Cx true true) pstart [EStart; EDl true; rcv (PInit4 1026 NL1 false true); rcv (PVerify 1026 [65; 66])] with
  | Ok (s, o) => bad (Cx true true) s (rcv (PHello 1027 true)) /\ bad (Cx true true) s (rcv (PVerify 1026 [65; 66])) /\ ~ bad (Cx true true) s (rcv (PHello 1026 true)) /\ st s <> SHa
  | _ => False end.
Proof. vm_compute. repeat split; try discriminate; try (left; discriminate); auto. intros [X|X]; congruence. Qed.

(** The hypotheses of init_accepted, verify_accepted and init_noticed are met:
    a node with the highest address, and a neighbour that restarts after a hello
    was sent. *)
Example accept_example :
  match psteps (Cx true true) pstart [EStart; EDl true] with
  | Ok (s, o) => st s = SRi /\ arrives s (rcv (PInit3 100 NL1 206 false)) (PInit3 100 NL1 206 false) /\ good_init (Cx true true) (PInit3 100 NL1 206 false) 1124 3 | _ => False end /\
  match psteps (Cx true true) pstart [EStart; EDl true; rcv (PInit4 1026 NL1 false true)] with
  | Ok (s, o) => verifying (st s) = true /\ good_verify (Cx true true) (PVerify 1026 [65; 66]) (nid s) (rph s) | _ => False end /\
  match psteps (Cx false false) pstart [EStart; EDl true; rcv (PInit4 1026 NL1 false false); ETimeout] with
  | Ok (s, o) => running (st s) = true /\ last_sent o = Some SHello /\ takes (st s) (PInit4 1026 NL1 false false) = false | _ => False end.
Proof. vm_compute. repeat split; auto; try discriminate. Qed.

(** * Claims that do not hold of the code *)
(** A Phase II neighbour that repeats its Node Init while its verification is
    awaited crashes the node (rv2 takes any Node message, pkt.password). *)
Theorem rv2_nodeinit_refuted : exists C l, psteps C pstart l = Err EAttr.
Proof.
  exists {| c_phase := 4; c_type := NL1; c_area := 1; c_tid := 1; c_maxnodes := 100; c_maxarea := 63; c_works := true; c_verify := true;
     c_iverif := fun _ => Some [65]; c_overif := fun _ => None; c_name := fun _ => Some 1027 |}.
  exists [EStart; EDl true; rcv (PNodeInit 3 [88] false); rcv (PNodeInit 3 [88] false)]. vm_compute. auto.
Qed.
(** Without a password configured for a Phase II neighbour its verification
    message crashes the node (None + bytes). *)
Theorem rv2_nopassword_refuted : psteps (Cx true true) pstart [EStart; EDl true; rcv (PNodeInit 3 [88] false); rcv (PNodeVerify [65; 0; 0; 0; 0; 0; 0; 0])] = Err EType.
Proof. vm_compute. auto. Qed.
(** A datalink that cannot restart (Multinet), verification required: a second
    init while the verification is awaited crashes the node (nrec). *)
Theorem second_init_refuted : psteps (Cx false true) pstart [EStart; EDl true; rcv (PInit4 1026 NL1 false false); rcv (PInit4 1026 NL1 false false)] = Err EAttr.
Proof. vm_compute. auto. Qed.
(** On such a circuit two inits in the running state are both requeued after the
    restart; with no verification the second one is passed to routing as data. *)
Theorem requeued_init_refuted : match psteps (Cx false false) pstart
    [EStart; EDl true; rcv (PInit4 1026 NL1 false false); rcv (PHello 1026 true); rcv (PInit4 1026 NL1 false false); EDl true;
     EParsed (PInit4 1026 NL1 false false) false false; EParsed (PInit4 1026 NL1 false false) false false] with
  | Ok (s, o) => In (PPass (PInit4 1026 NL1 false false)) o | _ => False end.
Proof. vm_compute. repeat (try (left; reflexivity); right). Qed.
(** A Phase II neighbour that restarts (sends Node Init, which the running state
    takes for data, P2BareNSP) is not noticed: the circuit stays running. *)
Theorem phase2_restart_refuted : match psteps (Cx true false) pstart [EStart; EDl true; rcv (PNodeInit 3 [88] false); ERecv (OPkt P2Bare) (OPkt (PNodeInit 3 [88] false)) false false] with
  | Ok (s, o) => st s = SRu2 | _ => False end.
Proof. vm_compute. auto. Qed.
