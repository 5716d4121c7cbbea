(** C59: an endnode on a LAN sends every packet to the right station. *)
From Verif Require Import Base Dict AddrModel EndCircModel.

(** *** What a history says, most recent event first *)
(** The station from which data of node [n] last came, and how many seconds
    ago. *)
Fixpoint heard_ (n : Z) (r : list eev) : option (list Z * Z) :=
  match r with
  | [] => None
  | EData m p :: r => if p_src p =? n then Some (m, 0) else heard_ n r
  | ETick _ :: r => match heard_ n r with Some (m, k) => Some (m, k + 1) | None => None end
  | _ :: r => heard_ n r
  end.
Definition heard (n : Z) (h : list eev) := heard_ n (rev h).
(** The router of the own area last heard, and how many seconds ago. *)
Fixpoint hail_ (C : ecfg) (r : list eev) : option (Z * Z) :=
  match r with
  | [] => None
  | ERouter id _ :: r => if id / 1024 =? e_id C / 1024 then Some (id, 0) else hail_ C r
  | ETick _ :: r => match hail_ C r with Some (id, k) => Some (id, k + 1) | None => None end
  | _ :: r => hail_ C r
  end.
Definition hail (C : ecfg) (h : list eev) := hail_ C (rev h).
Fixpoint seconds (h : list eev) : Z := match h with [] => 0 | ETick _ :: t => 1 + seconds t | _ :: t => seconds t end.
(** The router in use: the last one heard, unless it has been silent for a
    listen time (3.1 hello times) it announced. *)
Definition gateway (C : ecfg) (h : list eev) (g : option Z) : Prop :=
  match g with
  | Some r => exists k timer, hail C h = Some (r, k) /\ In (ERouter r timer) h /\ k < listen C timer
  | None => hail C h = None \/ exists r k timer, hail C h = Some (r, k) /\ In (ERouter r timer) h /\ listen C timer <= k
  end.
(** No retransmission to [n] bypassed the cache. *)
Definition never_tried (n : Z) (h : list eev) : Prop :=
  forall e, In e h -> match e with ESend (Some d) _ _ true => d <> n | ESend None _ _ true => False | _ => True end.
(** Times in hellos are not negative; the own address is a node address. *)
Definition fine (e : eev) : Prop := match e with ERouter _ t => 0 <= t | _ => True end.
Definition cfg_fine (C : ecfg) : Prop := 1 <= e_t3 C.
Definition frames (o : list eout) : list (list Z * dpkt) := flat_map (fun x => match x with OFrame m p => [(m, p)] | _ => [] end) o.

Lemma listen_pos : forall C t, cfg_fine C -> 0 <= t -> 1 <= listen C t.
Proof. intros C t H T. unfold cfg_fine in H. unfold listen. destruct (Z.eqb_spec (t * 31 / 10) 0); lia. Qed.
Lemma area_eq : forall a, area a = a / 1024.
Proof. intros a. unfold area, nid_area. rewrite Z.shiftr_div_pow2 by lia. reflexivity. Qed.

(** *** The invariant *)
Record Inv (C : ecfg) (h : list eev) (s : est) : Prop := {
  i_now : now s = seconds h;
  i_dr : match edr_ s with
         | Some d => exists k timer, hail C h = Some (d_id d, k) /\ In (ERouter (d_id d) timer) h /\ d_t4 d = listen C timer /\
                       0 <= k < d_t4 d /\ d_at d = now s - k + d_t4 d
         | None => gateway C h None
         end;
  i_prev : forall n m k, dget Z.eqb (prevhops s) n = Some (m, k) ->
             exists a, heard n h = Some (m, a) /\ 0 <= a < 60 /\ dget Z.eqb (tmrs s) k = Some (n, now s - a + 60);
  i_tmr : forall k n t, dget Z.eqb (tmrs s) k = Some (n, t) -> now s < t /\ k < nxt s;
  i_nd : NoDup (dkeys (tmrs s));
  i_full : forall n, never_tried n h ->
             (forall m a, heard n h = Some (m, a) -> a < 60 -> exists k, dget Z.eqb (prevhops s) n = Some (m, k)) /\
             (forall k t, dget Z.eqb (tmrs s) k = Some (n, t) -> exists m, dget Z.eqb (prevhops s) n = Some (m, k));
  i_hello : hello_at s = (now s / e_t3 C + 1) * e_t3 C }.

Lemma seconds_snoc : forall h e, seconds (h ++ [e]) = seconds h + match e with ETick _ => 1 | _ => 0 end.
Proof. induction h as [|x h IH]; intros e; cbn [app seconds]; [destruct e; reflexivity|]. rewrite IH. destruct x; lia. Qed.
Lemma seconds_nonneg : forall h, 0 <= seconds h.
Proof. induction h as [|x h IH]; cbn [seconds]; [lia|destruct x; lia]. Qed.
Lemma heard_snoc : forall n h e, heard n (h ++ [e]) = match e with
  | EData m p => if p_src p =? n then Some (m, 0) else heard n h
  | ETick _ => match heard n h with Some (m, k) => Some (m, k + 1) | None => None end
  | _ => heard n h end.
Proof. intros n h e. unfold heard. rewrite rev_app_distr. cbn [rev app heard_]. destruct e; reflexivity. Qed.
Lemma hail_snoc : forall C h e, hail C (h ++ [e]) = match e with
  | ERouter id _ => if id / 1024 =? e_id C / 1024 then Some (id, 0) else hail C h
  | ETick _ => match hail C h with Some (m, k) => Some (m, k + 1) | None => None end
  | _ => hail C h end.
Proof. intros C h e. unfold hail. rewrite rev_app_distr. cbn [rev app hail_]. destruct e; reflexivity. Qed.
Lemma never_snoc : forall n h e, never_tried n (h ++ [e]) -> never_tried n h.
Proof. intros n h e H x X. apply H. apply in_or_app. auto. Qed.
Lemma eruns_app : forall C a b s, eruns C s (a ++ b) = eruns C (eruns C s a) b.
Proof. induction a as [|e a IH]; intros b s; cbn [app eruns]; auto. Qed.
Lemma erun_snoc : forall C h e, erun C (h ++ [e]) = fst (estep C (erun C h) e).
Proof. intros. unfold erun. rewrite eruns_app. reflexivity. Qed.

(** The cache part alone: what the designated router and the hello timer do
    does not touch it. *)
Definition same_cache (a b : est) : Prop := prevhops a = prevhops b /\ tmrs a = tmrs b /\ nxt a = nxt b /\ now a = now b.
Lemma fold_ddel : forall (due : list (Z * (Z * Z))) (d : dict Z (list Z * Z)) n,
  dget Z.eqb (fold_left (fun d kv => ddel Z.eqb d (fst (snd kv))) due d) n =
  if existsb (fun kv => fst (snd kv) =? n) due then None else dget Z.eqb d n.
Proof.
  induction due as [|[k [m t]] due IH]; intros d n; cbn [fold_left existsb]; [reflexivity|].
  rewrite IH. cbn [fst snd]. rewrite (dget_ddel Z.eqb decides_Z). rewrite (Z.eqb_sym n m). destruct (m =? n), (existsb (fun kv => fst (snd kv) =? n) due); reflexivity.
Qed.
Lemma dget_filter : forall (P : Z * (Z * Z) -> bool) (d : dict Z (Z * Z)) k, NoDup (dkeys d) ->
  dget Z.eqb (filter P d) k = match dget Z.eqb d k with Some v => if P (k, v) then Some v else None | None => None end.
Proof.
  induction d as [|[k' v] d IH]; intros k N; cbn [filter dget]; [reflexivity|].
  inversion N as [|? ? Nk Nd]; subst. destruct (Z.eqb_spec k k') as [->|Ne].
  - destruct (P (k', v)) eqn:E; cbn [dget]; [rewrite Z.eqb_refl; reflexivity|]. rewrite IH by auto.
    replace (dget Z.eqb d k') with (@None (Z * Z)); [reflexivity|]. symmetry. apply (dget_none Z.eqb decides_Z). auto.
  - destruct (P (k', v)); cbn [dget]; [destruct (Z.eqb_spec k k'); [contradiction|]|]; apply IH; auto.
Qed.
Lemma NoDup_filter_keys : forall (P : Z * (Z * Z) -> bool) (d : dict Z (Z * Z)), NoDup (dkeys d) -> NoDup (dkeys (filter P d)).
Proof.
  intros P. induction d as [|[k v] d IH]; intros N; cbn [filter]; [constructor|]. inversion N as [|? ? Nk Nd]; subst.
  destruct (P (k, v)); [|auto]. cbn [dkeys map fst]. constructor; [|apply IH; auto]. intros X. apply Nk.
  unfold dkeys in *. apply in_map_iff in X. destruct X as (y & Y1 & Y2). apply filter_In in Y2. apply in_map_iff. exists y. tauto.
Qed.

Lemma I_cache : forall C h s e s', Inv C h s -> same_cache s s' ->
  (match e with EData _ _ | ETick _ => False | _ => True end) -> (match edr_ s' with
         | Some d => exists k timer, hail C (h ++ [e]) = Some (d_id d, k) /\ In (ERouter (d_id d) timer) (h ++ [e]) /\ d_t4 d = listen C timer /\
                       0 <= k < d_t4 d /\ d_at d = now s' - k + d_t4 d
         | None => gateway C (h ++ [e]) None
         end) -> hello_at s' = hello_at s -> Inv C (h ++ [e]) s'.
Proof.
  intros C h s e s' [H1 H2 H3 H4 H5 H6 H7] (P & T & N & W) E D Hl. constructor.
  - rewrite seconds_snoc, <- W, H1. destruct e; try contradiction; lia.
  - exact D.
  - intros n m k. rewrite heard_snoc, <- P, <- T, <- W. intros X. destruct (H3 n m k X) as (a & A). exists a. destruct e; try contradiction; auto.
  - intros k n t. rewrite <- T, <- N, <- W. apply H4.
  - rewrite <- T. exact H5.
  - intros n V. destruct (H6 n (never_snoc _ _ _ V)) as (A & B). rewrite <- P, <- T. split; [|exact B].
    intros m a X. apply A. rewrite heard_snoc in X. destruct e; try contradiction; auto.
  - rewrite Hl, <- W. exact H7.
Qed.
Lemma gw_snoc : forall C h e g, (match e with ERouter id _ => id / 1024 <> e_id C / 1024 | ETick _ => False | _ => True end) -> gateway C h g -> gateway C (h ++ [e]) g.
Proof.
  intros C h e g E G.
  assert (Hh : hail C (h ++ [e]) = hail C h). { rewrite hail_snoc. destruct e; try contradiction; auto. destruct (Z.eqb_spec (id / 1024) (e_id C / 1024)); [contradiction|reflexivity]. }
  destruct g as [r|]; cbn [gateway] in *; rewrite Hh.
  - destruct G as (k & t & A & B & D). exists k, t. split; auto. split; auto. apply in_or_app. auto.
  - destruct G as [A|(r & k & t & A & B & D)]; [auto|]. right. exists r, k, t. split; auto. split; auto. apply in_or_app. auto.
Qed.
Lemma dr_snoc : forall C h e d (w : Z), (match e with ERouter id _ => id / 1024 <> e_id C / 1024 | ETick _ => False | _ => True end) ->
  (exists k timer, hail C h = Some (d_id d, k) /\ In (ERouter (d_id d) timer) h /\ d_t4 d = listen C timer /\ 0 <= k < d_t4 d /\ d_at d = w - k + d_t4 d) ->
  exists k timer, hail C (h ++ [e]) = Some (d_id d, k) /\ In (ERouter (d_id d) timer) (h ++ [e]) /\ d_t4 d = listen C timer /\ 0 <= k < d_t4 d /\ d_at d = w - k + d_t4 d.
Proof.
  intros C h e d w E (k & t & A & B & D). exists k, t. split; [|split; [apply in_or_app; auto|auto]].
  rewrite hail_snoc. destruct e; try contradiction; auto. destruct (Z.eqb_spec (id / 1024) (e_id C / 1024)); [contradiction|auto].
Qed.
Lemma same_refl : forall s, same_cache s s. Proof. intros. repeat split. Qed.

Lemma I_start : forall C, Inv C [] (fst (estart C)).
Proof.
  intros C. constructor; cbn [estart sendhello fst now edr_ prevhops tmrs nxt hello_at].
  - reflexivity.
  - left. reflexivity.
  - intros n m k X. discriminate X.
  - intros k n t X. discriminate X.
  - constructor.
  - intros n _. split; [intros m a X; discriminate X|intros k t X; discriminate X].
  - rewrite Zdiv_0_l. lia.
Qed.
Lemma I_router : forall C h s id timer, cfg_fine C -> 0 <= timer -> Inv C h s -> Inv C (h ++ [ERouter id timer]) (fst (router C s id timer)).
Proof.
  intros C h s id timer CF T H. pose proof (listen_pos C timer CF T) as LP. unfold router. rewrite !area_eq.
  destruct (Z.eqb_spec (id / 1024) (e_id C / 1024)) as [Ea|Na]; cbn [negb].
  - assert (Hh : hail C (h ++ [ERouter id timer]) = Some (id, 0)) by (rewrite hail_snoc; destruct (Z.eqb_spec (id / 1024) (e_id C / 1024)); [reflexivity|contradiction]).
    assert (New : Inv C (h ++ [ERouter id timer]) (fst (newdr C s id timer))).
    { apply (I_cache C h s); auto; [repeat split|]. cbn [newdr fst set_dr edr_ d_id d_t4 d_at now]. exists 0, timer. split; auto.
      split; [apply in_or_app; right; left; reflexivity|]. split; auto. split; lia. }
    destruct (edr_ s) as [d|] eqn:Ed; [|exact New]. destruct (Z.eqb_spec (d_id d) id) as [Ei|Ni]; cbn [negb].
    + apply (I_cache C h s); auto; [repeat split|]. cbn [fst set_dr edr_ d_id d_t4 d_at now].
      destruct H as [_ H2 _ _ _ _ _]. rewrite Ed in H2. destruct H2 as (k & t & A & B & D & F & G).
      exists 0, t. rewrite Ei in *. split; auto. split; [apply in_or_app; auto|]. split; auto. split; lia.
    + destruct (newdr C s id timer) as [s1 o1]. exact New.
  - apply (I_cache C h s); auto; [repeat split|]. pose proof (i_dr _ _ _ H) as H2. cbn [fst]. destruct (edr_ s) as [d|].
    + apply dr_snoc; auto.
    + apply gw_snoc; auto.
Qed.
Lemma I_data : forall C h s src p, Inv C h s -> Inv C (h ++ [EData src p]) (remember s (p_src p) src).
Proof.
  intros C h s src p H. pose proof H as [H1 H2 H3 H4 H5 H6 H7]. unfold remember. set (n0 := p_src p).
  assert (K : exists k nx, (match dget Z.eqb (prevhops s) n0 with
      | Some (_, k) => set_prev s (dset Z.eqb (prevhops s) n0 (src, k)) (dset Z.eqb (tmrs s) k (n0, now s + CACHETIME)) (nxt s)
      | None => set_prev s (dset Z.eqb (prevhops s) n0 (src, nxt s)) (dset Z.eqb (tmrs s) (nxt s) (n0, now s + CACHETIME)) (nxt s + 1)
      end) = set_prev s (dset Z.eqb (prevhops s) n0 (src, k)) (dset Z.eqb (tmrs s) k (n0, now s + CACHETIME)) nx /\ nxt s <= nx /\ k < nx /\
      (forall n t, dget Z.eqb (tmrs s) k = Some (n, t) -> n = n0) /\
      (forall m k', dget Z.eqb (prevhops s) n0 = Some (m, k') -> k' = k)).
  { destruct (dget Z.eqb (prevhops s) n0) as [[m k]|] eqn:E.
    - exists k, (nxt s). destruct (H3 _ _ _ E) as (a & _ & _ & T). pose proof (H4 _ _ _ T) as (_ & L). split; [reflexivity|]. split; [lia|]. split; [lia|].
      split; [intros n t X; congruence|intros m' k' X; congruence].
    - exists (nxt s), (nxt s + 1). split; [reflexivity|]. split; [lia|]. split; [lia|]. split; [|intros m k' X; discriminate X].
      intros n t X. apply H4 in X. lia. }
  destruct K as (k & nx & -> & L1 & L2 & Kn & Kp).
  assert (Other : forall n m k', n <> n0 -> dget Z.eqb (prevhops s) n = Some (m, k') -> k' <> k).
  { intros n m k' Nn X ->. destruct (H3 _ _ _ X) as (a & _ & _ & T). apply Kn in T. contradiction. }
  assert (Hh : forall n, heard n (h ++ [EData src p]) = if n0 =? n then Some (src, 0) else heard n h) by (intros n; rewrite heard_snoc; reflexivity).
  constructor; cbn [set_prev now edr_ prevhops tmrs nxt hello_at].
  - rewrite seconds_snoc. lia.
  - destruct (edr_ s) as [d|]; [apply dr_snoc; auto; exact I|apply gw_snoc; auto; exact I].
  - intros n m k' X. rewrite (dget_dset Z.eqb decides_Z) in X. rewrite Hh, (dget_dset Z.eqb decides_Z). rewrite (Z.eqb_sym n0 n). destruct (Z.eqb_spec n n0) as [->|Nn].
    + injection X as <- <-. exists 0. rewrite Z.eqb_refl. split; auto. split; [lia|]. f_equal. f_equal. unfold CACHETIME. lia.
    + destruct (Z.eqb_spec k' k) as [->|Nk]; [exfalso; apply (Other n m k Nn X); reflexivity|]. apply H3. exact X.
  - intros k' n t X. rewrite (dget_dset Z.eqb decides_Z) in X. destruct (Z.eqb_spec k' k) as [->|Nk].
    + injection X as <- <-. unfold CACHETIME. lia.
    + apply H4 in X. lia.
  - apply NoDup_dset; auto. apply decides_Z.
  - intros n V. destruct (H6 n (never_snoc _ _ _ V)) as (A & B). rewrite Hh. setoid_rewrite (dget_dset Z.eqb decides_Z). rewrite (Z.eqb_sym n0 n).
    destruct (Z.eqb_spec n n0) as [->|Nn].
    + split; [intros m a X L; injection X as <- <-; eauto|]. intros k' t X. destruct (Z.eqb_spec k' k) as [->|Nk]; [eauto|].
      exfalso. destruct (B _ _ X) as (m & Y). apply Kp in Y. contradiction.
    + split; [exact A|]. intros k' t X. destruct (Z.eqb_spec k' k) as [->|Nk]; [injection X as X _; congruence|]. eapply B; eauto.
  - exact H7.
Qed.
Lemma I_expire : forall C h s s', Inv C h s -> s' = expire_cache {| now := now s + 1; edr_ := edr_ s; prevhops := prevhops s; tmrs := tmrs s; nxt := nxt s; hello_at := hello_at s |} ->
  forall f, let h' := h ++ [ETick f] in now s' = seconds h' /\
  (forall n m k, dget Z.eqb (prevhops s') n = Some (m, k) -> exists a, heard n h' = Some (m, a) /\ 0 <= a < 60 /\ dget Z.eqb (tmrs s') k = Some (n, now s' - a + 60)) /\
  (forall k n t, dget Z.eqb (tmrs s') k = Some (n, t) -> now s' < t /\ k < nxt s') /\ NoDup (dkeys (tmrs s')) /\
  (forall n, never_tried n h' ->
             (forall m a, heard n h' = Some (m, a) -> a < 60 -> exists k, dget Z.eqb (prevhops s') n = Some (m, k)) /\
             (forall k t, dget Z.eqb (tmrs s') k = Some (n, t) -> exists m, dget Z.eqb (prevhops s') n = Some (m, k))).
Proof.
  intros C h s s' [H1 H2 H3 H4 H5 H6 H7] -> f h'. unfold expire_cache. cbn [set_prev now edr_ prevhops tmrs nxt hello_at].
  set (w := now s + 1). set (due := filter (fun kv => snd (snd kv) =? w) (tmrs s)).
  assert (Hh : forall n, heard n h' = match heard n h with Some (m, k) => Some (m, k + 1) | None => None end) by (intros n; exact (heard_snoc n h (ETick f))).
  assert (Due : forall n, existsb (fun kv => fst (snd kv) =? n) due = true -> exists k, dget Z.eqb (tmrs s) k = Some (n, w)).
  { intros n X. apply existsb_exists in X. destruct X as ((k & m & t) & X1 & X2). apply filter_In in X1. destruct X1 as (X1 & X3). cbn [fst snd] in *.
    exists k. apply (in_dget Z.eqb decides_Z); auto. replace n with m by lia. replace w with t by lia. exact X1. }
  assert (Due2 : forall n k, dget Z.eqb (tmrs s) k = Some (n, w) -> existsb (fun kv => fst (snd kv) =? n) due = true).
  { intros n k X. apply (dget_in Z.eqb decides_Z) in X. apply existsb_exists. exists (k, (n, w)). split; [|cbn [fst snd]; apply Z.eqb_refl].
    apply filter_In. split; auto. cbn [snd]. apply Z.eqb_refl. }
  split; [unfold h'; rewrite seconds_snoc; unfold w; lia|]. split; [|split; [|split; [|]]].
  - intros n m k X. rewrite fold_ddel in X. destruct (existsb (fun kv => fst (snd kv) =? n) due) eqn:E; [discriminate X|].
    destruct (H3 _ _ _ X) as (a & A & B & D). exists (a + 1). rewrite Hh, A. split; auto.
    assert (now s - a + 60 <> w). { intros Y. rewrite Y in D. apply Due2 in D. congruence. }
    split; [unfold w in *; lia|]. rewrite dget_filter by auto. rewrite D. cbn [snd]. destruct (Z.eqb_spec (now s - a + 60) w); [contradiction|].
    cbn [negb]. f_equal. f_equal. unfold w. lia.
  - intros k n t X. rewrite dget_filter in X by auto. destruct (dget Z.eqb (tmrs s) k) as [[n' t']|] eqn:E; [|discriminate X]. cbn [snd] in X.
    destruct (Z.eqb_spec t' w); [discriminate X|]. cbn [negb] in X. injection X as <- <-. apply H4 in E. unfold w in *. lia.
  - apply NoDup_filter_keys. auto.
  - intros n V. destruct (H6 n (never_snoc _ _ _ V)) as (A & B). split.
    + intros m a X L. rewrite Hh in X. destruct (heard n h) as [[m' a']|] eqn:E; [|discriminate X]. injection X as <- <-.
      destruct (A _ _ eq_refl ltac:(lia)) as (k & K). exists k. rewrite fold_ddel. destruct (existsb (fun kv => fst (snd kv) =? n) due) eqn:Ex; [|exact K].
      exfalso. destruct (Due _ Ex) as (k2 & K2). destruct (B _ _ K2) as (m2 & M2). rewrite K in M2. injection M2 as <- <-.
      destruct (H3 _ _ _ K) as (a2 & A2 & _ & T2). rewrite E in A2. injection A2 as <-. rewrite T2 in K2. injection K2 as K2. unfold w in K2. lia.
    + intros k t X. rewrite dget_filter in X by auto. destruct (dget Z.eqb (tmrs s) k) as [[n' t']|] eqn:E; [|discriminate X]. cbn [snd] in X.
      destruct (Z.eqb_spec t' w); [discriminate X|]. cbn [negb] in X. injection X as -> <-. destruct (B _ _ E) as (m & M). exists m.
      rewrite fold_ddel. destruct (existsb (fun kv => fst (snd kv) =? n) due) eqn:Ex; [|exact M]. exfalso.
      destruct (Due _ Ex) as (k2 & K2). destruct (B _ _ K2) as (m2 & M2). rewrite M in M2. injection M2 as <- <-. rewrite E in K2. injection K2 as K2. contradiction.
Qed.
Lemma dr_tick : forall C h f s s1 o, cfg_fine C -> Inv C h s -> edr_ s1 = edr_ s -> now s1 = now s + 1 -> expire_dr s1 = (fst (expire_dr s1), o) ->
  match edr_ (fst (expire_dr s1)) with
  | Some d => exists k timer, hail C (h ++ [ETick f]) = Some (d_id d, k) /\ In (ERouter (d_id d) timer) (h ++ [ETick f]) /\ d_t4 d = listen C timer /\
                0 <= k < d_t4 d /\ d_at d = now s1 - k + d_t4 d
  | None => gateway C (h ++ [ETick f]) None
  end.
Proof.
  intros C h f s s1 o CF H Ed Nw _. pose proof (i_dr _ _ _ H) as H2. unfold expire_dr. rewrite Ed. destruct (edr_ s) as [d|] eqn:E.
  - destruct H2 as (k & t & A & B & D & F & G).
    assert (Hh : hail C (h ++ [ETick f]) = Some (d_id d, k + 1)) by (rewrite hail_snoc, A; reflexivity).
    destruct (Z.eqb_spec (d_at d) (now s1)) as [Ex|Ex]; cbn [fst set_dr edr_].
    + right. exists (d_id d), (k + 1), t. split; auto. split; [apply in_or_app; auto|]. lia.
    + rewrite Ed. exists (k + 1), t. split; auto. split; [apply in_or_app; auto|]. split; auto. split; lia.
  - cbn [fst]. rewrite Ed. cbn [gateway] in *. rewrite hail_snoc. destruct H2 as [A|(r & k & t & A & B & D)].
    + left. rewrite A. reflexivity.
    + right. exists r, (k + 1), t. rewrite A. split; auto. split; [apply in_or_app; auto|]. lia.
Qed.
Lemma hello_next : forall t n, 1 <= t -> 0 <= n -> (n + 1 = (n / t + 1) * t -> (n + 1) / t = n / t + 1 /\ (n + 1) mod t = 0) /\
  (n + 1 <> (n / t + 1) * t -> (n + 1) / t = n / t /\ (n + 1) mod t <> 0).
Proof.
  intros t n T N. pose proof (Z.div_mod n t ltac:(lia)) as D. pose proof (Z.mod_pos_bound n t ltac:(lia)) as M. split; intros H.
  - assert (E : (n + 1) / t = n / t + 1) by (rewrite H at 1; apply Z.div_mul; lia). split; auto. rewrite H. apply Z.mod_mul. lia.
  - assert (E : (n + 1) / t = n / t) by (symmetry; apply (Z.div_unique (n + 1) t (n / t) (n mod t + 1)); nia). split; auto.
    rewrite Z.mod_eq by lia. rewrite E. nia.
Qed.
Lemma tick_parts : forall C s f, let s1 := expire_cache {| now := now s + 1; edr_ := edr_ s; prevhops := prevhops s; tmrs := tmrs s; nxt := nxt s; hello_at := hello_at s |} in
  let s2 := fst (tick C s f) in prevhops s2 = prevhops s1 /\ tmrs s2 = tmrs s1 /\ nxt s2 = nxt s1 /\ now s2 = now s1 /\ edr_ s2 = edr_ (fst (expire_dr s1)) /\
  hello_at s2 = (if hello_at s =? now s + 1 then now s + 1 + e_t3 C else hello_at s).
Proof.
  intros C s f s1. unfold tick. fold s1. assert (Hh : hello_at s1 = hello_at s) by reflexivity. assert (Hn : now s1 = now s + 1) by reflexivity.
  rewrite <- Hn. clearbody s1.
  assert (E1 : forall x, prevhops (fst (expire_dr x)) = prevhops x /\ tmrs (fst (expire_dr x)) = tmrs x /\ nxt (fst (expire_dr x)) = nxt x /\ now (fst (expire_dr x)) = now x /\ hello_at (fst (expire_dr x)) = hello_at x).
  { intros x. unfold expire_dr. destruct (edr_ x) as [d|]; [destruct (d_at d =? now x)|]; repeat split. }
  assert (E2 : forall x, prevhops (fst (expire_hello C x)) = prevhops x /\ tmrs (fst (expire_hello C x)) = tmrs x /\ nxt (fst (expire_hello C x)) = nxt x /\ now (fst (expire_hello C x)) = now x /\ edr_ (fst (expire_hello C x)) = edr_ x /\
    hello_at (fst (expire_hello C x)) = if hello_at x =? now x then now x + e_t3 C else hello_at x).
  { intros x. unfold expire_hello. destruct (hello_at x =? now x); repeat split. }
  assert (E3 : edr_ (fst (expire_dr (fst (expire_hello C s1)))) = edr_ (fst (expire_dr s1))).
  { unfold expire_dr. destruct (E2 s1) as (_ & _ & _ & -> & -> & _). destruct (edr_ s1) as [d|] eqn:Ed; [destruct (d_at d =? now s1)|]; cbn [fst set_dr edr_]; auto;
      destruct (E2 s1) as (_ & _ & _ & _ & -> & _); auto. }
  destruct f.
  - destruct (expire_hello C s1) as [a o1] eqn:Ea. destruct (expire_dr a) as [b o2] eqn:Eb. cbn [fst].
    destruct (E1 a) as (A1 & A2 & A3 & A4 & A5). destruct (E2 s1) as (B1 & B2 & B3 & B4 & B5 & B6). rewrite Ea in *. rewrite Eb in *. cbn [fst] in *.
    rewrite A1, A2, A3, A4, A5, B1, B2, B3, B4, B6, Hh. rewrite Eb in E3. cbn [fst] in E3. rewrite E3. repeat split.
  - destruct (expire_dr s1) as [a o1] eqn:Ea. destruct (expire_hello C a) as [b o2] eqn:Eb. cbn [fst].
    destruct (E1 s1) as (A1 & A2 & A3 & A4 & A5). destruct (E2 a) as (B1 & B2 & B3 & B4 & B5 & B6). rewrite Ea in *. rewrite Eb in *. cbn [fst] in *.
    rewrite B1, B2, B3, B4, B5, B6, A1, A2, A3, A4, A5, Hh. repeat split.
Qed.
Lemma I_tick : forall C h s f, cfg_fine C -> Inv C h s -> Inv C (h ++ [ETick f]) (fst (tick C s f)).
Proof.
  intros C h s f CF H. destruct (I_expire C h s _ H eq_refl f) as (X1 & X3 & X4 & X5 & X6). destruct (tick_parts C s f) as (P1 & P2 & P3 & P4 & P5 & P6).
  set (s1 := expire_cache _) in *. constructor.
  - rewrite P4. exact X1.
  - rewrite P4, P5. apply (dr_tick C h f s s1 (snd (expire_dr s1))); auto. destruct (expire_dr s1); reflexivity.
  - rewrite P1, P2, P4. exact X3.
  - rewrite P2, P3, P4. exact X4.
  - rewrite P2. exact X5.
  - rewrite P1, P2. exact X6.
  - rewrite P6, P4. change (now s1) with (now s + 1). pose proof (i_now _ _ _ H) as N. pose proof (seconds_nonneg h). pose proof (i_hello _ _ _ H) as L.
    destruct (hello_next (e_t3 C) (now s) CF ltac:(lia)) as (A & B). rewrite L. destruct (Z.eqb_spec ((now s / e_t3 C + 1) * e_t3 C) (now s + 1)) as [E|E].
    + destruct (A (eq_sym E)) as (-> & _). lia.
    + destruct (B (fun x => E (eq_sym x))) as (-> & _). reflexivity.
Qed.
(** Sending: the state changes only when the cache is bypassed. *)
Definition pkt_of (C : ecfg) (dest : option Z) (data : list Z) (rqr : bool) : dpkt :=
  {| p_dst := match dest with Some d => d | None => e_id C end; p_src := e_id C; p_rqr := rqr; p_rts := false; p_data := data |}.
Lemma rsend_state : forall C s dest data rqr th, fst (rsend C s dest data rqr th) =
  if th && negb (match dest with Some d => d =? e_id C | None => false end) then cache_expire s (match dest with Some d => d | None => e_id C end) else s.
Proof.
  intros C s dest data rqr th. unfold rsend. destruct (match dest with Some d => d =? e_id C | None => false end); [rewrite andb_false_r; reflexivity|]. rewrite andb_true_r.
  unfold csend. cbn [p_dst]. set (d := match dest with Some d => d | None => e_id C end).
  destruct th; [|destruct (dget Z.eqb (prevhops s) d) as [[m k]|]]; [|cbn [negb andb]; destruct rqr; reflexivity|];
    (match goal with |- context [edr_ ?x] => destruct (edr_ x) as [g|] end; [|destruct (d =? e_id C)]); cbn [negb andb]; try (destruct rqr); reflexivity.
Qed.
Lemma I_send : forall C h s dest data rqr th, Inv C h s -> Inv C (h ++ [ESend dest data rqr th]) (fst (rsend C s dest data rqr th)).
Proof.
  intros C h s dest data rqr th H. rewrite rsend_state. pose proof H as [H1 H2 H3 H4 H5 H6 H7].
  destruct (th && negb (match dest with Some d => d =? e_id C | None => false end)) eqn:E.
  - apply andb_true_iff in E. destruct E as (-> & E). set (d := match dest with Some d => d | None => e_id C end).
    unfold cache_expire. constructor; cbn [set_prev now edr_ prevhops tmrs nxt hello_at]; auto.
    + rewrite seconds_snoc. lia.
    + destruct (edr_ s) as [g|]; [apply dr_snoc; auto; exact I|apply gw_snoc; auto; exact I].
    + intros n m k X. rewrite (dget_ddel Z.eqb decides_Z) in X. destruct (n =? d); [discriminate X|]. rewrite heard_snoc. apply H3. exact X.
    + intros n V. rewrite heard_snoc. setoid_rewrite (dget_ddel Z.eqb decides_Z). pose proof (V (ESend dest data rqr true) ltac:(apply in_or_app; right; left; reflexivity)) as Vd.
      assert (Nd : (n =? d) = false) by (destruct dest as [x|]; [unfold d; apply Z.eqb_neq; intros ->; apply Vd; reflexivity|destruct Vd]).
      rewrite Nd. apply H6. eapply never_snoc; eauto.
  - apply (I_cache C h s); auto; [repeat split|]. destruct (edr_ s) as [g|]; [apply dr_snoc; auto; exact I|apply gw_snoc; auto; exact I].
Qed.

Lemma I_reach : forall C h, cfg_fine C -> Forall fine h -> Inv C h (erun C h).
Proof.
  intros C h CF. induction h as [|e h IH] using rev_ind; intros F; [apply I_start|].
  apply Forall_app in F. destruct F as (F & Fe). inversion Fe as [|? ? Fe' _]; subst. specialize (IH F). rewrite erun_snoc. destruct e as [id t|src p|dest data rqr th|f]; cbn [estep].
  - apply I_router; auto.
  - cbn [fst]. apply I_data; auto.
  - apply I_send; auto.
  - apply I_tick; auto.
Qed.
Lemma gateway_dr : forall C h s, Inv C h s -> gateway C h (match edr_ s with Some d => Some (d_id d) | None => None end).
Proof.
  intros C h s H. pose proof (i_dr _ _ _ H) as D. destruct (edr_ s) as [d|]; [|exact D]. destruct D as (k & t & A & B & E & F & _). exists k, t. rewrite <- E. split; auto. split; auto. lia.
Qed.

(** *** Where packets go *)
(** The station to fall back on: the router, or the destination itself. *)
Definition via (g : option Z) (dst : Z) : list Z := match g with Some r => nmac r | None => nmac dst end.
(** A packet for another node is sent exactly once.  It goes to the station the
    destination was last heard from, if that was less than a minute ago, and
    otherwise, or when a retransmission asks for it, to the router in use, or
    with no router to the destination itself.  (After a retransmission the
    cache may be bypassed again, see endnode_cache_refuted.) *)
Theorem endnode_next_hop : forall C h dst data rqr th, cfg_fine C -> Forall fine h -> dst <> e_id C ->
  exists m g, frames (snd (estep C (erun C h) (ESend (Some dst) data rqr th))) = [(m, pkt_of C (Some dst) data rqr)] /\ gateway C h g /\
    (th = false -> never_tried dst h -> forall m0 k, heard dst h = Some (m0, k) -> k < 60 -> m = m0) /\
    (th = true \/ heard dst h = None \/ (exists m0 k, heard dst h = Some (m0, k) /\ 60 <= k) -> m = via g dst) /\
    (m = via g dst \/ exists k, heard dst h = Some (m, k) /\ k < 60).
Proof.
  intros C h dst data rqr th CF F Nd. pose proof (I_reach C h CF F) as H. set (s := erun C h) in *. clearbody s. pose proof (gateway_dr C h s H) as G.
  cbn [estep]. unfold rsend. fold (pkt_of C (Some dst) data rqr). destruct (Z.eqb_spec dst (e_id C)) as [|_]; [contradiction|].
  set (p := pkt_of C (Some dst) data rqr). assert (Pd : p_dst p = dst) by reflexivity. unfold csend. rewrite Pd.
  assert (Fin : forall (s' : est) o (ok : bool) q, frames o = [q] -> forall P, frames (snd (if negb ok && rqr then (s', o ++ deliver C false P) else (s', o))) = [q]).
  { intros s' o ok q Q P. destruct (negb ok && rqr); cbn [snd]; auto. unfold frames in *. rewrite flat_map_app, Q. unfold deliver. destruct (p_dst P =? e_id C); reflexivity. }
  destruct (if th then None else dget Z.eqb (prevhops s) dst) as [[m k]|] eqn:E.
  - destruct th; [discriminate E|]. destruct (i_prev _ _ _ H _ _ _ E) as (a & A & B & _). exists m, (match edr_ s with Some d => Some (d_id d) | None => None end).
    split; [apply Fin; reflexivity|]. split; auto. split; [intros _ _ m0 k0 X _; congruence|]. split.
    + intros [X|[X|(m0 & k0 & X & L)]]; [discriminate X|congruence|]. rewrite A in X. injection X as <- <-. lia.
    + right. exists a. split; auto. lia.
  - set (s1 := if th then cache_expire s dst else s). assert (Es : edr_ s1 = edr_ s) by (unfold s1; destruct th; reflexivity). clearbody s1. rewrite Es.
    exists (via (match edr_ s with Some d => Some (d_id d) | None => None end) dst), (match edr_ s with Some d => Some (d_id d) | None => None end).
    split; [destruct (edr_ s) as [d|]; [|destruct (Z.eqb_spec dst (e_id C)); [contradiction|]]; apply Fin; reflexivity|]. split; auto. split; [|split; [reflexivity|left; reflexivity]].
    intros -> V m0 k X L. exfalso. destruct (i_full _ _ _ H dst V) as (A & _). destruct (A _ _ X L) as (k' & K). congruence.
Qed.
Print Assumptions endnode_next_hop.
(** Two routers in use at the same time would make the statement ambiguous:
    with a fixed hello time of each router there is only one answer. *)
Theorem endnode_gateway_unique : forall C h g1 g2 (tm : Z -> Z), (forall r t, In (ERouter r t) h -> t = tm r) -> gateway C h g1 -> gateway C h g2 -> g1 = g2.
Proof.
  intros C h g1 g2 tm T G1 G2. destruct g1 as [r1|], g2 as [r2|]; cbn [gateway] in *.
  - destruct G1 as (k1 & t1 & A1 & _). destruct G2 as (k2 & t2 & A2 & _). congruence.
  - destruct G1 as (k1 & t1 & A1 & B1 & D1). destruct G2 as [A2|(r & k2 & t2 & A2 & B2 & D2)]; [congruence|]. rewrite A1 in A2. injection A2 as <- <-.
    apply T in B1, B2. subst. lia.
  - destruct G2 as (k1 & t1 & A1 & B1 & D1). destruct G1 as [A2|(r & k2 & t2 & A2 & B2 & D2)]; [congruence|]. rewrite A1 in A2. injection A2 as <- <-.
    apply T in B1, B2. subst. lia.
  - reflexivity.
Qed.
Print Assumptions endnode_gateway_unique.

(** *** Hellos *)
Definition hellos (o : list eout) : list (list Z) := flat_map (fun x => match x with OHello m => [m] | _ => [] end) o.
Definition neighbor (g : option Z) : list Z := match g with Some r => nmac r | None => [0; 0; 0; 0; 0; 0] end.
(** A hello goes out when the circuit starts, and then every hello time, and at
    no other moment; it names the router in use. *)
Theorem endnode_hello : forall C h e, cfg_fine C -> Forall fine h -> fine e ->
  let o := hellos (snd (estep C (erun C h) e)) in
  match e with
  | ETick _ => if seconds (h ++ [e]) mod e_t3 C =? 0
               then exists g, o = [neighbor g] /\ (gateway C h g \/ gateway C (h ++ [e]) g) else o = []
  | _ => o = []
  end.
Proof.
  intros C h e CF F Fe o. pose proof (I_reach C h CF F) as H. assert (H' : Inv C (h ++ [e]) (erun C (h ++ [e]))) by (apply I_reach; auto; apply Forall_app; auto).
  rewrite erun_snoc in H'. unfold o. clear o. set (s := erun C h) in *. clearbody s. destruct e as [id t|src p|dest data rqr th|f]; cbn [estep] in *.
  - unfold router, newdr. destruct (negb (area id =? area (e_id C))); [reflexivity|]. destruct (edr_ s) as [d|]; [destruct (negb (d_id d =? id))|]; reflexivity.
  - cbn [snd]. unfold deliver. destruct (p_dst p =? e_id C); reflexivity.
  - assert (D : forall b q, hellos (deliver C b q) = []) by (intros b q; unfold deliver; destruct (p_dst q =? e_id C); reflexivity).
    assert (Ap : forall a b, hellos (a ++ b) = hellos a ++ hellos b) by (intros; apply flat_map_app).
    unfold rsend. destruct (match dest with Some d => d =? e_id C | None => false end); [apply D|]. unfold csend.
    destruct (if th then None else dget Z.eqb (prevhops s) _) as [[m k]|]; [|destruct (edr_ _) as [d|]; [|destruct (_ =? _)]];
      match goal with |- context [if ?q then _ else _] => destruct q end; cbn [snd]; rewrite ?Ap, ?D; reflexivity.
  - rewrite seconds_snoc. pose proof (i_now _ _ _ H) as N. rewrite <- N. pose proof (seconds_nonneg h) as Sn. pose proof (i_hello _ _ _ H) as L.
    destruct (hello_next (e_t3 C) (now s) CF ltac:(lia)) as (A & B).
    pose proof (gateway_dr C h s H) as G1. pose proof (gateway_dr _ _ _ H') as G2. destruct (tick_parts C s f) as (_ & _ & _ & _ & P5 & _). rewrite P5 in G2.
    unfold tick. set (s1 := expire_cache _) in *. assert (Hh : hello_at s1 = hello_at s) by reflexivity. assert (Hn : now s1 = now s + 1) by reflexivity. assert (Hd : edr_ s1 = edr_ s) by reflexivity. clearbody s1.
    assert (Ap : forall a b, hellos (a ++ b) = hellos a ++ hellos b) by (intros; apply flat_map_app).
    assert (Dd : forall x, hellos (snd (expire_dr x)) = [] /\ hello_at (fst (expire_dr x)) = hello_at x /\ now (fst (expire_dr x)) = now x).
    { intros x. unfold expire_dr. destruct (edr_ x) as [d|]; [destruct (d_at d =? now x)|]; repeat split. }
    assert (Hl : forall x, hellos (snd (expire_hello C x)) = if hello_at x =? now x then [neighbor (match edr_ x with Some d => Some (d_id d) | None => None end)] else []).
    { intros x. unfold expire_hello. destruct (hello_at x =? now x); [|reflexivity]. cbn. destruct (edr_ x); reflexivity. }
    assert (Cond : (hello_at s1 =? now s1) = ((now s + 1) mod e_t3 C =? 0)).
    { rewrite Hh, Hn, L. destruct (Z.eqb_spec ((now s / e_t3 C + 1) * e_t3 C) (now s + 1)) as [E|E].
      - destruct (A (eq_sym E)) as (_ & ->). reflexivity.
      - destruct (B (fun x => E (eq_sym x))) as (_ & X). symmetry. apply Z.eqb_neq. exact X. }
    destruct f.
    + destruct (expire_hello C s1) as [a o1] eqn:Ea. destruct (expire_dr a) as [b o2] eqn:Eb. cbn [snd]. rewrite Ap.
      destruct (Dd a) as (D1 & _). rewrite Eb in D1. cbn [snd] in D1. rewrite D1, app_nil_r. pose proof (Hl s1) as Hs. rewrite Ea in Hs. cbn [snd] in Hs. rewrite Hs, Cond.
      destruct ((now s + 1) mod e_t3 C =? 0); [|reflexivity]. eexists. split; [reflexivity|]. left. rewrite Hd. exact G1.
    + destruct (expire_dr s1) as [a o1] eqn:Ea. destruct (expire_hello C a) as [b o2] eqn:Eb. cbn [snd]. rewrite Ap.
      destruct (Dd s1) as (D1 & D2 & D3). rewrite Ea in D1, D2, D3. cbn [fst snd] in *. rewrite D1. cbn [app]. pose proof (Hl a) as Hs. rewrite Eb in Hs. cbn [snd] in Hs. rewrite Hs, D2, D3, Cond.
      destruct ((now s + 1) mod e_t3 C =? 0); [|reflexivity]. eexists. split; [reflexivity|]. right. exact G2.
Qed.
Print Assumptions endnode_hello.

(** *** Reports and deliveries over a whole history *)
Fixpoint eouts (C : ecfg) (s : est) (h : list eev) : list eout :=
  match h with [] => [] | e :: t => snd (estep C s e) ++ eouts C (fst (estep C s e)) t end.
(** Everything the circuit puts out, from the start. *)
Definition eall (C : ecfg) (h : list eev) : list eout := snd (estart C) ++ eouts C (fst (estart C)) h.
Lemma eouts_app : forall C a b s, eouts C s (a ++ b) = eouts C s a ++ eouts C (eruns C s a) b.
Proof. induction a as [|e a IH]; intros b s; cbn [app eouts eruns]; [reflexivity|]. rewrite IH, app_assoc. reflexivity. Qed.
Lemma eall_snoc : forall C h e, eall C (h ++ [e]) = eall C h ++ snd (estep C (erun C h) e).
Proof. intros. unfold eall, erun. rewrite eouts_app. cbn [eouts]. rewrite app_nil_r, app_assoc. reflexivity. Qed.
(** Reading the up and down events: None when they do not fit together. *)
Fixpoint told (g : option Z) (o : list eout) : option (option Z) :=
  match o with
  | [] => Some g
  | OEvUp r :: o => match g with None => told (Some r) o | Some _ => None end
  | OEvDown r :: o => match g with Some r' => if r' =? r then told None o else None | None => None end
  | _ :: o => told g o
  end.
Lemma told_app : forall a b g, told g (a ++ b) = match told g a with Some g' => told g' b | None => None end.
Proof.
  induction a as [|x a IH]; intros b g; cbn [app told]; [reflexivity|]. destruct x; auto.
  - destruct g; auto.
  - destruct g as [r|]; auto. destruct (r =? id); auto.
Qed.
Definition dr_id (s : est) : option Z := match edr_ s with Some d => Some (d_id d) | None => None end.
Lemma told_step : forall C s e, told (dr_id s) (snd (estep C s e)) = Some (dr_id (fst (estep C s e))).
Proof.
  intros C s e.
  assert (D : forall b q g, told g (deliver C b q) = Some g) by (intros b q g; unfold deliver; destruct (p_dst q =? e_id C); reflexivity).
  destruct e as [id t|src p|dest data rqr th|f]; cbn [estep].
  - unfold router, newdr, dr_id. destruct (negb (area id =? area (e_id C))); [reflexivity|]. destruct (edr_ s) as [d|] eqn:E.
    + destruct (negb (d_id d =? id)); cbn [fst snd app told set_dr edr_]; [rewrite Z.eqb_refl|]; reflexivity.
    + reflexivity.
  - cbn [fst snd]. rewrite D. f_equal. unfold dr_id, remember. destruct (dget Z.eqb (prevhops s) (p_src p)) as [[m k]|]; reflexivity.
  - assert (Es : dr_id (fst (rsend C s dest data rqr th)) = dr_id s) by (rewrite rsend_state; destruct (th && _); reflexivity). rewrite Es.
    unfold rsend. destruct (match dest with Some d => d =? e_id C | None => false end); [apply D|]. unfold csend.
    destruct (if th then None else dget Z.eqb (prevhops s) _) as [[m k]|]; [|destruct (edr_ _) as [d|]; [|destruct (_ =? _)]];
      match goal with |- context [if ?q then _ else _] => destruct q end; cbn [snd]; rewrite ?told_app; cbn [told]; rewrite ?D; reflexivity.
  - destruct (tick_parts C s f) as (_ & _ & _ & _ & P5 & _). unfold dr_id at 2. rewrite P5. unfold tick. set (s1 := expire_cache _) in *.
    assert (Hd : dr_id s1 = dr_id s) by reflexivity. rewrite <- Hd. clearbody s1.
    assert (Dd : forall x, told (dr_id x) (snd (expire_dr x)) = Some (dr_id (fst (expire_dr x)))).
    { intros x. unfold expire_dr, dr_id. destruct (edr_ x) as [d|] eqn:E; [destruct (d_at d =? now x)|]; cbn [fst snd told set_dr edr_]; rewrite ?Z.eqb_refl, ?E; reflexivity. }
    assert (Hl : forall x g, told g (snd (expire_hello C x)) = Some g /\ dr_id (fst (expire_hello C x)) = dr_id x /\ edr_ (fst (expire_dr (fst (expire_hello C x)))) = edr_ (fst (expire_dr x))).
    { intros x g. unfold expire_hello. destruct (hello_at x =? now x); [|repeat split]. split; [reflexivity|]. split; [reflexivity|]. unfold expire_dr. cbn [sendhello fst edr_ now]. destruct (edr_ x) as [d|] eqn:E; [destruct (d_at d =? now x)|]; cbn [fst set_dr edr_]; auto. }
    destruct f.
    + destruct (Hl s1 (dr_id s1)) as (X1 & X2 & X3). destruct (expire_hello C s1) as [a o1]. cbn [fst snd] in *. pose proof (Dd a) as Y. destruct (expire_dr a) as [b o2]. cbn [fst snd] in *.
      rewrite told_app, X1, <- X2, Y. unfold dr_id. rewrite X3. reflexivity.
    + pose proof (Dd s1) as Y. destruct (expire_dr s1) as [a o1]. cbn [fst snd] in *. destruct (Hl a (dr_id a)) as (X1 & X2 & X3). destruct (expire_hello C a) as [b o2]. cbn [fst snd] in *.
      rewrite told_app, Y, X1. reflexivity.
Qed.
(** The events about routers alternate, each down names the router that was up,
    and the last word is about the router in use. *)
Theorem endnode_reports : forall C h, cfg_fine C -> Forall fine h -> exists g, told None (eall C h) = Some g /\ gateway C h g.
Proof.
  intros C h CF F. exists (dr_id (erun C h)). split; [|apply gateway_dr; apply I_reach; auto]. clear F. induction h as [|e h IH] using rev_ind.
  - reflexivity.
  - rewrite eall_snoc, told_app, IH, erun_snoc. apply told_step.
Qed.
Print Assumptions endnode_reports.

(** Packets NSP gets: everything received for this node, and what it sends to
    itself; nothing for other nodes.  Between the two, packets returned to it
    are marked. *)
Definition nsp_in (o : list eout) : list (option Z * list Z) := flat_map (fun x => match x with ONsp src d false => [(src, d)] | _ => [] end) o.
Definition meant (C : ecfg) (e : eev) : list (option Z * list Z) :=
  match e with
  | EData _ p => if (p_dst p =? e_id C) && negb (p_rts p) then [(if (p_src p =? e_id C) && e_loop C then None else Some (p_src p), p_data p)] else []
  | ESend (Some d) data _ _ => if d =? e_id C then [(Some (e_id C), data)] else []
  | _ => []
  end.
Theorem endnode_delivers : forall C h, nsp_in (eall C h) = flat_map (meant C) h.
Proof.
  intros C h. assert (Ap : forall a b, nsp_in (a ++ b) = nsp_in a ++ nsp_in b) by (intros; apply flat_map_app).
  induction h as [|e h IH] using rev_ind; [reflexivity|]. rewrite eall_snoc, Ap, IH, flat_map_app. f_equal. cbn [flat_map]. rewrite app_nil_r.
  set (s := erun C h). clearbody s. destruct e as [id t|src p|dest data rqr th|f]; cbn [estep meant].
  - unfold router, newdr. destruct (negb (area id =? area (e_id C))); [reflexivity|]. destruct (edr_ s) as [d|]; [destruct (negb (d_id d =? id))|]; reflexivity.
  - cbn [snd]. unfold deliver. destruct (p_dst p =? e_id C); [|reflexivity]. cbn [andb nsp_in flat_map app]. destruct (p_rts p); reflexivity.
  - assert (D : forall q, p_rts q = true -> nsp_in (deliver C false q) = []) by (intros q Q; unfold deliver; destruct (p_dst q =? e_id C); cbn [nsp_in flat_map]; rewrite ?Q; reflexivity).
    unfold rsend. destruct dest as [d|].
    + destruct (Z.eqb_spec d (e_id C)) as [->|Nd].
      * unfold deliver. cbn [p_dst snd]. rewrite Z.eqb_refl. reflexivity.
      * unfold csend. cbn [p_dst p_src]. destruct (if th then None else dget Z.eqb (prevhops s) _) as [[m k]|]; [|destruct (edr_ _) as [g|]; [|destruct (_ =? _)]];
          match goal with |- context [if ?q then _ else _] => destruct q end; cbn [snd]; rewrite ?Ap, ?D by reflexivity; reflexivity.
    + unfold csend. cbn [p_dst p_src]. destruct (if th then None else dget Z.eqb (prevhops s) _) as [[m k]|]; [|destruct (edr_ _) as [g|]; [|destruct (_ =? _)]];
          match goal with |- context [if ?q then _ else _] => destruct q end; cbn [snd]; rewrite ?Ap, ?D by reflexivity; reflexivity.
  - unfold tick. set (s1 := expire_cache _). clearbody s1.
    assert (Dd : forall x, nsp_in (snd (expire_dr x)) = []) by (intros x; unfold expire_dr; destruct (edr_ x) as [d|]; [destruct (d_at d =? now x)|]; reflexivity).
    assert (Hl : forall x, nsp_in (snd (expire_hello C x)) = []) by (intros x; unfold expire_hello; destruct (hello_at x =? now x); reflexivity).
    destruct f.
    + pose proof (Hl s1) as X. destruct (expire_hello C s1) as [a o1]. pose proof (Dd a) as Y. destruct (expire_dr a) as [b o2]. cbn [snd] in *. rewrite Ap, X, Y. reflexivity.
    + pose proof (Dd s1) as X. destruct (expire_dr s1) as [a o1]. pose proof (Hl a) as Y. destruct (expire_hello C a) as [b o2]. cbn [snd] in *. rewrite Ap, X, Y. reflexivity.
Qed.
Print Assumptions endnode_delivers.

(** Packets that come back: [returned] to NSP as undeliverable.  A packet for
    which NSP asked that (rqr) should be returned exactly when it was not sent.
    That holds unless the destination is in the cache. *)
Definition returned (o : list eout) : list (option Z * list Z) := flat_map (fun x => match x with ONsp src d true => [(src, d)] | _ => [] end) o.
Definition uncached (dst : Z) (h : list eev) (th : bool) : Prop := th = true \/ heard dst h = None \/ (exists m0 k, heard dst h = Some (m0, k) /\ 60 <= k).
Theorem endnode_return_partial : forall C h dest data rqr th, cfg_fine C -> Forall fine h -> dest <> Some (e_id C) ->
  let dst := match dest with Some d => d | None => e_id C end in uncached dst h th ->
  let o := snd (estep C (erun C h) (ESend dest data rqr th)) in
  returned o = if rqr then match frames o with [] => [(Some dst, data)] | _ => [] end else [].
Proof.
  intros C h dest data rqr th CF F Nd dst U o. pose proof (I_reach C h CF F) as H. unfold o. clear o. cbn [estep]. set (s := erun C h) in *. clearbody s.
  unfold rsend. assert (Ns : (match dest with Some d => d =? e_id C | None => false end) = false) by (destruct dest as [d|]; [apply Z.eqb_neq; congruence|reflexivity]). rewrite Ns.
  fold dst. unfold csend. cbn [p_dst p_src].
  assert (E : (if th then None else dget Z.eqb (prevhops s) dst) = None).
  { destruct th; auto. destruct (dget Z.eqb (prevhops s) dst) as [[m k]|] eqn:X; auto. exfalso. destruct (i_prev _ _ _ H _ _ _ X) as (a & A & B & _).
    destruct U as [U|[U|(m0 & k0 & U & L)]]; [discriminate U|congruence|]. rewrite A in U. injection U as <- <-. lia. }
  rewrite E. destruct (edr_ _) as [g|]; cbn [negb andb snd]; [destruct rqr; reflexivity|]. destruct (dst =? e_id C); cbn [negb andb snd]; [|destruct rqr; reflexivity].
  destruct rqr; cbn [snd app]; [|reflexivity]. unfold deliver. cbn [p_dst p_src p_rts p_data]. rewrite Z.eqb_refl. reflexivity.
Qed.
Print Assumptions endnode_return_partial.

(** *** Findings *)
Definition ex_ec : ecfg := {| e_id := 1025; e_t3 := 15; e_loop := false |}.
Definition ex_pk (src dst : Z) (d : list Z) : dpkt := {| p_dst := dst; p_src := src; p_rqr := false; p_rts := false; p_data := d |}.
Definition ticks (n : nat) : list eev := repeat (ETick false) n.
(** A connect request to a node heard within the last minute is sent, and is
    also given back to NSP as undeliverable: send returns nothing in the cached
    case, which counts as failure. *)
Theorem endnode_return_refuted : let o := snd (estep ex_ec (erun ex_ec [EData (nmac 1026) (ex_pk 1026 1025 [7])]) (ESend (Some 1026) [24; 1] true false)) in
  frames o = [(nmac 1026, pkt_of ex_ec (Some 1026) [24; 1] true)] /\ returned o = [(Some 1026, [24; 1])].
Proof. vm_compute. split; reflexivity. Qed.
(** The timer of a cache entry dropped by a retransmission goes on and removes
    the next entry for that node early. *)
Theorem endnode_cache_refuted :
  let h := [EData [1] (ex_pk 1026 1025 [7])] ++ [ESend (Some 1026) [0] false true] ++ ticks 59 ++ [EData [2] (ex_pk 1026 1025 [8])] ++ ticks 1 in
  heard 1026 h = Some ([2], 1) /\ frames (snd (estep ex_ec (erun ex_ec h) (ESend (Some 1026) [9] false false))) = [(nmac 1026, pkt_of ex_ec (Some 1026) [9] false)].
Proof. vm_compute. split; reflexivity. Qed.
(** A router that raises its hello time is still timed with the old one, and
    dropped between two hellos. *)
Theorem endnode_listen_refuted :
  let h := [ERouter 1027 10; ERouter 1027 60] ++ ticks 31 in
  hail ex_ec h = Some (1027, 31) /\ told None (eall ex_ec h) = Some None.
Proof. vm_compute. split; reflexivity. Qed.
(** A station behind a router, a router that falls silent, hellos. *)
Example endnode_demo : cfg_fine ex_ec /\
  let h := [ERouter 1027 10; EData (nmac 1030) (ex_pk 1026 1025 [7])] ++ ticks 14 in Forall fine h /\ never_tried 1026 h /\
  heard 1026 h = Some (nmac 1030, 14) /\ gateway ex_ec h (Some 1027) /\ gateway ex_ec (h ++ ticks 17) None /\
  frames (snd (estep ex_ec (erun ex_ec h) (ESend (Some 1026) [9] false false))) = [(nmac 1030, pkt_of ex_ec (Some 1026) [9] false)] /\
  frames (snd (estep ex_ec (erun ex_ec h) (ESend (Some 1028) [9] false false))) = [(nmac 1027, pkt_of ex_ec (Some 1028) [9] false)] /\
  hellos (snd (estep ex_ec (erun ex_ec h) (ETick true))) = [[170; 0; 4; 0; 3; 4]].
Proof.
  split; [vm_compute; discriminate|]. set (h := _ ++ _). split; [repeat constructor; discriminate|].
  split; [intros e E; repeat (destruct E as [<-|E]; [exact Logic.I|]); destruct E|]. split; [vm_compute; reflexivity|].
  split; [exists 14, 10; repeat split; vm_compute; auto|]. split; [right; exists 1027, 31, 10; repeat split; vm_compute; auto; discriminate|].
  vm_compute. repeat split.
Qed.
