(** C67: which addresses a circuit uses, and from whom it accepts. *)
From Verif Require Import Base I3Model I3Props HostModel.
From Coq Require Import Permutation.

(** *** Specification *)
(** The families a circuit may use, from its -4 and -6 switches. *)
Definition wants4 (ipv4 ipv6 : Z) : Prop := ipv4 <> 0 \/ ipv6 = 0.
Definition wants6 (ipv4 ipv6 : Z) (has6 : bool) : Prop := ipv6 <> 0 \/ (ipv4 = 0 /\ has6 = true).
(** A usable address of a lookup. *)
Definition usable (ipv4 ipv6 : Z) (has6 : bool) (x : ai) : Prop :=
  (fst x = F4 /\ wants4 ipv4 ipv6) \/
  (fst x = F6 /\ wants6 ipv4 ipv6 has6 /\ ~ exists t, sa_ip (snd x) = [102; 101; 56; 48] ++ t).
(** The lookups that succeeded, in turn. *)
Definition answers (first : option (list ai)) (evs : list hev) : list (list ai) :=
  flat_map (fun r => match r with Some r => [r] | None => [] end)
    (first :: flat_map (fun e => match e with HDone r _ => [r] | _ => [] end) evs).
(** [r] is the last of the answers with a usable address. *)
Definition last_good (u : ai -> Prop) (l : list (list ai)) (r : list ai) : Prop :=
  exists l1 l2, l = l1 ++ r :: l2 /\ (exists x, In x r /\ u x) /\
    forall r', In r' l2 -> forall x, In x r' -> ~ u x.
(** What the environment may do: sets come in some order, without repetition. *)
Definition order_of (u : ai -> Prop) (r : option (list ai)) (ord : list ai) : Prop :=
  match r with
  | None => True
  | Some r => NoDup ord /\ forall x, In x ord <-> In x r /\ u x
  end.
Definition order_ok (u : ai -> Prop) (e : hev) : Prop :=
  match e with HDone r ord => order_of u r ord | _ => True end.

(** *** Equality tests, sets *)
Lemma fam_eqb_eq : forall a b, fam_eqb a b = true <-> a = b.
Proof. intros [] []; cbn; split; intro; congruence. Qed.
Lemma sa_eqb_eq : forall a b, sa_eqb a b = true <-> a = b.
Proof.
  intros [[a p] x] [[b q] y]. unfold sa_eqb. cbn [fst snd].
  rewrite !andb_true_iff, !leqb_eq, Z.eqb_eq. split.
  - intros [[-> ->] ->]. reflexivity.
  - intro E. injection E as -> -> ->. auto.
Qed.
Lemma ai_eqb_eq : forall a b, ai_eqb a b = true <-> a = b.
Proof.
  intros [f a] [g b]. unfold ai_eqb. cbn [fst snd]. rewrite andb_true_iff, fam_eqb_eq, sa_eqb_eq.
  split; [intros [-> ->]; reflexivity | intro E; injection E as -> ->; auto].
Qed.
Lemma mem_In : forall A (e : A -> A -> bool), (forall a b, e a b = true <-> a = b) ->
  forall x l, mem e x l = true <-> In x l.
Proof.
  intros A e D x l. unfold mem. rewrite existsb_exists. split.
  - intros (y & I & E). apply D in E. subst. exact I.
  - intro I. exists x. split; [exact I | apply D; reflexivity].
Qed.
Lemma sadd_In : forall A (e : A -> A -> bool), (forall a b, e a b = true <-> a = b) ->
  forall l x y, In y (sadd e l x) <-> y = x \/ In y l.
Proof.
  intros A e D l x y. unfold sadd. destruct (mem e x l) eqn:M.
  - apply (mem_In _ _ D) in M. split; [auto | intros [-> | I]; auto].
  - rewrite in_app_iff. cbn [In]. intuition congruence.
Qed.

Lemma startswith_app : forall p s, startswith s p = true <-> exists t, s = p ++ t.
Proof.
  induction p as [|x p IH]; intro s.
  - destruct s; cbn [startswith app]; split; auto; intros _; eexists; reflexivity.
  - destruct s as [|y s]; cbn [startswith app].
    + split; [discriminate | intros (t & E); discriminate].
    + rewrite andb_true_iff, Z.eqb_eq, IH. split.
      * intros (-> & t & ->). eauto.
      * intros (t & E). injection E as -> ->. split; eauto.
Qed.

(** *** One lookup *)
Definition allow (ipv4 ipv6 : Z) (has6 : bool) : Z * Z :=
  if (ipv4 =? 0) && (ipv6 =? 0) then (1, if has6 then 1 else 0) else (ipv4, ipv6).
Definition takes (a4 a6 : Z) (x : ai) : bool :=
  in_fams a4 a6 (fst x) && (fam_eqb (fst x) F4 || negb (link_local (snd x))).
Lemma takes_usable : forall ipv4 ipv6 has6 x,
  takes (fst (allow ipv4 ipv6 has6)) (snd (allow ipv4 ipv6 has6)) x = true <-> usable ipv4 ipv6 has6 x.
Proof.
  intros ipv4 ipv6 has6 [f a]. unfold usable, wants4, wants6, takes, in_fams, allow, link_local. cbn [fst snd].
  assert (S : startswith (sa_ip a) fe80 = true <-> exists t, sa_ip a = fe80 ++ t) by apply startswith_app.
  destruct (startswith (sa_ip a) fe80).
  - assert (S' : exists t, sa_ip a = fe80 ++ t) by (apply S; reflexivity). clear S.
    destruct (ipv4 =? 0) eqn:A, (ipv6 =? 0) eqn:B, has6, f; cbn [andb fst snd fam_eqb orb negb];
      rewrite ?A, ?B; cbn [andb orb negb Z.eqb];
      split; intro H; try discriminate; try reflexivity; try (left; split; [reflexivity | lia]);
      try (destruct H as [[? ?] | (? & ? & N)]; [discriminate + lia | contradiction]).
  - assert (S' : ~ exists t, sa_ip a = fe80 ++ t) by (intro X; apply S in X; discriminate). clear S.
    destruct (ipv4 =? 0) eqn:A, (ipv6 =? 0) eqn:B, has6, f; cbn [andb fst snd fam_eqb orb negb];
      rewrite ?A, ?B; cbn [andb orb negb Z.eqb];
      split; intro H; try discriminate; try reflexivity; try (left; split; [reflexivity | lia]);
      try (right; repeat split; auto; lia);
      try (destruct H as [[? ?] | (? & [?|[? ?]] & N)]; try discriminate; lia).
Qed.
Lemma lk_fold : forall a4 a6 r v4 v6 s t v4' v6' s' t',
  fold_left (lk_step a4 a6) r (v4, v6, s, t) = (v4', v6', s', t') ->
  (forall x, In x s' <-> In x s \/ (In x r /\ takes a4 a6 x = true)) /\
  (forall y, In y t' <-> In y t \/ exists f, In (f, y) r /\ takes a4 a6 (f, y) = true).
Proof.
  intros a4 a6. induction r as [|x r IH]; intros v4 v6 s t v4' v6' s' t' E; cbn [fold_left] in E.
  - injection E as <- <- <- <-. split; intro y; cbn [In]; firstorder.
  - destruct (takes a4 a6 x) eqn:T.
    + assert (S : exists w4 w6, lk_step a4 a6 (v4, v6, s, t) x = (w4, w6, sadd ai_eqb s x, sadd sa_eqb t (snd x))).
      { unfold takes in T. apply andb_true_iff in T as [T1 T2]. unfold lk_step. rewrite T1.
        destruct (fam_eqb (fst x) F4); [eauto|]. cbn [orb] in T2. apply negb_true_iff in T2. rewrite T2. eauto. }
      destruct S as (w4 & w6 & S). rewrite S in E. apply IH in E as [E1 E2]. split; intro y.
      * rewrite E1, (sadd_In _ _ ai_eqb_eq). cbn [In]. intuition (subst; auto).
      * rewrite E2, (sadd_In _ _ sa_eqb_eq). split.
        { intros [[-> | I] | (f & I & K)]; [right | left; auto | right].
          - exists (fst x). rewrite <- surjective_pairing. cbn [In]. auto.
          - exists f. cbn [In]. auto. }
        { intros [I | (f & [-> | I] & K)]; [left; auto | left; left; reflexivity | right; eauto]. }
    + assert (S : exists w4 w6, lk_step a4 a6 (v4, v6, s, t) x = (w4, w6, s, t)).
      { unfold takes in T. unfold lk_step. destruct (in_fams a4 a6 (fst x)); [|eauto].
        cbn [andb] in T. apply orb_false_iff in T as [T1 T2]. rewrite T1. apply negb_false_iff in T2. rewrite T2. eauto. }
      destruct S as (w4 & w6 & S). rewrite S in E. apply IH in E as [E1 E2]. split; intro y.
      * rewrite E1. cbn [In]. intuition (subst; auto; congruence).
      * rewrite E2. split.
        { intros [I | (f & I & K)]; [auto | right; exists f; cbn [In]; auto]. }
        { intros [I | (f & [-> | I] & K)]; [auto | congruence | right; eauto]. }
Qed.

Lemma filter2_perm : forall A (f : A -> bool) l, Permutation (filter (fun x => negb (f x)) l ++ filter f l) l.
Proof.
  intros A f. induction l as [|x l IH]; [apply Permutation_refl|]. cbn [filter].
  destruct (f x); cbn [negb].
  - etransitivity; [symmetry; apply Permutation_middle|]. constructor. exact IH.
  - cbn [app]. constructor. exact IH.
Qed.
Lemma by_pref_perm : forall a4 a6 l, Permutation (by_pref a4 a6 l) l.
Proof.
  intros. unfold by_pref. destruct (a4 =? a6); [apply Permutation_refl|].
  destruct (a4 <? a6); apply (filter2_perm ai).
Qed.

Lemma ips_fold : forall (l : list ai) s y,
  In y (fold_left (fun s x => sadd leqb s (sa_ip (snd x))) l s) <-> In y s \/ exists x, In x l /\ sa_ip (snd x) = y.
Proof.
  induction l as [|x l IH]; intros s y; cbn [fold_left].
  - cbn [In]. firstorder.
  - rewrite IH, (sadd_In _ _ leqb_eq). cbn [In]. split.
    + intros [[-> | I] | (z & I & E)]; eauto.
    + intros [I | (z & [-> | I] & E)]; eauto.
Qed.

(** *** The invariant *)
Section Inv.
Variables (ipv4 ipv6 : Z) (has6 : bool).
Let U := usable ipv4 ipv6 has6.
Definition hinv (ans : list (list ai)) (h : host) : Prop :=
  h_any h = false /\
  h_allow4 h = fst (allow ipv4 ipv6 has6) /\ h_allow6 h = snd (allow ipv4 ipv6 has6) /\
  (forall ip, In ip (h_ipset h) <-> exists r x, In r ans /\ In x r /\ U x /\ sa_ip (snd x) = ip) /\
  (exists r, last_good U ans r /\ NoDup (h_ailist h) /\ forall x, In x (h_ailist h) <-> In x r /\ U x) /\
  (exists pre, h_ailist h = pre ++ h_iter h) /\
  exists c, h_cur h = Some c /\ In c (h_ailist h).

Lemma last_good_skip : forall ans r r', last_good U ans r ->
  (forall x, In x r' -> ~ U x) -> last_good U (ans ++ [r']) r.
Proof.
  intros ans r r' (l1 & l2 & -> & G & N) H. exists l1, (l2 ++ [r']). split; [rewrite <- app_assoc; reflexivity|].
  split; [exact G|]. intros q I. apply in_app_iff in I as [I | [<- | []]]; [exact (N q I) | exact H].
Qed.
Lemma last_good_new : forall ans r x, In x r -> U x -> last_good U (ans ++ [r]) r.
Proof. intros ans r x I K. exists ans, []. split; [reflexivity|]. split; [eauto | intros ? []]. Qed.

Lemma advance_inv : forall ans h, hinv ans h -> hinv ans (host_advance h).
Proof using.
  intros ans h (A & B1 & B2 & I & (r & G & N & L) & (pre & P) & c & C & Ic).
  unfold host_advance. destruct (h_iter h) as [|x t] eqn:E.
  - rewrite app_nil_r in P. destruct (h_ailist h) as [|x t] eqn:F; [destruct Ic|].
    unfold hinv. cbn [h_any h_allow4 h_allow6 h_ipset h_ailist h_iter h_cur].
    repeat split; auto; try apply L; auto; try (apply I; assumption).
    + exists r. auto.
    + exists [x]. reflexivity.
    + exists x. split; [reflexivity | left; reflexivity].
  - unfold hinv. cbn [h_any h_allow4 h_allow6 h_ipset h_ailist h_iter h_cur].
    repeat split; auto; try (apply I; assumption).
    + exists r. auto.
    + exists (pre ++ [x]). rewrite P, <- app_assoc. reflexivity.
    + exists x. split; [reflexivity|]. rewrite P. apply in_or_app. right. left. reflexivity.
Qed.

(** What a lookup leaves, seen from its result. *)
Lemma lookup_cases : forall h r ord h', h_allow4 h = fst (allow ipv4 ipv6 has6) ->
  h_allow6 h = snd (allow ipv4 ipv6 has6) -> order_of U (Some r) ord -> lookup_done h r ord = h' ->
  h_any h' = h_any h /\ h_allow4 h' = h_allow4 h /\ h_allow6 h' = h_allow6 h /\
  h_next h' = h_next h /\ h_interval h' = h_interval h /\
  (forall ip, In ip (h_ipset h') <-> In ip (h_ipset h) \/ exists x, In x r /\ U x /\ sa_ip (snd x) = ip) /\
  (forall y, In y (h_sockset h') <-> exists f, In (f, y) r /\ U (f, y)) /\
  (((forall x, In x r -> ~ U x) /\ h_ailist h' = h_ailist h /\ h_iter h' = h_iter h /\ h_cur h' = h_cur h) \/
   ((exists x, In x r /\ U x) /\ h_ailist h' = by_pref (h_allow4 h) (h_allow6 h) ord /\
    ((exists c, h_cur h = Some c /\ In c (h_ailist h') /\ h_cur h' = Some c /\ h_iter h' = h_ailist h') \/
     (exists c, h_ailist h' = c :: h_iter h' /\ h_cur h' = Some c)))).
Proof using.
  intros h r ord h' A4 A6 [ND O] E. unfold lookup_done in E.
  destruct (lk_loop (h_allow4 h) (h_allow6 h) (h_ipv4 h) (h_ipv6 h) r) as [[[v4 v6] s] t] eqn:K.
  unfold lk_loop in K. apply lk_fold in K as [K1 K2]. rewrite A4, A6 in K1, K2.
  assert (K1' : forall x, In x s <-> In x r /\ U x).
  { intro x. rewrite K1, takes_usable. cbn [In]. unfold U. tauto. }
  assert (K2' : forall y, In y t <-> exists f, In (f, y) r /\ U (f, y)).
  { intro y. rewrite K2. cbn [In]. split.
    - intros [[] | (f & I & T)]. exists f. split; [exact I|]. apply takes_usable, T.
    - intros (f & I & T). right. exists f. split; [exact I|]. apply takes_usable, T. }
  clear K1 K2.
  assert (IP : forall ip, In ip (fold_left (fun s x => sadd leqb s (sa_ip (snd x))) s (h_ipset h)) <->
    In ip (h_ipset h) \/ exists x, In x r /\ U x /\ sa_ip (snd x) = ip).
  { intro ip. rewrite ips_fold. split; intros [I | (x & I & J)]; auto; right; exists x.
    - apply K1' in I. tauto.
    - split; [apply K1'; tauto | tauto]. }
  destruct s as [|y0 s0].
  - subst h'. cbn [h_any h_allow4 h_allow6 h_next h_interval h_ipset h_sockset h_ailist h_iter h_cur].
    split; [reflexivity|]. split; [reflexivity|]. split; [reflexivity|]. split; [reflexivity|]. split; [reflexivity|].
    split; [exact IP|]. split; [exact K2'|]. left.
    split; [intros x I N; destruct (proj2 (K1' x) (conj I N))|]. auto.
  - destruct (by_pref (h_allow4 h) (h_allow6 h) ord) as [|b0 bl] eqn:BP.
    { exfalso. assert (In y0 ord) as Iy by (apply O, K1'; left; reflexivity).
      apply (Permutation_in _ (Permutation_sym (by_pref_perm (h_allow4 h) (h_allow6 h) ord))) in Iy.
      rewrite BP in Iy. destruct Iy. }
    assert (G : exists x, In x r /\ U x) by (exists y0; apply K1'; left; reflexivity).
    destruct (match h_cur h with Some c => mem ai_eqb c (b0 :: bl) | None => false end) eqn:M; subst h'.
    + cbn [h_any h_allow4 h_allow6 h_next h_interval h_ipset h_sockset h_ailist h_iter h_cur].
      split; [reflexivity|]. split; [reflexivity|]. split; [reflexivity|]. split; [reflexivity|]. split; [reflexivity|].
      split; [exact IP|]. split; [exact K2'|]. right. split; [exact G|]. split; [reflexivity|]. left.
      destruct (h_cur h) as [c|]; [|discriminate M]. exists c. apply (mem_In _ _ ai_eqb_eq) in M. auto.
    + unfold host_advance.
      cbn [h_any h_allow4 h_allow6 h_next h_interval h_ipset h_sockset h_ailist h_iter h_cur].
      split; [reflexivity|]. split; [reflexivity|]. split; [reflexivity|]. split; [reflexivity|]. split; [reflexivity|].
      split; [exact IP|]. split; [exact K2'|]. right. split; [exact G|]. split; [reflexivity|]. right.
      exists b0. auto.
Qed.

Lemma lookup_inv : forall ans h r ord, hinv ans h -> order_of U (Some r) ord -> hinv (ans ++ [r]) (lookup_done h r ord).
Proof using.
  intros ans h r ord (A & B1 & B2 & I & (r0 & G & N & L) & (pre & P) & c & C & Ic) O.
  destruct (lookup_cases h r ord _ B1 B2 O eq_refl) as (E1 & E2 & E3 & _ & _ & E4 & _ & E5).
  split; [congruence|]. split; [congruence|]. split; [congruence|]. split.
  { intro ip. rewrite E4, I. split.
    - intros [(q & x & J & K) | (x & K)]; [exists q, x | exists r, x]; split; auto; apply in_or_app; auto.
      right. left. reflexivity.
    - intros (q & x & J & K). apply in_app_iff in J as [J | [<- | []]]; [left; exists q, x | right; exists x]; auto. }
  destruct E5 as [(Z0 & F1 & F2 & F3) | ((x0 & X1 & X2) & F1 & F2)].
  - rewrite F1, F2, F3. split; [|split; eauto]. exists r0. split; [apply last_good_skip; auto | auto].
  - destruct O as [ND O]. split.
    { exists r. split; [eapply last_good_new; eauto|]. rewrite F1. split.
      - eapply Permutation_NoDup; [apply Permutation_sym, by_pref_perm | exact ND].
      - intro x. rewrite <- O. split; apply Permutation_in; [|apply Permutation_sym]; apply by_pref_perm. }
    destruct F2 as [(c0 & Q1 & Q2 & Q3 & Q4) | (c0 & Q1 & Q2)].
    + split; [exists []; rewrite Q4; reflexivity|]. exists c0. auto.
    + split; [exists [c0]; exact Q1|]. exists c0. split; [exact Q2|]. rewrite Q1. left. reflexivity.
Qed.

Lemma check_same : forall ans h t, hinv ans h -> hinv ans (check_interval h t).
Proof using.
  intros ans h t H. unfold check_interval. destruct (due h t); [|exact H].
  unfold hinv in *. cbn [h_any h_allow4 h_allow6 h_ipset h_ailist h_iter h_cur]. exact H.
Qed.

Definition answer (e : hev) : list (list ai) := match e with HDone (Some r) _ => [r] | _ => [] end.
Lemma step_inv : forall ans h e, hinv ans h -> order_ok U e -> hinv (ans ++ answer e) (fst (host_step h e)).
Proof using.
  intros ans h [t| |t a|[r|] ord] H O; cbn [answer host_step fst]; rewrite ?app_nil_r.
  - apply check_same, H.
  - apply advance_inv, H.
  - apply check_same, H.
  - apply lookup_inv; assumption.
  - exact H.
Qed.
Lemma answers_split : forall first evs,
  answers first evs = match first with Some r => [r] | None => [] end ++ flat_map answer evs.
Proof using.
  intros first evs. unfold answers. cbn [flat_map]. f_equal.
  induction evs as [|e evs IH]; [reflexivity|]. cbn [flat_map]. rewrite flat_map_app, IH. f_equal.
  destruct e as [| | |[r|] ord]; reflexivity.
Qed.
Lemma run_inv : forall evs ans h, hinv ans h -> Forall (order_ok U) evs -> hinv (ans ++ flat_map answer evs) (host_run h evs).
Proof using.
  induction evs as [|e evs IH]; intros ans h H F; cbn [flat_map host_run fold_left].
  - rewrite app_nil_r. exact H.
  - inversion F as [|? ? F1 F2]; subst. rewrite app_assoc. apply IH; [|exact F2]. apply step_inv; assumption.
Qed.

Lemma new_named : forall k port any interval now r ord h,
  host_new k port any ipv4 ipv6 has6 interval now r ord = Ok h -> k <> KWild ->
  order_of U r ord ->
  exists v4 v6 nx, nx = (match k with KName => now + interval | _ => NEVER end) /\
  h = dolookup (mkHost false (fst (allow ipv4 ipv6 has6)) (snd (allow ipv4 ipv6 has6)) v4 v6 [] [] [] [] None nx interval 0) r ord /\
  h_sockset h <> [].
Proof using.
  intros k port any interval now r ord h E K O. unfold host_new in E. fold (allow ipv4 ipv6 has6) in E.
  destruct (allow ipv4 ipv6 has6) as [a4 a6]. cbn [fst snd].
  assert (X : forall v4 v6 nx,
    match h_sockset (dolookup (mkHost false a4 a6 v4 v6 [] [] [] [] None nx interval 0) r ord) with
    | [] => Err EValue | _ => Ok (dolookup (mkHost false a4 a6 v4 v6 [] [] [] [] None nx interval 0) r ord) end = Ok h ->
    h = dolookup (mkHost false a4 a6 v4 v6 [] [] [] [] None nx interval 0) r ord /\ h_sockset h <> []).
  { intros v4 v6 nx. set (d := dolookup _ _ _). destruct (h_sockset d) eqn:S; [discriminate|].
    intro Q. injection Q as <-. split; [reflexivity | congruence]. }
  destruct k; [contradiction | destruct (a4 =? 0); [discriminate|] | destruct (a6 =? 0); [discriminate|] |];
    apply X in E; eauto 8.
Qed.
Lemma new_inv : forall k port any interval now r ord h,
  host_new k port any ipv4 ipv6 has6 interval now r ord = Ok h -> k <> KWild ->
  order_of U r ord -> hinv (match r with Some r => [r] | None => [] end) h.
Proof using.
  intros k port any interval now r ord h E K O.
  destruct (new_named k port any interval now r ord h E K O) as (v4 & v6 & nx & _ & -> & S).
  destruct r as [r|]; cbn [dolookup] in *; [|contradiction S; reflexivity].
  set (h0 := mkHost _ _ _ _ _ _ _ _ _ _ _ _ _) in *.
  destruct (lookup_cases h0 r ord _ eq_refl eq_refl O eq_refl) as (E1 & E2 & E3 & _ & _ & E4 & E6 & E5).
  split; [exact E1|]. split; [exact E2|]. split; [exact E3|]. split.
  { intro ip. rewrite E4. subst h0. cbn [h_ipset In]. split.
    - intros [[] | (x & J)]. exists r, x. split; [left; reflexivity | exact J].
    - intros (q & x & [<- | []] & J). eauto. }
  destruct E5 as [(Z0 & _) | ((x0 & X1 & X2) & F1 & F2)].
  { exfalso. apply S. destruct (h_sockset (lookup_done h0 r ord)) as [|y l]; [reflexivity|].
    destruct (proj1 (E6 y) (or_introl eq_refl)) as (f & J & Q). destruct (Z0 _ J Q). }
  destruct O as [ND O]. split.
  { exists r. split; [apply (last_good_new [] r x0); auto|]. rewrite F1. split.
    - eapply Permutation_NoDup; [apply Permutation_sym, by_pref_perm | exact ND].
    - intro x. rewrite <- O. split; apply Permutation_in; [|apply Permutation_sym]; apply by_pref_perm. }
  destruct F2 as [(c0 & Q1 & _) | (c0 & Q1 & Q2)]; [discriminate Q1|].
  split; [exists [c0]; exact Q1|]. exists c0. split; [exact Q2|]. rewrite Q1. left. reflexivity.
Qed.
Lemma reach_inv : forall k port any interval now r ord h evs,
  host_new k port any ipv4 ipv6 has6 interval now r ord = Ok h -> k <> KWild ->
  order_of U r ord -> Forall (order_ok U) evs -> hinv (answers r evs) (host_run h evs).
Proof using.
  intros. rewrite answers_split. apply run_inv; [|assumption]. eapply new_inv; eassumption.
Qed.
End Inv.

(** *** C67: the address a circuit uses *)
(** Whenever the circuit asks for the address to use, or for the next one to
    try, it gets a usable address of the last lookup that had any. *)
Theorem host_address : forall ipv4 ipv6 has6 k port any interval now r ord h evs e,
  host_new k port any ipv4 ipv6 has6 interval now r ord = Ok h -> k <> KWild ->
  order_of (usable ipv4 ipv6 has6) r ord -> Forall (order_ok (usable ipv4 ipv6 has6)) evs ->
  (e = HNext \/ exists t, e = HUse t) ->
  exists a g, snd (host_step (host_run h evs) e) = OAddr (Some a) /\
    last_good (usable ipv4 ipv6 has6) (answers r evs) g /\ In a g /\ usable ipv4 ipv6 has6 a.
Proof.
  intros ipv4 ipv6 has6 k port any interval now r ord h evs e E K O F D.
  assert (H : hinv ipv4 ipv6 has6 (answers r evs) (host_run h evs)) by (eapply reach_inv; eassumption).
  assert (H' : hinv ipv4 ipv6 has6 (answers r evs) (fst (host_step (host_run h evs) e))).
  { rewrite <- (app_nil_r (answers r evs)). replace (@nil (list ai)) with (answer e) by (destruct D as [-> | (t & ->)]; reflexivity).
    apply step_inv; [exact H|]. destruct D as [-> | (t & ->)]; exact I. }
  assert (S : snd (host_step (host_run h evs) e) = OAddr (h_cur (fst (host_step (host_run h evs) e))))
    by (destruct D as [-> | (t & ->)]; reflexivity).
  destruct H' as (_ & _ & _ & _ & (g & G & _ & L) & _ & c & C & Ic).
  exists c, g. rewrite S, C. apply L in Ic. tauto.
Qed.
Print Assumptions host_address.

(** Trying one address after another goes through all of them: as many steps as
    there are addresses give each of them once. *)
Lemma nexts_take : forall it h, h_iter h = it -> forall n, (n <= length it)%nat ->
  host_outs h (repeat HNext n) = map (fun a => OAddr (Some a)) (firstn n it) /\
  h_iter (host_run h (repeat HNext n)) = skipn n it /\ h_ailist (host_run h (repeat HNext n)) = h_ailist h.
Proof.
  induction it as [|x it IH]; intros h E n L.
  - destruct n; [|cbn [length] in L; lia]. cbn. auto.
  - destruct n as [|n]; [cbn; auto|].
    cbn [repeat host_outs firstn map host_run fold_left skipn host_step fst snd].
    assert (E' : h_iter (host_advance h) = it) by (unfold host_advance; rewrite E; reflexivity).
    assert (C' : h_cur (host_advance h) = Some x) by (unfold host_advance; rewrite E; reflexivity).
    assert (L' : h_ailist (host_advance h) = h_ailist h) by (unfold host_advance; rewrite E; reflexivity).
    destruct (IH (host_advance h) E' n) as (A & B & D); [cbn [length] in L; lia|].
    rewrite C', A. unfold host_run in *. rewrite B, D. auto.
Qed.
Lemma outs_app : forall a b h, host_outs h (a ++ b) = host_outs h a ++ host_outs (host_run h a) b.
Proof.
  induction a as [|e a IH]; intros b h; [reflexivity|]. cbn [app host_outs host_run fold_left].
  rewrite IH. reflexivity.
Qed.
Lemma nexts_wrap : forall h n, h_iter h = [] -> (n <= length (h_ailist h))%nat ->
  host_outs h (repeat HNext n) = map (fun a => OAddr (Some a)) (firstn n (h_ailist h)).
Proof.
  intros h [|n] E L; [reflexivity|]. destruct (h_ailist h) as [|x l] eqn:F; [cbn [length] in L; lia|].
  cbn [repeat host_outs firstn map host_step fst snd].
  assert (E' : h_iter (host_advance h) = l) by (unfold host_advance; rewrite E, F; reflexivity).
  assert (C' : h_cur (host_advance h) = Some x) by (unfold host_advance; rewrite E, F; reflexivity).
  rewrite C'. destruct (nexts_take l _ E' n) as (A & _); [cbn [length] in L; lia|]. rewrite A. reflexivity.
Qed.
Theorem host_rotation : forall ipv4 ipv6 has6 k port any interval now r ord h evs,
  host_new k port any ipv4 ipv6 has6 interval now r ord = Ok h -> k <> KWild ->
  order_of (usable ipv4 ipv6 has6) r ord -> Forall (order_ok (usable ipv4 ipv6 has6)) evs ->
  exists g l, last_good (usable ipv4 ipv6 has6) (answers r evs) g /\ NoDup l /\
    (forall x, In x l <-> In x g /\ usable ipv4 ipv6 has6 x) /\
    host_outs (host_run h evs) (repeat HNext (length l)) = map (fun a => OAddr (Some a)) l.
Proof.
  intros ipv4 ipv6 has6 k port any interval now r ord h evs E K O F.
  assert (H : hinv ipv4 ipv6 has6 (answers r evs) (host_run h evs)) by (eapply reach_inv; eassumption).
  destruct H as (_ & _ & _ & _ & (g & G & N & L) & (pre & P) & _).
  set (h1 := host_run h evs) in *. exists g, (h_iter h1 ++ pre). split; [exact G|].
  assert (PM : Permutation (h_ailist h1) (h_iter h1 ++ pre)) by (rewrite P; apply Permutation_app_comm).
  split; [eapply Permutation_NoDup; eassumption|]. split.
  { intro x. rewrite <- L. split; apply Permutation_in; [apply Permutation_sym|]; exact PM. }
  rewrite app_length, repeat_app, outs_app, map_app.
  destruct (nexts_take (h_iter h1) h1 eq_refl (length (h_iter h1)) (le_n _)) as (A & B & C).
  rewrite A, firstn_all. f_equal. rewrite skipn_all in B.
  rewrite nexts_wrap; [|exact B|rewrite C, P, app_length; lia].
  rewrite C, P. rewrite firstn_app, Nat.sub_diag, firstn_all, firstn_O, app_nil_r. reflexivity.
Qed.
Print Assumptions host_rotation.

(** A new host: the addresses in the order they will be tried, all of the
    family asked for more often first. *)
Theorem host_preference : forall ipv4 ipv6 has6 k port any interval now r ord h t,
  host_new k port any ipv4 ipv6 has6 interval now (Some r) ord = Ok h -> k <> KWild ->
  order_of (usable ipv4 ipv6 has6) (Some r) ord ->
  exists l, NoDup l /\ (forall x, In x l <-> In x r /\ usable ipv4 ipv6 has6 x) /\
    host_outs h (HUse t :: repeat HNext (pred (length l))) = map (fun a => OAddr (Some a)) l /\
    (ipv4 < ipv6 -> forall l1 x l2 y, l = l1 ++ x :: l2 -> In y l2 -> fst x = F4 -> fst y = F4) /\
    (ipv6 < ipv4 -> forall l1 x l2 y, l = l1 ++ x :: l2 -> In y l2 -> fst x = F6 -> fst y = F6).
Proof.
  intros ipv4 ipv6 has6 k port any interval now r ord h t E K O.
  assert (H : hinv ipv4 ipv6 has6 [r] h) by (apply (new_inv _ _ _ _ _ _ _ _ _ _ _ E K O)).
  destruct (new_named _ _ _ _ _ _ _ _ _ _ _ E K O) as (v4 & v6 & nx & _ & D & S). cbn [dolookup] in D.
  set (h0 := mkHost _ _ _ _ _ _ _ _ _ _ _ _ _) in D.
  destruct (lookup_cases _ _ _ h0 r ord _ eq_refl eq_refl O (eq_sym D)) as (_ & _ & _ & _ & _ & _ & E6 & E5).
  destruct H as (_ & _ & _ & _ & (g & (l1 & l2 & G1 & G2 & G3) & N & L) & _ & _).
  assert (g = r).
  { destruct l1 as [|z l1]; [injection G1; auto|]. injection G1 as _ G1. destruct l1; discriminate G1. }
  subst g. exists (h_ailist h). split; [exact N|]. split; [exact L|].
  destruct E5 as [(Z0 & _) | (_ & F1 & [(c & Q1 & _) | (c & Q1 & Q2)])]; [|discriminate Q1|].
  { exfalso. apply S. destruct (h_sockset h) as [|y l]; [reflexivity|].
    destruct (proj1 (E6 y) (or_introl eq_refl)) as (f & J & Q). destruct (Z0 _ J Q). }
  split.
  { rewrite Q1. cbn [length pred map host_outs host_step fst snd]. 
    assert (I1 : h_iter (check_interval h t) = h_iter h) by (unfold check_interval; destruct (due h t); reflexivity).
    assert (I2 : h_cur (check_interval h t) = h_cur h) by (unfold check_interval; destruct (due h t); reflexivity).
    rewrite I2, Q2. destruct (nexts_take (h_iter h) (check_interval h t) I1 (length (h_iter h)) (le_n _)) as (A & _).
    rewrite A, firstn_all. reflexivity. }
  rewrite F1. subst h0. cbn [h_allow4 h_allow6].
  assert (PART : forall (f : ai -> bool) (o l1 l2 : list ai) x y,
    filter (fun z => negb (f z)) o ++ filter f o = l1 ++ x :: l2 -> In y l2 -> f x = true -> f y = true).
  { intros f o. generalize (filter_In f). intros FI q1 q2 x y EQ IY FX.
    assert (X : forall p q1, (forall z, In z p -> f z = false) -> p ++ filter f o = q1 ++ x :: q2 -> f y = true).
    { induction p as [|z p IH]; intros q0 PZ EE; cbn [app] in EE.
      - apply (FI y o). rewrite EE. apply in_or_app. right. right. exact IY.
      - destruct q0 as [|z' q0]; cbn [app] in EE; injection EE as -> EE.
        + rewrite (PZ x) in FX; [discriminate | left; reflexivity].
        + apply (IH q0); [intros w IW; apply PZ; right; exact IW | exact EE]. }
    apply (X _ q1) in EQ; [exact EQ|]. intros z IZ. apply filter_In in IZ as [_ IZ]. apply negb_true_iff, IZ. }
  split; intros LT q1 x q2 y EQ IY FX.
  - apply fam_eqb_eq. unfold by_pref, allow in EQ.
    replace ((ipv4 =? 0) && (ipv6 =? 0)) with (false) in EQ.
    2: { symmetry. apply andb_false_iff. destruct (Z.eqb_spec ipv4 0); [right; apply Z.eqb_neq; lia | left; reflexivity]. }
    cbn [fst snd] in EQ. replace (ipv4 =? ipv6) with false in EQ by (symmetry; apply Z.eqb_neq; lia).
    replace (ipv4 <? ipv6) with true in EQ by (symmetry; apply Z.ltb_lt; lia).
    apply (PART (fun z => fam_eqb (fst z) F4) ord q1 q2 x y); auto. apply fam_eqb_eq. exact FX.
  - apply fam_eqb_eq. unfold by_pref, allow in EQ.
    replace ((ipv4 =? 0) && (ipv6 =? 0)) with (false) in EQ.
    2: { symmetry. apply andb_false_iff. destruct (Z.eqb_spec ipv4 0); [right; apply Z.eqb_neq; lia | left; reflexivity]. }
    cbn [fst snd] in EQ. replace (ipv4 =? ipv6) with false in EQ by (symmetry; apply Z.eqb_neq; lia).
    replace (ipv4 <? ipv6) with false in EQ by (symmetry; apply Z.ltb_ge; lia).
    apply (PART (fun z => fam_eqb (fst z) F6) ord q1 q2 x y); auto. apply fam_eqb_eq. exact FX.
Qed.
Print Assumptions host_preference.

(** *** C67: from whom a circuit accepts *)
(** The address of a sender, with an IPv4 address in IPv6 form ("::ffff:1.2.3.4")
    read as what it stands for. *)
Definition sender_is (a : sockaddr) (ip : list Z) : Prop :=
  sa_ip a = mapped ++ ip \/ ((~ exists t, sa_ip a = mapped ++ t) /\ sa_ip a = ip).
Lemma unmap_spec : forall a ip, unmap (sa_ip a) = ip <-> sender_is a ip.
Proof.
  intros a ip. unfold unmap, sender_is. destruct (startswith (sa_ip a) mapped) eqn:S.
  - apply startswith_app in S as (t & S). rewrite S. unfold from. cbn [mapped app skipn]. 
    change (skipn (Z.to_nat 7) (58 :: 58 :: 102 :: 102 :: 102 :: 102 :: 58 :: t)) with t. split.
    + intros ->. left. reflexivity.
    + intros [E | [N _]]; [injection E; auto | exfalso; apply N; eexists; reflexivity].
  - assert (N : ~ exists t, sa_ip a = mapped ++ t) by (intro X; apply startswith_app in X; congruence).
    split; [auto | intros [E | [_ E]]; [exfalso; apply N; eauto | exact E]].
Qed.
(** A sender is accepted exactly when some lookup, the latest or an earlier one,
    had its address. *)
Theorem host_accepts : forall ipv4 ipv6 has6 k port any interval now r ord h evs t a,
  host_new k port any ipv4 ipv6 has6 interval now r ord = Ok h -> k <> KWild ->
  order_of (usable ipv4 ipv6 has6) r ord -> Forall (order_ok (usable ipv4 ipv6 has6)) evs ->
  exists b, snd (host_step (host_run h evs) (HValid t a)) = OValid b /\
    (b = true <-> exists g x, In g (answers r evs) /\ In x g /\ usable ipv4 ipv6 has6 x /\
                  sender_is a (sa_ip (snd x))).
Proof.
  intros ipv4 ipv6 has6 k port any interval now r ord h evs t a E K O F.
  assert (H : hinv ipv4 ipv6 has6 (answers r evs) (host_run h evs)) by (eapply reach_inv; eassumption).
  apply (check_same _ _ _ _ _ t) in H. eexists. split; [reflexivity|].
  destruct H as (A & _ & _ & I & _). unfold host_valid. rewrite A, orb_false_r, (mem_In _ _ leqb_eq), I.
  split.
  - intros (g & x & J1 & J2 & J3 & J4). exists g, x. repeat (split; [assumption|]). apply unmap_spec. auto.
  - intros (g & x & J1 & J2 & J3 & J4). exists g, x. repeat (split; [assumption|]). apply unmap_spec in J4. auto.
Qed.
Print Assumptions host_accepts.

(** The description of [valid] says "the set of IP addresses we found at the
    last lookup".  An address that only an earlier lookup had is still
    accepted. *)
Definition a1 : ai := (F4, ([49], 700, [])).
Definition a2 : ai := (F4, ([50], 700, [])).
Theorem host_accepts_last_refuted : exists h evs,
  host_new KName 700 false 1 0 true 3600 0 (Some [a1]) [a1] = Ok h /\
  order_of (usable 1 0 true) (Some [a1]) [a1] /\ Forall (order_ok (usable 1 0 true)) evs /\
  (exists g, last_good (usable 1 0 true) (answers (Some [a1]) evs) g /\ ~ In a1 g) /\
  snd (host_step (host_run h evs) (HValid 4000 ([49], 5, []))) = OValid true.
Proof.
  assert (U1 : usable 1 0 true a1) by (left; split; [reflexivity | left; lia]).
  assert (U2 : usable 1 0 true a2) by (left; split; [reflexivity | left; lia]).
  assert (ORD : forall a, usable 1 0 true a -> order_of (usable 1 0 true) (Some [a]) [a]).
  { intros a Ua. split; [repeat constructor; intros []|]. intro x. cbn [In]. split.
    - intros [<- | []]. auto.
    - tauto. }
  eexists. exists [HUse 3700; HDone (Some [a2]) [a2]]. split; [reflexivity|].
  split; [apply ORD, U1|]. split.
  { constructor; [exact I|]. constructor; [apply ORD, U2 | constructor]. }
  split.
  - exists [a2]. split; [|intros [X | []]; discriminate X].
    exists [[a1]], []. split; [reflexivity|]. split; [exists a2; split; [left; reflexivity | exact U2] | intros ? []].
  - reflexivity.
Qed.
Print Assumptions host_accepts_last_refuted.

(** "*": everyone is accepted, no lookup is ever asked for. *)
Theorem host_wild : forall ipv4 ipv6 has6 port interval now r ord,
  exists h, host_new KWild port true ipv4 ipv6 has6 interval now r ord = Ok h /\
    forall evs, Forall (fun e => match e with HUse t => t <= NEVER | HValid t _ => t <= NEVER | HNext => True | HDone _ _ => False end) evs ->
    (forall t a, snd (host_step (host_run h evs) (HValid t a)) = OValid true) /\
    h_queue (host_run h evs) = 0 /\
    forall t, t <= NEVER -> exists f, snd (host_step (host_run h evs) (HUse t)) = OAddr (Some (f, ([], port, []))).
Proof.
  intros. unfold host_new. fold (allow ipv4 ipv6 has6). destruct (allow ipv4 ipv6 has6) as [a4 a6].
  eexists. split; [reflexivity|]. set (f0 := if negb (a6 =? 0) then F6 else F4). cbn [snd].
  intros evs F.
  assert (X : forall h, h_any h = true -> h_next h = NEVER -> h_queue h = 0 ->
    h_cur h = Some (f0, ([], port, [])) -> h_ailist h = [(f0, ([], port, []))] -> h_iter h = [] ->
    h_any (host_run h evs) = true /\ h_next (host_run h evs) = NEVER /\ h_queue (host_run h evs) = 0 /\
    h_cur (host_run h evs) = Some (f0, ([], port, []))).
  { induction F as [|e evs FE F IH]; intros h A N Q C L T; [auto|]. cbn [host_run fold_left].
    assert (CH : forall t, t <= NEVER -> check_interval h t = h).
    { intros t LT. unfold check_interval, due. rewrite N. replace (NEVER <? t) with false by (symmetry; apply Z.ltb_ge; lia). reflexivity. }
    destruct e as [t| |t a|rr o]; cbn [host_step fst].
    - rewrite CH by exact FE. apply IH; assumption.
    - apply IH; unfold host_advance; rewrite T, L; auto.
    - rewrite CH by exact FE. apply IH; assumption.
    - destruct FE. }
  destruct (X (mkHost true a4 a6 (negb (a4 =? 0)) (negb (a6 =? 0)) [([], port, [])] [] [(f0, ([], port, []))] []
             (Some (f0, ([], port, []))) NEVER interval 0) eq_refl eq_refl eq_refl eq_refl eq_refl eq_refl) as (A & N & Q & C).
  set (h1 := host_run _ evs) in *.
  split; [|split; [exact Q|]].
  - intros t a. cbn [host_step snd]. unfold host_valid.
    replace (h_any (check_interval h1 t)) with true by (unfold check_interval; destruct (due h1 t); auto).
    rewrite orb_true_r. reflexivity.
  - intros t LT. exists f0. cbn [host_step snd]. 
    replace (h_cur (check_interval h1 t)) with (h_cur h1) by (unfold check_interval; destruct (due h1 t); reflexivity).
    rewrite C. reflexivity.
Qed.
Print Assumptions host_wild.

(** *** C67: when a name is looked up again *)
Definition ev_time (e : hev) : option Z := match e with HUse t | HValid t _ => Some t | _ => None end.
(** The circuit's use of the host puts it in the resolver's queue. *)
Definition asks (h : host) (e : hev) : Prop := h_queue (fst (host_step h e)) = h_queue h + 1.
Lemma step_next : forall h e, h_any h = false ->
  h_any (fst (host_step h e)) = false /\ h_interval (fst (host_step h e)) = h_interval h /\
  match ev_time e with
  | Some t => if h_next h <? t then asks h e /\ h_next (fst (host_step h e)) = t + h_interval h
              else ~ asks h e /\ h_next (fst (host_step h e)) = h_next h
  | None => ~ asks h e /\ h_next (fst (host_step h e)) = h_next h
  end.
Proof.
  intros h e A. unfold asks.
  assert (CI : forall t, h_any (check_interval h t) = false /\ h_interval (check_interval h t) = h_interval h /\
    if h_next h <? t then h_queue (check_interval h t) = h_queue h + 1 /\ h_next (check_interval h t) = t + h_interval h
    else h_queue (check_interval h t) <> h_queue h + 1 /\ h_next (check_interval h t) = h_next h).
  { intro t. unfold check_interval, due. destruct (h_next h <? t); cbn [h_any h_interval h_queue h_next]; rewrite ?A; auto.
    repeat split; auto; lia. }
  assert (AD : forall h1, h_any (host_advance h1) = h_any h1 /\ h_interval (host_advance h1) = h_interval h1 /\
    h_queue (host_advance h1) = h_queue h1 /\ h_next (host_advance h1) = h_next h1).
  { intro h1. unfold host_advance. destruct (h_iter h1); [destruct (h_ailist h1)|]; auto. }
  destruct e as [t| |t a|[r|] ord]; cbn [host_step fst ev_time].
  - apply CI.
  - destruct (AD h) as (-> & -> & -> & ->). repeat split; auto; lia.
  - apply CI.
  - unfold dolookup, lookup_done. destruct (lk_loop _ _ _ _ r) as [[[v4 v6] s] t]. destruct s as [|y s].
    + cbn [h_any h_interval h_queue h_next]. repeat split; auto; lia.
    + set (h1 := mkHost _ _ _ _ _ _ _ _ _ _ _ _ _).
      destruct (match h_cur h with Some c => _ | None => false end).
      * unfold h1. cbn [h_any h_interval h_queue h_next]. repeat split; auto; lia.
      * destruct (AD h1) as (-> & -> & -> & ->). unfold h1. cbn [h_any h_interval h_queue h_next]. repeat split; auto; lia.
  - cbn [dolookup]. repeat split; auto; lia.
Qed.
Lemma dolookup_next : forall h r ord, h_any h = false ->
  h_any (dolookup h r ord) = false /\ h_interval (dolookup h r ord) = h_interval h /\ h_next (dolookup h r ord) = h_next h.
Proof.
  intros h r ord A. destruct (step_next h (HDone r ord) A) as (X & Y & _ & Z0). auto.
Qed.
(** A name is looked up again by the first use more than an interval after the
    lookup before, and by no other. *)
Theorem host_asks : forall ipv4 ipv6 has6 port any interval now r ord h evs e t,
  host_new KName port any ipv4 ipv6 has6 interval now r ord = Ok h ->
  order_of (usable ipv4 ipv6 has6) r ord -> ev_time e = Some t -> 0 <= interval ->
  (forall l1 x l2 y l3 s u, evs ++ [e] = l1 ++ x :: l2 ++ y :: l3 -> ev_time x = Some s -> ev_time y = Some u -> s <= u) ->
  (forall x s, In x (evs ++ [e]) -> ev_time x = Some s -> now <= s) ->
  (asks (host_run h evs) e <->
   t > now + interval /\
   forall l1 x l2 s, evs = l1 ++ x :: l2 -> ev_time x = Some s -> asks (host_run h l1) x -> t > s + interval).
Proof.
  intros ipv4 ipv6 has6 port any interval now r ord h evs e t E O T IV MONO POST.
  destruct (new_named _ _ _ _ _ _ _ _ _ _ _ E ltac:(discriminate) O) as (v4 & v6 & nx & NX & D & _).
  set (h0 := mkHost _ _ _ _ _ _ _ _ _ _ _ _ _) in D.
  destruct (dolookup_next h0 r ord eq_refl) as (A0 & I0 & N0). rewrite <- D in A0, I0, N0.
  unfold h0 in I0, N0. cbn [h_interval h_next] in I0, N0. rewrite NX in N0. clear D E O.
  (* the time of the last lookup asked for *)
  assert (X : forall l l', evs = l ++ l' ->
    h_any (host_run h l) = false /\ h_interval (host_run h l) = interval /\
    ((h_next (host_run h l) = now + interval /\ forall l1 x l2, l = l1 ++ x :: l2 -> ~ asks (host_run h l1) x) \/
     exists l1 x l2 s, l = l1 ++ x :: l2 /\ ev_time x = Some s /\ asks (host_run h l1) x /\
       h_next (host_run h l) = s + interval /\
       forall l3 y l4, l2 = l3 ++ y :: l4 -> ~ asks (host_run h (l1 ++ x :: l3)) y)).
  { induction l as [|x l IH] using rev_ind; intros l' EV.
    - split; [exact A0|]. split; [exact I0|]. left. split; [exact N0|].
      intros [|? ?] ? ? Q; discriminate Q.
    - rewrite <- app_assoc in EV. destruct (IH _ EV) as (A & B & C). clear IH.
      unfold host_run in *. rewrite fold_left_app. cbn [fold_left]. fold (host_run h l) in *.
      destruct (step_next (host_run h l) x A) as (S1 & S2 & S3).
      split; [exact S1|]. split; [congruence|].
      assert (LAST : forall l1 y l2, l ++ [x] = l1 ++ y :: l2 -> (l2 = [] /\ l1 = l /\ y = x) \/ exists l3, l2 = l3 ++ [x] /\ l = l1 ++ y :: l3).
      { intros l1 y l2 Q. destruct l2 as [|z l2] using rev_ind.
        - apply app_inj_tail in Q as [-> ->]. auto.
        - right. exists l2. rewrite app_comm_cons, app_assoc in Q. apply app_inj_tail in Q as [-> ->]. auto. }
      assert (STAY : ~ asks (host_run h l) x -> h_next (fst (host_step (host_run h l) x)) = h_next (host_run h l) ->
        (h_next (fst (host_step (host_run h l) x)) = now + interval /\
          forall l1 y l2, l ++ [x] = l1 ++ y :: l2 -> ~ asks (fold_left (fun h e => fst (host_step h e)) l1 h) y) \/
        exists l1 y l2 s, l ++ [x] = l1 ++ y :: l2 /\ ev_time y = Some s /\ asks (fold_left (fun h e => fst (host_step h e)) l1 h) y /\
          h_next (fst (host_step (host_run h l) x)) = s + interval /\
          forall l3 z l4, l2 = l3 ++ z :: l4 -> ~ asks (fold_left (fun h e => fst (host_step h e)) (l1 ++ y :: l3) h) z).
      { intros NA NE. rewrite NE. destruct C as [[C1 C2] | (l1 & y & l2 & s & C1 & C2 & C3 & C4 & C5)].
        - left. split; [exact C1|]. intros l1 y l2 Q. destruct (LAST _ _ _ Q) as [(_ & -> & ->) | (l3 & _ & ->)]; [exact NA|].
          eapply C2. reflexivity.
        - right. exists l1, y, (l2 ++ [x]), s. split; [rewrite C1, <- app_assoc; reflexivity|].
          split; [exact C2|]. split; [exact C3|]. split; [exact C4|].
          intros l3 z l4 Q. assert (Q' : l ++ [x] = (l1 ++ y :: l3) ++ z :: l4) by (rewrite C1, <- !app_assoc; cbn [app]; rewrite Q; reflexivity).
          destruct (LAST _ _ _ Q') as [(_ & -> & ->) | (l5 & Q1 & Q2)]; [exact NA|].
          eapply C5. rewrite C1, <- app_assoc in Q2. apply app_inv_head in Q2. injection Q2 as Q2. exact Q2. }
      destruct (ev_time x) as [s|] eqn:TX; [|destruct S3; apply STAY; assumption].
      destruct (h_next (host_run h l) <? s); [|destruct S3; apply STAY; assumption].
      destruct S3 as [S3 S4]. right. exists l, x, [], s. split; [reflexivity|]. split; [exact TX|].
      split; [exact S3|]. split; [rewrite S4, B; reflexivity|]. intros [|? ?] ? ? Q; discriminate Q. }
  destruct (X evs [] (eq_sym (app_nil_r _))) as (A & B & C). clear X.
  destruct (step_next (host_run h evs) e A) as (_ & _ & S3). rewrite T in S3.
  destruct C as [[C1 C2] | (l1 & x & l2 & s & C1 & C2 & C3 & C4 & C5)].
  - rewrite C1 in S3. destruct (Z.ltb_spec (now + interval) t).
    + split; [|intro; apply S3]. intros _. split; [lia|]. intros l1 x l2 s Q _ AS. destruct (C2 _ _ _ Q AS).
    + split; [intro AS; destruct S3; contradiction | intros [G _]; lia].
  - rewrite C4 in S3. destruct (Z.ltb_spec (s + interval) t).
    + split; [|intro; apply S3]. intros _. split.
      { assert (now <= s); [|lia]. apply (POST x s); [rewrite C1; apply in_or_app; left; apply in_or_app; right; left; reflexivity | exact C2]. }
      intros m1 y m2 u Q TY AS.
      assert (u <= s); [|lia].
      destruct (Compare_dec.lt_eq_lt_dec (length m1) (length l1)) as [[LT | EQ] | GT].
      * assert (Q' : exists w, l1 = m1 ++ y :: w).
        { exists (firstn (length l1 - length m1 - 1) m2). rewrite C1 in Q.
          apply (f_equal (firstn (length l1))) in Q. rewrite firstn_app, Nat.sub_diag, firstn_all, firstn_O, app_nil_r in Q.
          rewrite firstn_app in Q. rewrite (firstn_all2 m1) in Q by lia.
          destruct (length l1 - length m1)%nat as [|d] eqn:DD; [lia|]. cbn [firstn] in Q. rewrite Q at 1.
          replace (S d - 1)%nat with d by lia. reflexivity. }
        destruct Q' as (w & Q'). apply (MONO m1 y w x (l2 ++ [e])); auto.
        rewrite C1, Q', <- !app_assoc. reflexivity.
      * assert (m1 = l1 /\ y = x) as [-> ->].
        { rewrite C1 in Q. clear - Q EQ. revert l1 Q EQ. induction m1 as [|a m1 IH]; intros [|b l1] Q EQ; try discriminate EQ.
          - injection Q. auto.
          - cbn [app] in Q. injection Q as -> Q. injection EQ as EQ. destruct (IH l1 Q EQ) as [-> ->]. auto. }
        assert (u = s) by congruence. lia.
      * exfalso. assert (Q' : exists l3 l4, l2 = l3 ++ y :: l4 /\ m1 = l1 ++ x :: l3).
        { exists (skipn (S (length l1)) m1), m2. rewrite C1 in Q. clear - Q GT. revert l1 Q GT.
          induction m1 as [|a m1 IH]; intros [|b l1] Q GT; cbn [length] in GT; try lia.
          - cbn [app] in Q. injection Q as -> Q. cbn [length skipn app]. auto.
          - cbn [app] in Q. injection Q as -> Q. destruct (IH l1 Q ltac:(lia)) as [E1 E2].
            cbn [length skipn app] in *. split; [exact E1 | f_equal; exact E2]. }
        destruct Q' as (l3 & l4 & Q1 & ->). exact (C5 _ _ _ Q1 AS).
    + split; [intro AS; destruct S3; contradiction|]. intros [_ G]. specialize (G _ _ _ _ C1 C2 C3). lia.
Qed.
Print Assumptions host_asks.

(** *** C67: which configurations are accepted *)
Theorem host_new_ok : forall ipv4 ipv6 has6 k port any interval now r ord,
  order_of (usable ipv4 ipv6 has6) r ord ->
  ((exists h, host_new k port any ipv4 ipv6 has6 interval now r ord = Ok h) <->
   match k with
   | KWild => any = true
   | K4 => wants4 ipv4 ipv6 /\ exists g x, r = Some g /\ In x g /\ usable ipv4 ipv6 has6 x
   | K6 => wants6 ipv4 ipv6 has6 /\ exists g x, r = Some g /\ In x g /\ usable ipv4 ipv6 has6 x
   | KName => exists g x, r = Some g /\ In x g /\ usable ipv4 ipv6 has6 x
   end).
Proof.
  intros ipv4 ipv6 has6 k port any interval now r ord O.
  assert (W4 : (fst (allow ipv4 ipv6 has6) =? 0) = false <-> wants4 ipv4 ipv6).
  { unfold allow, wants4. destruct (ipv4 =? 0) eqn:A, (ipv6 =? 0) eqn:B, has6; cbn [andb fst snd]; lia. }
  assert (W6 : (snd (allow ipv4 ipv6 has6) =? 0) = false <-> wants6 ipv4 ipv6 has6).
  { unfold allow, wants6. destruct (ipv4 =? 0) eqn:A, (ipv6 =? 0) eqn:B, has6; cbn [andb fst snd]; lia. }
  unfold host_new. fold (allow ipv4 ipv6 has6).
  destruct (allow ipv4 ipv6 has6) as [a4 a6] eqn:AL. cbn [fst snd] in W4, W6.
  assert (X : forall v4 v6 nx,
    (exists h, match h_sockset (dolookup (mkHost false a4 a6 v4 v6 [] [] [] [] None nx interval 0) r ord) with
    | [] => Err EValue | _ => Ok (dolookup (mkHost false a4 a6 v4 v6 [] [] [] [] None nx interval 0) r ord) end = Ok h) <->
    exists g x, r = Some g /\ In x g /\ usable ipv4 ipv6 has6 x).
  { intros v4 v6 nx. destruct r as [g|].
    - cbn [dolookup]. set (h0 := mkHost _ _ _ _ _ _ _ _ _ _ _ _ _).
      assert (A4 : h_allow4 h0 = fst (allow ipv4 ipv6 has6)) by (rewrite AL; reflexivity).
      assert (A6 : h_allow6 h0 = snd (allow ipv4 ipv6 has6)) by (rewrite AL; reflexivity).
      destruct (lookup_cases _ _ _ h0 g ord _ A4 A6 O eq_refl) as (_ & _ & _ & _ & _ & _ & E6 & _).
      destruct (h_sockset (lookup_done h0 g ord)) as [|y l].
      + split; [intros (h & Q); discriminate Q|]. intros (g' & [f y] & Q & I1 & I2). injection Q as <-.
        destruct (proj2 (E6 y)). eauto.
      + split; [|eauto]. intros _. destruct (proj1 (E6 y) (or_introl eq_refl)) as (f & I1 & I2). exists g, (f, y). auto.
    - cbn [dolookup h_sockset]. split; [intros (h & Q); discriminate Q | intros (g & x & Q & _); discriminate Q]. }
  destruct k.
  - destruct any; split; intro H; eauto; [destruct H as (h & H); discriminate H | discriminate H].
  - destruct (a4 =? 0).
    + split; [intros (h & Q); discriminate Q | intros [Q _]; apply W4 in Q; discriminate Q].
    + rewrite X. split; [intro H; split; [apply W4; reflexivity | exact H] | tauto].
  - destruct (a6 =? 0).
    + split; [intros (h & Q); discriminate Q | intros [Q _]; apply W6 in Q; discriminate Q].
    + rewrite X. split; [intro H; split; [apply W6; reflexivity | exact H] | tauto].
  - apply X.
Qed.
Print Assumptions host_new_ok.

(** A source that is not "*" is a single address, and one of this host's. *)
Theorem source_is_local : forall ipv4 ipv6 has6 k port now r ord locals h t,
  source_new k port ipv4 ipv6 has6 now (Some r) ord locals = Ok h -> k <> KWild ->
  order_of (usable ipv4 ipv6 has6) (Some r) ord ->
  exists f a, snd (host_step h (HUse t)) = OAddr (Some (f, a)) /\ In (sa_ip a) locals /\
    forall g b, In (g, b) r -> usable ipv4 ipv6 has6 (g, b) -> b = a.
Proof.
  intros ipv4 ipv6 has6 k port now r ord locals h t E K O. unfold source_new in E.
  destruct (host_new k port true ipv4 ipv6 has6 3600 now (Some r) ord) as [h1|] eqn:N; [|discriminate E]. cbn [bind] in E.
  destruct (new_inv _ _ _ _ _ _ _ _ _ _ _ N K O) as (A & _ & _ & _ & (g & (l1 & l2 & G1 & G2 & G3) & ND & L) & _ & c & C & Ic).
  assert (g = r).
  { destruct l1 as [|z l1]; [injection G1; auto|]. injection G1 as _ G1. destruct l1; discriminate G1. }
  subst g. rewrite A in E. destruct (zlen (h_sockset h1) =? 1) eqn:Z1; [|discriminate E]. cbn [negb] in E.
  rewrite C in E. destruct (mem leqb (sa_ip (snd c)) locals) eqn:M; [|discriminate E]. injection E as <-.
  destruct (new_named _ _ _ _ _ _ _ _ _ _ _ N K O) as (v4 & v6 & nx & _ & D & _). cbn [dolookup] in D.
  set (h0 := mkHost _ _ _ _ _ _ _ _ _ _ _ _ _) in D.
  destruct (lookup_cases _ _ _ h0 r ord _ eq_refl eq_refl O (eq_sym D)) as (_ & _ & _ & _ & _ & _ & E6 & _).
  exists (fst c), (snd c). split; [|split].
  - cbn [host_step snd]. replace (h_cur (check_interval h1 t)) with (h_cur h1) by (unfold check_interval; destruct (due h1 t); reflexivity).
    rewrite C, <- surjective_pairing. reflexivity.
  - apply (mem_In _ _ leqb_eq), M.
  - intros f b I1 I2. apply L in Ic as [J1 J2].
    assert (B1 : In b (h_sockset h1)) by (apply E6; eauto).
    assert (B2 : In (snd c) (h_sockset h1)) by (apply E6; exists (fst c); rewrite <- surjective_pairing; auto).
    unfold zlen in Z1. destruct (h_sockset h1) as [|y [|y' l]]; cbn [length] in Z1; [destruct B1 | | lia].
    destruct B1 as [-> | []]. destruct B2 as [-> | []]. reflexivity.
Qed.
Print Assumptions source_is_local.

(** *** C67: the families a circuit listens for *)
Lemma flags_fold : forall a4 a6 r v4 v6 s t v4' v6' s' t',
  fold_left (lk_step a4 a6) r (v4, v6, s, t) = (v4', v6', s', t') ->
  (v4' = true <-> v4 = true \/ exists a, In (F4, a) r /\ in_fams a4 a6 F4 = true) /\
  (v6' = true <-> v6 = true \/ exists a, In (F6, a) r /\ in_fams a4 a6 F6 = true).
Proof.
  intros a4 a6. induction r as [|[f a] r IH]; intros v4 v6 s t v4' v6' s' t' E; cbn [fold_left] in E.
  - injection E as <- <- <- <-. cbn [In]. split; (split; [auto | intros [X | (y & [] & _)]; exact X]).
  - assert (ST : exists w4 w6 s1 t1, lk_step a4 a6 (v4, v6, s, t) (f, a) = (w4, w6, s1, t1) /\
      (w4 = true <-> v4 = true \/ (f = F4 /\ in_fams a4 a6 F4 = true)) /\
      (w6 = true <-> v6 = true \/ (f = F6 /\ in_fams a4 a6 F6 = true))).
    { unfold lk_step. cbn [fst snd]. destruct (in_fams a4 a6 f) eqn:FM.
      - assert (f <> FX).
        { intros ->. unfold in_fams in FM. destruct (negb (a6 =? 0)), (negb (a4 =? 0)); discriminate FM. }
        destruct f; [| |contradiction H; reflexivity]; cbn [fam_eqb].
        + do 4 eexists. split; [reflexivity|]. split; [tauto|]. split; [auto | intros [X | [X _]]; [exact X | discriminate X]].
        + destruct (link_local a); do 4 eexists; (split; [reflexivity|]); split; try tauto; (split; [auto | intros [X | [X _]]; [exact X | discriminate X]]).
      - do 4 eexists. split; [reflexivity|]. split; (split; [auto | intros [X | [-> X]]; [exact X | congruence]]). }
    destruct ST as (w4 & w6 & s1 & t1 & ST & W4 & W6). rewrite ST in E. destruct (IH _ _ _ _ _ _ _ _ E) as [I4 I6].
    rewrite I4, I6, W4, W6. cbn [In]. split.
    + split.
      * intros [[X | [-> X]] | (y & X & Y)]; [auto | right; exists a; auto | right; exists y; auto].
      * intros [X | (y & [X | X] & Y)]; [auto | injection X as -> _; auto | right; eauto].
    + split.
      * intros [[X | [-> X]] | (y & X & Y)]; [auto | right; exists a; auto | right; exists y; auto].
      * intros [X | (y & [X | X] & Y)]; [auto | injection X as -> _; auto | right; eauto].
Qed.
Lemma flags_lookup : forall h r ord,
  (h_ipv4 (lookup_done h r ord) = true <-> h_ipv4 h = true \/ exists a, In (F4, a) r /\ in_fams (h_allow4 h) (h_allow6 h) F4 = true) /\
  (h_ipv6 (lookup_done h r ord) = true <-> h_ipv6 h = true \/ exists a, In (F6, a) r /\ in_fams (h_allow4 h) (h_allow6 h) F6 = true) /\
  h_allow4 (lookup_done h r ord) = h_allow4 h /\ h_allow6 (lookup_done h r ord) = h_allow6 h.
Proof.
  intros h r ord. unfold lookup_done.
  destruct (lk_loop (h_allow4 h) (h_allow6 h) (h_ipv4 h) (h_ipv6 h) r) as [[[v4 v6] s] t] eqn:K.
  unfold lk_loop in K. apply flags_fold in K as [K4 K6]. rewrite <- K4, <- K6.
  destruct s as [|y s]; [cbn [h_ipv4 h_ipv6 h_allow4 h_allow6]; tauto|].
  destruct (match h_cur h with Some c => _ | None => false end); [cbn [h_ipv4 h_ipv6 h_allow4 h_allow6]; tauto|].
  unfold host_advance. cbn [h_iter h_ailist]. destruct (by_pref _ _ ord); cbn [h_ipv4 h_ipv6 h_allow4 h_allow6]; tauto.
Qed.
(** IPv4 (IPv6) is listened for exactly when the name is such an address or a
    lookup had one of that family, and the family is enabled. *)
Theorem host_families : forall ipv4 ipv6 has6 k port any interval now r ord h evs,
  host_new k port any ipv4 ipv6 has6 interval now r ord = Ok h -> k <> KWild ->
  order_of (usable ipv4 ipv6 has6) r ord ->
  let has4 := k = K4 \/ (wants4 ipv4 ipv6 /\ exists g a, In g (answers r evs) /\ In (F4, a) g) in
  let has6' := k = K6 \/ (wants6 ipv4 ipv6 has6 /\ exists g a, In g (answers r evs) /\ In (F6, a) g) in
  (use_dualstack (host_run h evs) = true <-> has4 /\ has6') /\
  (listen_family (host_run h evs) = F6 <-> has6').
Proof.
  intros ipv4 ipv6 has6 k port any interval now r ord h evs E K O has4 has6'.
  assert (F4W : in_fams (fst (allow ipv4 ipv6 has6)) (snd (allow ipv4 ipv6 has6)) F4 = true <-> wants4 ipv4 ipv6).
  { unfold in_fams, allow, wants4. destruct (ipv4 =? 0) eqn:A, (ipv6 =? 0) eqn:B, has6; cbn [andb fst snd negb Z.eqb]; rewrite ?A, ?B; cbn [negb fam_eqb orb]; lia. }
  assert (F6W : in_fams (fst (allow ipv4 ipv6 has6)) (snd (allow ipv4 ipv6 has6)) F6 = true <-> wants6 ipv4 ipv6 has6).
  { unfold in_fams, allow, wants6. destruct (ipv4 =? 0) eqn:A, (ipv6 =? 0) eqn:B, has6; cbn [andb fst snd negb Z.eqb]; rewrite ?A, ?B; cbn [negb fam_eqb orb]; lia. }
  set (ST := fun (ans : list (list ai)) (h : host) =>
    h_allow4 h = fst (allow ipv4 ipv6 has6) /\ h_allow6 h = snd (allow ipv4 ipv6 has6) /\
    (h_ipv4 h = true <-> k = K4 \/ (wants4 ipv4 ipv6 /\ exists g a, In g ans /\ In (F4, a) g)) /\
    (h_ipv6 h = true <-> k = K6 \/ (wants6 ipv4 ipv6 has6 /\ exists g a, In g ans /\ In (F6, a) g))).
  assert (LK : forall ans h r ord, ST ans h -> ST (ans ++ [r]) (lookup_done h r ord)).
  { intros ans h0 r0 ord0 (S1 & S2 & S3 & S4). destruct (flags_lookup h0 r0 ord0) as (L4 & L6 & A4 & A6).
    split; [congruence|]. split; [congruence|]. rewrite S1, S2 in L4, L6. rewrite L4, L6, S3, S4. split.
    - split.
      + intros [[X | (W & g & a & G1 & G2)] | (a & A & W)]; [auto | |apply F4W in W]; right; (split; [exact W|]).
        * exists g, a. split; [apply in_or_app; auto | auto].
        * exists r0, a. split; [apply in_or_app; right; left; reflexivity | auto].
      + intros [X | (W & g & a & G1 & G2)]; [auto|]. apply in_app_iff in G1 as [G1 | [<- | []]]; [left; right; eauto 6 | right; exists a; split; [exact G2 | apply F4W, W]].
    - split.
      + intros [[X | (W & g & a & G1 & G2)] | (a & A & W)]; [auto | |apply F6W in W]; right; (split; [exact W|]).
        * exists g, a. split; [apply in_or_app; auto | auto].
        * exists r0, a. split; [apply in_or_app; right; left; reflexivity | auto].
      + intros [X | (W & g & a & G1 & G2)]; [auto|]. apply in_app_iff in G1 as [G1 | [<- | []]]; [left; right; eauto 6 | right; exists a; split; [exact G2 | apply F6W, W]]. }
  assert (NEW : ST (match r with Some r => [r] | None => [] end) h).
  { unfold host_new in E. fold (allow ipv4 ipv6 has6) in E. destruct (allow ipv4 ipv6 has6) as [a4 a6] eqn:AL.
    assert (X : forall v4 v6 nx, (v4 = true <-> k = K4) -> (v6 = true <-> k = K6) ->
      match h_sockset (dolookup (mkHost false a4 a6 v4 v6 [] [] [] [] None nx interval 0) r ord) with
      | [] => Err EValue | _ => Ok (dolookup (mkHost false a4 a6 v4 v6 [] [] [] [] None nx interval 0) r ord) end = Ok h ->
      ST (match r with Some r => [r] | None => [] end) h).
    { intros v4 v6 nx V4 V6 Q.
      assert (B : ST [] (mkHost false a4 a6 v4 v6 [] [] [] [] None nx interval 0)).
      { unfold ST. rewrite ?AL. cbn [h_allow4 h_allow6 h_ipv4 h_ipv6 fst snd]. rewrite V4, V6. repeat split; try reflexivity; try tauto;
          intros [X | (_ & g & a & [] & _)]; exact X. }
      set (dd := dolookup _ r ord) in Q. destruct (h_sockset dd); [discriminate Q|]. injection Q as <-. unfold dd. destruct r as [r|]; cbn [dolookup]; [|exact B].
      apply (LK [] _ r ord B). }
    destruct k; [contradiction K; reflexivity | destruct (a4 =? 0); [discriminate E|] | destruct (a6 =? 0); [discriminate E|] |];
      (eapply X; [| |exact E]); split; congruence. }
  assert (RUN : forall l ans h, ST ans h -> ST (ans ++ flat_map answer l) (host_run h l)).
  { induction l as [|e l IH]; intros ans h0 S0; cbn [flat_map host_run fold_left]; [rewrite app_nil_r; exact S0|].
    rewrite app_assoc. apply IH.
    assert (CI : forall t, ST ans (check_interval h0 t)) by (intro t; unfold check_interval; destruct (due h0 t); exact S0).
    destruct e as [t| |t a|[r0|] o]; cbn [answer host_step fst dolookup]; rewrite ?app_nil_r.
    - apply CI.
    - unfold host_advance. destruct (h_iter h0); [destruct (h_ailist h0)|]; exact S0.
    - apply CI.
    - apply LK, S0.
    - exact S0. }
  pose proof (RUN evs _ _ NEW) as RR. rewrite <- (answers_split r evs) in RR. destruct RR as (_ & _ & R4 & R6).
  unfold use_dualstack, listen_family. rewrite andb_true_iff, R4, R6. split; [reflexivity|].
  unfold has6'. rewrite <- R6. destruct (h_ipv6 (host_run h evs)); split; congruence.
Qed.
Print Assumptions host_families.

(** A name with an IPv4, an IPv6 and a link local address, IPv6 preferred; one
    address is given up, and a new lookup an hour later has another one. *)
Definition ex4 : ai := (F4, ([52], 700, [])).
Definition ex6 : ai := (F6, ([50; 48], 700, [0; 0])).
Definition exl : ai := (F6, ([102; 101; 56; 48; 58; 58], 700, [0; 2])).
Example host_example : exists h,
  host_new KName 700 false 1 2 true 3600 0 (Some [exl; ex4; ex6; ex4]) [ex4; ex6] = Ok h /\
  order_of (usable 1 2 true) (Some [exl; ex4; ex6; ex4]) [ex4; ex6] /\
  Forall (order_ok (usable 1 2 true)) [HUse 10; HNext; HNext; HUse 3601; HUse 3602; HDone (Some [a1]) [a1]] /\
  host_outs h [HUse 10; HNext; HNext; HUse 3601; HUse 3602; HDone (Some [a1]) [a1]; HUse 3700; HValid 3701 (mapped ++ [52], 9, []);
               HValid 3702 ([51], 9, []); HDone None []; HUse 9000; HDone (Some [exl]) []; HUse 9001] =
    [OAddr (Some ex6); OAddr (Some ex4); OAddr (Some ex6); OAddr (Some ex6); OAddr (Some ex6); ONone; OAddr (Some a1); OValid true;
     OValid false; ONone; OAddr (Some a1); ONone; OAddr (Some a1)] /\
  asks (host_run h [HUse 10; HNext; HNext]) (HUse 3601) /\
  ~ asks (host_run h [HUse 10; HNext; HNext; HUse 3601]) (HUse 3602).
Proof.
  assert (U4 : usable 1 2 true ex4) by (left; split; [reflexivity | left; lia]).
  assert (UA : usable 1 2 true a1) by (left; split; [reflexivity | left; lia]).
  assert (U6 : usable 1 2 true ex6).
  { right. split; [reflexivity|]. split; [left; lia|]. intros (t & E). discriminate E. }
  assert (UL : ~ usable 1 2 true exl).
  { intros [[E _] | (_ & _ & N)]; [discriminate E|]. apply N. exists [58; 58]. reflexivity. }
  eexists. split; [reflexivity|]. split; [|split].
  - split.
    + constructor; [intros [E | []]; discriminate E|]. constructor; [intros [] | constructor].
    + intro x. cbn [In]. split.
      * intros [<- | [<- | []]]; auto.
      * intros [[<- | [<- | [<- | [<- | []]]]] U]; auto.
  - repeat (constructor; [exact I|]). constructor; [|constructor]. split.
    + constructor; [intros [] | constructor].
    + intro x. cbn [In]. split; [intros [<- | []]; auto | tauto].
  - split; [vm_compute; reflexivity|]. split; vm_compute; [reflexivity | discriminate].
Qed.
