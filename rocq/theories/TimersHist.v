(** Lemmas: what the specification machine knows about its event history. *)
From Verif Require Import Base TimersModel TimersSpec TimersProofs.

(** Number of clock ticks in a history. *)
Fixpoint ticks (es : list ev) : Z :=
  match es with
  | [] => 0
  | VTick :: t => 1 + ticks t
  | _ :: t => ticks t
  end.
(** Events that change timer [i]: started, stopped, or taken off the wheel. *)
Definition touches (i : Z) (e : ev) : bool :=
  match e with VStart j _ | VStop j | VExpire j => j =? i | _ => false end.
Definition quiet (i : Z) (es : list ev) : Prop := forall e, In e es -> touches i e = false.

Lemma ticks_app : forall a b, ticks (a ++ b) = ticks a + ticks b.
Proof. induction a as [|[] a IH]; intros; cbn [ticks app]; rewrite ?IH; lia. Qed.

Lemma ticks_nonneg : forall a, 0 <= ticks a.
Proof. induction a as [|[] a IH]; cbn [ticks]; lia. Qed.

Lemma quiet_nil : forall i, quiet i [].
Proof. intros i e []. Qed.
Lemma quiet_snoc : forall i a e, quiet i (a ++ [e]) <-> quiet i a /\ touches i e = false.
Proof.
  intros. unfold quiet. split.
  - intros H. split; intros; apply H; apply in_or_app; cbn; auto.
  - intros [H1 H2] x Hx. apply in_app_iff in Hx as [Hx|[<-|[]]]; auto.
Qed.
Lemma quiet_app : forall i a b, quiet i (a ++ b) <-> quiet i a /\ quiet i b.
Proof.
  intros. unfold quiet. split.
  - intros H. split; intros; apply H; apply in_or_app; auto.
  - intros [H1 H2] x Hx. apply in_app_iff in Hx as [Hx|Hx]; auto.
Qed.

Lemma srun_snoc : forall es e s s', srun s (es ++ [e]) = Some s' ->
  exists s1, srun s es = Some s1 /\ sstep s1 e = Some s'.
Proof.
  intros es e s s' H. rewrite srun_app in H. destruct (srun s es) as [s1|]; [|discriminate].
  cbn in H. destruct (sstep s1 e) eqn:E; [|discriminate]. injection H as <-. eauto.
Qed.

Lemma srun_prefix : forall a b s s', srun s (a ++ b) = Some s' ->
  exists s1, srun s a = Some s1 /\ srun s1 b = Some s'.
Proof.
  intros a b s s' H. rewrite srun_app in H. destruct (srun s a) as [s1|]; [|discriminate]. eauto.
Qed.

(** Inversion of one step. *)
Ltac sinv H :=
  cbn [sstep] in H;
  repeat match type of H with
  | (match ?x with _ => _ end) = Some _ => destruct x eqn:?; try discriminate
  end;
  injection H as <-; cbn [armed now busy held queue].

Lemma now_ticks : forall es s, srun sst0 es = Some s -> now s = ticks es.
Proof.
  induction es as [|e es IH] using rev_ind; intros s H.
  - cbn in H. injection H as <-. auto.
  - apply srun_snoc in H as (s1 & H1 & H2). apply IH in H1. rewrite ticks_app.
    destruct e; sinv H2; cbn [ticks]; lia.
Qed.

Lemma snoc_split : forall (A : Type) (es : list A) e pre x post,
  es ++ [e] = pre ++ x :: post ->
  (post = [] /\ x = e /\ es = pre) \/
  (exists post', post = post' ++ [e] /\ es = pre ++ x :: post').
Proof.
  intros A es e pre x post H. destruct post as [|y post] using rev_ind.
  - left. apply app_inj_tail in H as [-> ->]. auto.
  - right. exists post. rewrite app_comm_cons, app_assoc in H.
    apply app_inj_tail in H as [-> ->]. auto.
Qed.

(** [i] is armed for tick [d] iff its last start says so. *)
Definition armed_by (es : list ev) (i d : Z) : Prop :=
  exists pre t post, es = pre ++ VStart i t :: post /\ quiet i post /\ d = ticks pre + t.

Lemma armed_by_snoc : forall es e i d,
  armed_by (es ++ [e]) i d <->
  (touches i e = false /\ armed_by es i d) \/ (exists t, e = VStart i t /\ d = ticks es + t).
Proof.
  intros. split.
  - intros (pre & t & post & E & Q & D). apply snoc_split in E as [(-> & X & ->)|(post' & -> & ->)].
    + right. exists t. auto.
    + apply quiet_snoc in Q as [Q1 Q2]. left. split; auto. exists pre, t, post'. auto.
  - intros [[T (pre & t & post & -> & Q & D)]|(t & -> & D)].
    + exists pre, t, (post ++ [e]). rewrite <- app_assoc. cbn. split; auto. split; auto.
      apply quiet_snoc. auto.
    + exists es, t, []. split; auto. split; auto. apply quiet_nil.
Qed.

Lemma armed_history : forall es s, srun sst0 es = Some s ->
  forall i d, In (i, d) (armed s) <-> armed_by es i d.
Proof.
  induction es as [|e es IH] using rev_ind; intros s H i d.
  - cbn in H. injection H as <-. cbn. split; [tauto|].
    intros (pre & t & post & E & _). destruct pre; discriminate.
  - apply srun_snoc in H as (s1 & H1 & H2).
    pose proof (now_ticks _ _ H1) as N. rewrite armed_by_snoc, <- (IH _ H1 i d).
    destruct e; sinv H2; cbn [touches];
      try solve [split; [intros; left; auto|intros [[_ ?]|(? & ? & _)]; [auto|discriminate]]].
    + rewrite in_app_iff, In_disarm. cbn [fst In]. rewrite N.
      split.
      * intros [[X1 X2]|[X|[]]].
        -- left. split; auto. apply Z.eqb_neq. auto.
        -- injection X as <- <-. right. exists ticks0. auto.
      * intros [[X1 X2]|(t & X & ->)].
        -- left. split; auto. apply Z.eqb_neq in X1. auto.
        -- injection X as <- <-. auto.
    + rewrite In_disarm. cbn [fst]. split.
      * intros [X1 X2]. left. split; auto. apply Z.eqb_neq. auto.
      * intros [[X1 X2]|(t & X & _)]; [|discriminate]. apply Z.eqb_neq in X1. auto.
    + rewrite In_disarm. cbn [fst]. split.
      * intros [X1 X2]. left. split; auto. apply Z.eqb_neq. auto.
      * intros [[X1 X2]|(t & X & _)]; [|discriminate]. apply Z.eqb_neq in X1. auto.
Qed.

(** Expiries not yet dispatched, oldest first. *)
Definition pending (s : sst) : list (Z * bool) :=
  queue s ++ match held s with Some p => [p] | None => [] end.

(** [i] expired, was not touched since, and that expiry was not delivered yet. *)
Definition undelivered (es : list ev) (i : Z) : Prop :=
  exists pre post, es = pre ++ VExpire i :: post /\ quiet i post /\ ~ In (VDeliver i) post.

Lemma undelivered_snoc : forall es e i,
  undelivered (es ++ [e]) i <->
  (touches i e = false /\ e <> VDeliver i /\ undelivered es i) \/ e = VExpire i.
Proof.
  intros. split.
  - intros (pre & post & E & Q & D). apply snoc_split in E as [(-> & X & ->)|(post' & -> & ->)].
    + right. congruence.
    + apply quiet_snoc in Q as [Q1 Q2]. left. rewrite in_app_iff in D. cbn in D.
      split; [auto|]. split; [intro; apply D; auto|]. exists pre, post'. tauto.
  - intros [(T & N & pre & post & -> & Q & D)| ->].
    + exists pre, (post ++ [e]). rewrite <- app_assoc. cbn. split; auto. split.
      * apply quiet_snoc. auto.
      * rewrite in_app_iff. cbn. intuition congruence.
    + exists es, []. split; auto. split; [apply quiet_nil|auto].
Qed.

Definition fresh_once (s : sst) : Prop :=
  forall i : Z, (length (filter (fun p => (fst p =? i)%Z && snd p) (pending s)) <= 1)%nat.

Lemma stale_In : forall i j l, In (j, true) (map (stale i) l) <-> In (j, true) l /\ j <> i.
Proof.
  intros. rewrite in_map_iff. split.
  - intros ([k b] & E & H). unfold stale in E. cbn in E.
    destruct (Z.eqb_spec k i); [discriminate|]. injection E as <- <-. auto.
  - intros [H N]. exists (j, true). split; auto. unfold stale. cbn.
    destruct (Z.eqb_spec j i); congruence.
Qed.

Lemma pending_stale : forall i q h,
  map (stale i) q ++ match option_map (stale i) h with Some p => [p] | None => [] end =
  map (stale i) (q ++ match h with Some p => [p] | None => [] end).
Proof. intros. rewrite map_app. destruct h; auto. Qed.

Lemma filter_stale : forall i j l,
  filter (fun p => (fst p =? j) && snd p) (map (stale i) l) =
  if j =? i then [] else filter (fun p => (fst p =? j) && snd p) l.
Proof.
  intros. induction l as [|[k b] l IH]; cbn [map filter].
  - destruct (j =? i); auto.
  - replace (stale i (k, b)) with (if k =? i then (k, false) else (k, b)) by reflexivity.
    destruct (Z.eqb_spec k i) as [->|].
    + cbn [fst snd]. rewrite andb_false_r, IH. destruct (Z.eqb_spec j i) as [->|]; auto.
      destruct (Z.eqb_spec i j); [congruence|]. cbn. auto.
    + cbn [fst snd]. rewrite IH. destruct (Z.eqb_spec j i) as [->|].
      * destruct (Z.eqb_spec k i); [congruence|]. cbn. auto.
      * auto.
Qed.

Lemma fresh_history : forall es s, srun sst0 es = Some s ->
  (forall i, In (i, true) (pending s) <-> undelivered es i) /\ fresh_once s.
Proof.
  induction es as [|e es IH] using rev_ind; intros s H.
  - cbn in H. injection H as <-. cbn. split.
    + intros i. split; [tauto|]. intros (pre & post & E & _). destruct pre; discriminate.
    + intros i. cbn. lia.
  - apply srun_snoc in H as (s1 & H1 & H2). destruct (IH _ H1) as [IH1 IH2]. clear IH.
    assert (SAME : forall s' (Ee : pending s' = pending s1)
              (Te : forall i, touches i e = false /\ e <> VDeliver i),
              (forall i, In (i, true) (pending s') <-> undelivered (es ++ [e]) i) /\ fresh_once s').
    { intros s' Ee Te. split.
      - intros i. rewrite Ee, IH1, undelivered_snoc. destruct (Te i) as [T1 T2].
        split; [auto|]. intros [(_ & _ & X)|X]; auto. subst e. cbn in T1.
        rewrite Z.eqb_refl in T1. discriminate.
      - unfold fresh_once in *. rewrite Ee. auto. }
    assert (STALE : forall k s' (Ee : pending s' = map (stale k) (pending s1))
              (Te : forall i, touches i e = (k =? i)) (Tx : forall i, e <> VDeliver i)
              (Ty : forall i, e <> VExpire i),
              (forall i, In (i, true) (pending s') <-> undelivered (es ++ [e]) i) /\ fresh_once s').
    { intros k s' Ee Te Tx Ty. split.
      - intros i. rewrite Ee, stale_In, IH1, undelivered_snoc, Te.
        split.
        + intros [X Y]. left. split; [apply Z.eqb_neq; auto|auto].
        + intros [(X & _ & Y)|X]; [|exfalso; eapply Ty; eauto].
          apply Z.eqb_neq in X. auto.
      - intros i. unfold fresh_once in *. rewrite Ee, filter_stale.
        destruct (i =? k); [cbn; lia|auto]. }
    destruct e as [i t|i|i| | |i|i|i|i]; sinv H2.
    + apply (STALE i); auto; try discriminate. unfold pending. cbn [queue held].
      apply pending_stale.
    + apply SAME; auto. split; [auto|discriminate].
    + apply (STALE i); auto; try discriminate. unfold pending. cbn [queue held].
      apply pending_stale.
    + apply SAME; auto. split; [auto|discriminate].
    + apply SAME; auto. split; [auto|discriminate].
    + (* expire *)
      assert (EP : pending s1 = queue s1).
      { unfold pending. rewrite Heqo. apply app_nil_r. }
      split.
      * intros j. unfold pending at 1. cbn [queue held]. rewrite in_app_iff, stale_In.
        rewrite undelivered_snoc, <- IH1, EP. cbn [touches In].
        split.
        -- intros [[X Y]|[X|[]]].
           ++ left. split; [apply Z.eqb_neq; auto|]. split; [discriminate|auto].
           ++ right. congruence.
        -- intros [(X & _ & Y)|X].
           ++ apply Z.eqb_neq in X. auto.
           ++ right. left. congruence.
      * intros j. unfold pending. cbn [queue held]. rewrite filter_app, app_length, filter_stale.
        specialize (IH2 j). rewrite EP in IH2. cbn [filter fst snd].
        destruct (Z.eqb_spec j i) as [->|].
        -- rewrite Z.eqb_refl. cbn. lia.
        -- destruct (Z.eqb_spec i j); [congruence|]. cbn [andb length]. lia.
    + (* post *)
      match goal with E : (i =? _) = true |- _ => apply Z.eqb_eq in E; subst end.
      apply SAME; [|split; [auto|discriminate]].
      unfold pending. cbn [queue held]. rewrite Heqo. rewrite app_nil_r. auto.
    + (* deliver *)
      match goal with E : (i =? _) = true |- _ => apply Z.eqb_eq in E; subst end.
      match goal with E : queue s1 = (?k, true) :: ?q |- _ => rename k into j; rename q into q' end.
      assert (EP : pending s1 = (j, true) :: q' ++ match held s1 with Some p => [p] | None => [] end).
      { unfold pending. rewrite Heql. reflexivity. }
      split.
      * intros k. unfold pending at 1. cbn [queue held]. rewrite undelivered_snoc, <- IH1, EP.
        cbn [touches In]. split.
        -- intros X. left. split; auto. split; [|auto].
           intro Z. injection Z as <-.
           pose proof (IH2 j) as C. rewrite EP in C. cbn [filter fst snd] in C.
           rewrite Z.eqb_refl in C. cbn [andb length] in C.
           assert (In (j, true) (filter (fun p => (fst p =? j) && snd p)
                    (q' ++ match held s1 with Some p => [p] | None => [] end))).
           { apply filter_In. split; auto. cbn. rewrite Z.eqb_refl. auto. }
           destruct (filter (fun p => (fst p =? j) && snd p)
                    (q' ++ match held s1 with Some p => [p] | None => [] end)); [contradiction|].
           cbn in C. lia.
        -- intros [(_ & X & [Y|Y])|X]; [congruence|auto|discriminate].
      * intros k. specialize (IH2 k). rewrite EP in IH2. unfold pending. cbn [queue held].
        cbn [filter] in IH2. destruct ((fst (j, true) =? k) && snd (j, true)); cbn [length] in IH2; lia.
    + (* drop *)
      match goal with E : (i =? _) = true |- _ => apply Z.eqb_eq in E; subst end.
      match goal with E : queue s1 = (?k, false) :: ?q |- _ => rename k into j; rename q into q' end.
      assert (EP : pending s1 = (j, false) :: q' ++ match held s1 with Some p => [p] | None => [] end).
      { unfold pending. rewrite Heql. reflexivity. }
      split.
      * intros k. unfold pending at 1. cbn [queue held]. rewrite undelivered_snoc, <- IH1, EP.
        cbn [touches In]. split.
        -- intros X. left. split; auto. split; [discriminate|auto].
        -- intros [(_ & _ & [Y|Y])|X]; [congruence|auto|discriminate].
      * intros k. specialize (IH2 k). rewrite EP in IH2. unfold pending. cbn [queue held].
        cbn [filter fst snd] in IH2. rewrite andb_false_r in IH2. auto.
Qed.

Lemma run_srun : forall size ops w es, 1 <= size -> Forall op_ok ops ->
  run (wheel0 size) ops = Some (w, es) ->
  exists s, srun sst0 es = Some s /\ sim w s.
Proof. intros. eapply run_sim; eauto. apply sim0. auto. Qed.

Lemma expire_history : forall es i s, srun sst0 (es ++ [VExpire i]) = Some s ->
  armed_by es i (ticks es).
Proof.
  intros es i s H. apply srun_snoc in H as (s1 & H1 & H2).
  apply (armed_history _ _ H1). pose proof (now_ticks _ _ H1) as N.
  cbn [sstep] in H2.
  destruct (filter (fun p => snd p =? now s1) (armed s1)) as [|[j d] fl] eqn:EF; [discriminate|].
  destruct (held s1); [discriminate|].
  destruct (busy s1 && (i =? j)) eqn:EB; [|discriminate].
  apply andb_prop in EB as [_ EB]. apply Z.eqb_eq in EB. subst j.
  assert (X : In (i, d) (filter (fun p => snd p =? now s1) (armed s1))) by (rewrite EF; cbn; auto).
  apply filter_In in X as [X1 X2]. cbn in X2. apply Z.eqb_eq in X2. subst d.
  rewrite <- N. auto.
Qed.

Lemma prefix_snoc : forall s a e b s', srun s (a ++ e :: b) = Some s' ->
  exists s1, srun s (a ++ [e]) = Some s1.
Proof.
  intros s a e b s' H. replace (a ++ e :: b) with ((a ++ [e]) ++ b) in H
    by (rewrite <- app_assoc; auto).
  apply srun_prefix in H as (s1 & H & _). eauto.
Qed.

(** A timer whose tick has passed is not armed. *)
Lemma overdue_history : forall es s i d, srun sst0 es = Some s -> armed_by es i d ->
  ticks es <= d.
Proof.
  induction es as [|e es IH] using rev_ind; intros s i d H A.
  - destruct A as (pre & t & post & E & _). destruct pre; discriminate.
  - apply srun_snoc in H as (s1 & H1 & H2). rewrite ticks_app.
    apply armed_by_snoc in A as [[T A]|(t & -> & ->)].
    + pose proof (IH _ _ _ H1 A). destruct e; cbn [ticks]; try lia.
      cbn [sstep] in H2. destruct (negb (busy s1) && forallb (fun p => now s1 <? snd p) (armed s1)) eqn:E; [|discriminate].
      apply andb_prop in E as [_ E]. rewrite forallb_forall in E.
      apply (armed_history _ _ H1) in A. specialize (E _ A). cbn in E. apply Z.ltb_lt in E.
      pose proof (now_ticks _ _ H1). lia.
    + cbn [sstep] in H2. destruct (Z.ltb_spec 0 t); [|discriminate]. cbn [ticks]. lia.
Qed.

Lemma drained_history : forall es s i d, srun sst0 (es ++ [VDrained]) = Some s ->
  armed_by es i d -> ticks es < d.
Proof.
  intros es s i d H A. apply srun_snoc in H as (s1 & H1 & H2). cbn [sstep] in H2.
  destruct (busy s1 && forallb (fun p => now s1 <? snd p) (armed s1)) eqn:E; [|discriminate].
  apply andb_prop in E as [_ E]. rewrite forallb_forall in E.
  apply (armed_history _ _ H1) in A. specialize (E _ A). cbn in E. apply Z.ltb_lt in E.
  pose proof (now_ticks _ _ H1). lia.
Qed.

(** Order of the armed list. *)
Definition before (i j : Z) (A : list (Z * Z)) : Prop :=
  exists a x b y c, A = a ++ (i, x) :: b ++ (j, y) :: c.

Lemma before_disarm : forall i j k A, k <> i -> k <> j -> before i j A -> before i j (disarm k A).
Proof.
  intros i j k A H1 H2 (a & x & b & y & c & ->). unfold disarm.
  exists (disarm k a), x, (disarm k b), y, (disarm k c).
  rewrite filter_app. cbn [filter fst]. destruct (Z.eqb_spec i k); [congruence|]. cbn [negb].
  rewrite filter_app. cbn [filter fst]. destruct (Z.eqb_spec j k); [congruence|]. cbn [negb]. auto.
Qed.

Lemma before_app : forall i j A B, before i j A -> before i j (A ++ B).
Proof.
  intros i j A B (a & x & b & y & c & ->). exists a, x, b, y, (c ++ B).
  rewrite <- app_assoc. cbn. rewrite <- app_assoc. auto.
Qed.

Lemma before_quiet : forall es i j s s', srun s es = Some s' ->
  quiet i es -> quiet j es -> before i j (armed s) -> before i j (armed s').
Proof.
  induction es as [|e es IH]; intros i j s s' H Qi Qj B.
  - cbn in H. injection H as <-. auto.
  - cbn [srun] in H. destruct (sstep s e) as [s1|] eqn:E; [|discriminate].
    assert (Qi' : quiet i es) by (intros z Hz; apply Qi; cbn; auto).
    assert (Qj' : quiet j es) by (intros z Hz; apply Qj; cbn; auto).
    assert (Ti : touches i e = false) by (apply Qi; cbn; auto).
    assert (Tj : touches j e = false) by (apply Qj; cbn; auto).
    apply (IH i j s1 s'); auto.
    destruct e; sinv E; auto; cbn in Ti, Tj;
      try (apply before_app); apply before_disarm; auto;
      apply Z.eqb_neq; auto.
Qed.

Lemma armed_unique_run : forall es s, srun sst0 es = Some s -> NoDup (map fst (armed s)).
Proof.
  induction es as [|e es IH] using rev_ind; intros s H.
  - cbn in H. injection H as <-. constructor.
  - apply srun_snoc in H as (s1 & H1 & H2). apply IH in H1.
    destruct e; sinv H2; auto using NoDup_disarm.
    rewrite map_app. cbn [map fst].
    rewrite <- (rev_involutive (map fst (disarm i (armed s1)) ++ [i])).
    apply NoDup_rev. rewrite rev_app_distr. cbn. constructor.
    * rewrite <- in_rev. intro X. apply in_map_iff in X as (p & E & X).
      apply In_disarm in X as [_ X]. congruence.
    * apply NoDup_rev. apply NoDup_disarm. auto.
Qed.

Lemma NoDup_fst_inj : forall (A : list (Z * Z)) i x y,
  NoDup (map fst A) -> In (i, x) A -> In (i, y) A -> x = y.
Proof.
  induction A as [|[j d] A IH]; cbn; intros i x y N H1 H2; [tauto|].
  inversion N; subst.
  destruct H1 as [H1|H1], H2 as [H2|H2].
  - congruence.
  - exfalso. injection H1 as -> ->. apply H3. apply in_map_iff. exists (i, y). auto.
  - exfalso. injection H2 as -> ->. apply H3. apply in_map_iff. exists (i, x). auto.
  - eauto.
Qed.

Lemma fifo_history : forall pre i t mid j u rest s,
  i <> j -> quiet i mid -> quiet i rest -> quiet j rest -> t = ticks mid + u ->
  srun sst0 (pre ++ VStart i t :: mid ++ VStart j u :: rest ++ [VExpire j]) = Some s -> False.
Proof.
  intros pre i t mid j u rest s Hij Qm Qi Qj Ht H.
  set (e1 := pre ++ VStart i t :: mid ++ [VStart j u]).
  replace (pre ++ VStart i t :: mid ++ VStart j u :: rest ++ [VExpire j])
    with ((e1 ++ rest) ++ [VExpire j]) in H
    by (unfold e1; rewrite <- !app_assoc; cbn; rewrite <- !app_assoc; auto).
  apply srun_snoc in H as (s2 & H2 & HX).
  apply srun_prefix in H2 as H1. destruct H1 as (s1 & H1 & HR).
  assert (B1 : before i j (armed s1)).
  { unfold e1 in H1. replace (pre ++ VStart i t :: mid ++ [VStart j u])
      with ((pre ++ VStart i t :: mid) ++ [VStart j u]) in H1
      by (rewrite <- app_assoc; auto).
    apply srun_snoc in H1 as (s0 & H0 & HS).
    assert (A0 : In (i, ticks pre + t) (armed s0)).
    { apply (armed_history _ _ H0). exists pre, t, mid. auto. }
    sinv HS.
    assert (A1 : In (i, ticks pre + t) (disarm j (armed s0))) by (apply In_disarm; auto).
    apply in_split in A1 as (a & b & ->). rewrite <- app_assoc. cbn.
    exists a, (ticks pre + t), b, (now s0 + u), []. auto. }
  assert (B2 : before i j (armed s2)) by (eapply before_quiet; eauto).
  assert (Ai : In (i, ticks pre + t) (armed s2)).
  { apply (armed_history _ _ H2). exists pre, t, (mid ++ VStart j u :: rest).
    split; [unfold e1; rewrite <- !app_assoc; cbn; rewrite <- !app_assoc; auto|].
    split; auto. apply quiet_app. split; auto. intros z [<-|Hz]; auto. cbn.
    apply Z.eqb_neq. auto. }
  assert (Aj : In (j, ticks pre + t) (armed s2)).
  { apply (armed_history _ _ H2). exists (pre ++ VStart i t :: mid), u, rest.
    split; [unfold e1; rewrite <- !app_assoc; cbn; rewrite <- !app_assoc; auto|].
    split; auto. rewrite ticks_app. cbn [ticks]. lia. }
  pose proof (armed_unique_run _ _ H2) as ND.
  destruct B2 as (a & x & b & y & c & EA).
  assert (x = ticks pre + t).
  { apply (NoDup_fst_inj (armed s2) i); auto. rewrite EA. apply in_or_app. cbn; auto. }
  assert (y = ticks pre + t).
  { apply (NoDup_fst_inj (armed s2) j); auto. rewrite EA. apply in_or_app. cbn [In]. right. right.
    apply in_or_app. cbn. auto. }
  subst x y. set (d := ticks pre + t) in *.
  assert (Nd : d = now s2).
  { assert (armed_by (e1 ++ rest) j (ticks (e1 ++ rest))).
    { eapply expire_history. rewrite srun_app, H2. cbn [srun]. rewrite HX. reflexivity. }
    apply (armed_history _ _ H2) in H. rewrite (now_ticks _ _ H2).
    eapply NoDup_fst_inj; eauto. }
  cbn [sstep] in HX. rewrite EA, <- Nd in HX.
  rewrite filter_app in HX. cbn [filter snd] in HX. rewrite Z.eqb_refl in HX.
  assert (NIa : forall p, In p a -> fst p <> j).
  { intros p Hp E. rewrite EA in ND. rewrite map_app in ND. cbn [map fst] in ND.
    rewrite map_app in ND. cbn [map fst] in ND.
    apply NoDup_remove in ND as [ND _].
    rewrite app_assoc in ND. apply NoDup_remove_2 in ND.
    apply ND. rewrite <- app_assoc. apply in_or_app. left. apply in_map_iff. exists p. auto. }
  destruct (filter (fun p => snd p =? d) a) as [|[k kd] fl] eqn:EF; cbn [app] in HX;
  destruct (held s2); try discriminate.
  - destruct (busy s2 && (j =? i)) eqn:EB; [|discriminate].
    apply andb_prop in EB as [_ EB]. apply Z.eqb_eq in EB. auto.
  - destruct (busy s2 && (j =? k)) eqn:EB; [|discriminate].
    apply andb_prop in EB as [_ EB]. apply Z.eqb_eq in EB. subst k.
    apply (NIa (j, kd)); auto.
    assert (In (j, kd) (filter (fun p => snd p =? d) a)) by (rewrite EF; cbn; auto).
    apply filter_In in H. tauto.
Qed.

(** An element of a chain without repetitions is linked. *)
Lemma chain_linked : forall h l a b x, chain h a l b -> NoDup l -> ~ In b l -> In x l -> nx h x <> x.
Proof.
  induction l as [|c l IH]; intros a b x C N NB Hx; [contradiction|].
  cbn [chain] in C. destruct C as (C1 & C2 & C3). apply NoDup_cons_iff in N as [N1 N2].
  destruct Hx as [Hx|Hx].
  - rewrite <- Hx, (chain_hd _ _ _ _ C3). destruct l as [|d l]; cbn.
    + intro E. apply NB. cbn. auto.
    + intro E. apply N1. cbn. auto.
  - eapply IH; eauto. intro. apply NB. cbn. auto.
Qed.

Lemma islinked_armed : forall w s i, sim w s ->
  islinked (w_heap w) (It i) = true <-> exists d, In (i, d) (armed s).
Proof.
  intros w s i S. destruct S as [Ssz Srep Spos Snd Srng Sdue Sthr Sq].
  unfold islinked. split.
  - intros H. destruct (in_dec Z.eq_dec i (map fst (armed s))) as [Hi|Hi].
    + apply in_map_iff in Hi as ([j d] & E & Hi). cbn in E. subst j. eauto.
    + exfalso. destruct (rep_free Srep i) as [E _].
      { intros s0 X. apply In_slots in X as (d & X & _). apply Hi. apply in_map_iff.
        exists (i, d). auto. }
      rewrite E in H. destruct (obj_eqb_spec (It i) (It i)); [discriminate|congruence].
  - intros (d & Hd). set (sl := d mod w_size w).
    assert (X : In i (slots_of (w_size w) (armed s) sl)) by (apply In_slots; eauto).
    destruct (obj_eqb_spec (nx (w_heap w) (It i)) (It i)) as [E|]; auto. exfalso. revert E.
    pose proof (NoDup_ring sl _ (rep_nodup Srep sl)) as NR. inversion NR; subst.
    eapply chain_linked; [apply (rep_chain Srep sl)| | |]; auto.
    apply In_It. auto.
Qed.
