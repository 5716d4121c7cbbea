(** C78: a scan of the mapper polls every known or reported node exactly once and
    comes to an end; what it takes for up is what was seen last. *)
From Verif Require Import Base MapScanModel.

(** * Specification *)
(** An order of a set: the same elements. *)
Definition order (o : list Z -> list Z) : Prop := forall l x, In x (o l) <-> In x l.
(** The mapper between scans. *)
Definition idle (s : mapper) : Prop := m_busy s = false /\ m_done s = [] /\ m_polls s = [] /\ m_full s = false.
(** Reports enter in the database only what they also report. *)
Definition good (e : mev) : Prop := match e with MDone o _ l known => order o /\ incl known l | _ => True end.
(** The beginning of a scan, full or incremental. *)
Inductive start (full : bool) (s : mapper) : mapper -> Prop :=
| st_full o me skip : full = true -> order o -> start full s (startfull o me skip s)
| st_inc o : full = false -> order o -> start full s (startinc o s).
(** A run during a scan: what happens until it is over. *)
Fixpoint during (s : mapper) (l : list mev) : Prop :=
  match l with [] => True | e :: t => m_busy s = true /\ good e /\ during (mstep s e) t end.

(** * Lemmas *)
Lemma inb_in x l : inb x l = true <-> In x l.
Proof. unfold inb. rewrite existsb_exists. split; [intros (y & Y & E); apply Z.eqb_eq in E; subst; exact Y | intros H; exists x; split; [exact H | apply Z.eqb_refl]]. Qed.
Lemma addset_in x y l : In y (addset x l) <-> y = x \/ In y l.
Proof.
  unfold addset. destruct (inb x l) eqn:E.
  - apply inb_in in E. split; [auto | intros [-> | H]; assumption].
  - rewrite in_app_iff. cbn. split; [intros [H | [H | []]]; auto | intros [H | H]; auto].
Qed.
Lemma addset_new x l : ~ In x l -> addset x l = l ++ [x].
Proof. intros H. unfold addset. destruct (inb x l) eqn:E; [apply inb_in in E; contradiction | reflexivity]. Qed.
Lemma union_in a b : forall y, In y (union a b) <-> In y a \/ In y b.
Proof.
  unfold union. revert a. induction b as [| x t IH]; intros a y; cbn [fold_left]; [cbn; tauto |].
  rewrite IH, addset_in. cbn. intuition.
Qed.
Lemma nodup_snoc (x : Z) l : NoDup l -> ~ In x l -> NoDup (l ++ [x]).
Proof.
  intros N H. induction N as [| y t Y N IH]; cbn [app]; [constructor; [exact (fun F => F) | constructor] |].
  constructor.
  - rewrite in_app_iff. cbn. intros [F | [F | []]]; [exact (Y F) | apply H; left; auto].
  - apply IH. intros F. apply H. right. exact F.
Qed.
Lemma zlen_app {A} (a b : list A) : zlen (a ++ b) = zlen a + zlen b.
Proof. unfold zlen. rewrite app_length. lia. Qed.

(** What holds of the sets whenever the loop runs. *)
Record ok (done polls nodes polled : list Z) : Prop := mkOk {
  ok_done : forall x, In x done <-> In x polled;
  ok_once : NoDup polled;
  ok_polls : NoDup polls;
  ok_incl : incl polls polled;
  ok_lim : zlen polls <= 20;
  ok_nodes : incl polled nodes }.
Lemma fill_ok todo : forall done polls nodes polled, ok done polls nodes polled ->
  let '(todo', done', polls', nodes', polled') := fill todo done polls nodes polled in
  ok done' polls' nodes' polled' /\
  (forall x, In x todo -> In x todo' \/ In x polled') /\ incl todo' todo /\
  incl polled polled' /\ (forall x, In x polled' -> In x polled \/ In x todo) /\
  incl nodes nodes' /\ (forall x, In x nodes' -> In x nodes \/ In x polled') /\
  (polls' = [] -> todo' = []) /\
  zlen polled' + zlen polls = zlen polled + zlen polls'.
Proof.
  induction todo as [| x t IH]; intros done polls nodes polled K; cbn [fill].
  - split; [exact K |]. repeat split; auto; try (intros y Y; exact Y).
  - destruct (Z.ltb_spec (zlen polls) MAXPARPOLL) as [L | L].
    + destruct (inb x done) eqn:E.
      * apply inb_in in E. specialize (IH done polls nodes polled K).
        destruct (fill t done polls nodes polled) as [[[[todo' done'] polls'] nodes'] polled'].
        destruct IH as (A & B & C & D & F & G & H & I & J). split; [exact A |].
        split; [intros y [<- | Y]; [right; apply D, (ok_done _ _ _ _ K), E | exact (B y Y)] |].
        split; [intros y Y; right; exact (C y Y) |]. split; [exact D |].
        split; [intros y Y; destruct (F y Y); [left | right; right]; assumption |]. auto.
      * assert (X : ~ In x polled). { intros X. apply (ok_done _ _ _ _ K) in X. apply inb_in in X. congruence. }
        assert (XP : ~ In x polls) by (intros F; exact (X (ok_incl _ _ _ _ K x F))).
        rewrite (addset_new x polls XP).
        assert (K' : ok (addset x done) (polls ++ [x]) (addset x nodes) (polled ++ [x])).
        { destruct K as [K1 K2 K3 K4 K5 K6]. split.
          - intros y. rewrite addset_in, in_app_iff, K1. cbn. intuition.
          - apply nodup_snoc; assumption.
          - apply nodup_snoc; assumption.
          - intros y Y. rewrite in_app_iff in Y |- *. destruct Y as [Y | Y]; [left; exact (K4 y Y) | right; exact Y].
          - rewrite zlen_app. change (zlen [x]) with 1. unfold MAXPARPOLL in L. lia.
          - intros y Y. rewrite addset_in. rewrite in_app_iff in Y. destruct Y as [Y | [Y | []]]; [right; exact (K6 y Y) | left; auto]. }
        specialize (IH _ _ _ _ K').
        destruct (fill t (addset x done) (polls ++ [x]) (addset x nodes) (polled ++ [x])) as [[[[todo' done'] polls'] nodes'] polled'].
        destruct IH as (A & B & C & D & F & G & H & I & J). split; [exact A |].
        assert (XI : In x polled') by (apply D, in_app_iff; right; left; reflexivity).
        split; [intros y [<- | Y]; [right; exact XI | exact (B y Y)] |].
        split; [intros y Y; right; exact (C y Y) |].
        split; [intros y Y; apply D, in_app_iff; left; exact Y |].
        split; [intros y Y; destruct (F y Y) as [Q | Q]; [apply in_app_iff in Q as [Q | [Q | []]]; [left; exact Q | right; left; exact Q] | right; right; exact Q] |].
        split; [intros y Y; apply G, addset_in; right; exact Y |].
        split; [intros y Y; destruct (H y Y) as [Q | Q]; [apply addset_in in Q as [-> | Q]; [right; exact XI | left; exact Q] | right; exact Q] |].
        split; [exact I |]. rewrite !zlen_app in J. lia.
    + split; [exact K |]. repeat split; auto; try (intros y Y; exact Y).
      intros ->. change (zlen (@nil Z)) with 0 in L. unfold MAXPARPOLL in L. lia.
Qed.

(** What holds of the mapper during and after a scan. *)
Definition inv (full : bool) (s : mapper) : Prop :=
  if m_busy s then
    ok (m_done s) (m_polls s) (m_nodes s) (m_polled s) /\ m_polls s <> [] /\ m_full s = full /\
    (full = true -> m_first s = true \/ forall x, In x (m_nodes s) -> In x (m_polled s) \/ In x (m_todo s))
  else
    NoDup (m_polled s) /\ m_polls s = [] /\ m_done s = [] /\ m_full s = false /\ incl (m_polled s) (m_nodes s) /\ (full = true -> incl (m_nodes s) (m_polled s)).
(** Still to be polled, or polled. *)
Definition owed (s : mapper) (x : Z) : Prop := In x (m_polled s) \/ (m_busy s = true /\ In x (m_todo s)).

Lemma next_ok o s full : order o -> ok (m_done s) (m_polls s) (m_nodes s) (m_polled s) -> m_full s = full ->
  (full = true -> m_first s = true \/ forall x, In x (m_nodes s) -> In x (m_polled s) \/ In x (m_todo s)) ->
  let s' := nextnode o s in
  inv full s' /\
  (forall x, In x (m_polled s) \/ In x (m_todo s) -> owed s' x) /\
  (forall x, In x (m_polled s') -> In x (m_polled s) \/ In x (m_todo s) \/ In x (m_nodes s)) /\
  (forall x, In x (m_nodes s') -> In x (m_nodes s) \/ In x (m_polled s')) /\
  (forall x, In x (m_todo s') -> In x (m_todo s) \/ In x (m_nodes s) \/ In x (m_polled s')) /\
  (m_busy s' = true -> zlen (m_polled s') + zlen (m_polls s) = zlen (m_polled s) + zlen (m_polls s')).
Proof.
  intros O K FU D. cbv zeta. unfold nextnode, fill_.
  pose proof (fill_ok (m_todo s) _ _ _ _ K) as F.
  destruct (fill (m_todo s) (m_done s) (m_polls s) (m_nodes s) (m_polled s)) as [[[[todo' done'] polls'] nodes'] polled'].
  cbn [m_polls m_first m_nodes m_done m_full m_busy m_polled m_todo].
  destruct F as (A & B & C & E & G & H & I & J & L).
  destruct polls' as [| p ps].
  - specialize (J eq_refl). subst todo'.
    destruct (m_first s) eqn:FI.
    + pose proof (fill_ok (o nodes') _ _ _ _ A) as F2.
      destruct (fill (o nodes') done' [] nodes' polled') as [[[[todo2 done2] polls2] nodes2] polled2].
      cbn [m_polls m_first m_nodes m_done m_full m_busy m_polled m_todo].
      destruct F2 as (A2 & B2 & C2 & E2 & G2 & H2 & I2 & J2 & L2).
      assert (PO : forall x, In x polled2 -> In x (m_polled s) \/ In x (m_todo s) \/ In x (m_nodes s)).
      { intros x X. destruct (G2 x X) as [Q | Q]; [destruct (G x Q); auto |]. apply (proj1 (O _ _)) in Q. destruct (I x Q) as [Q' | Q']; [auto |]. destruct (G x Q'); auto. }
      assert (NO : forall x, In x nodes2 -> In x (m_nodes s) \/ In x polled2).
      { intros x X. destruct (I2 x X) as [Q | Q]; [| auto]. destruct (I x Q) as [Q' | Q']; auto. }
      assert (OW : forall x, In x (m_polled s) \/ In x (m_todo s) -> In x polled2).
      { intros x [X | X]; [apply E2, E, X |]. destruct (B x X) as [[] | Q]. apply E2, Q. }
      assert (NP : forall x, In x nodes2 -> In x polled2 \/ In x todo2).
      { intros x X. destruct (I2 x X) as [Q | Q]; [| auto]. apply (proj2 (O _ _)) in Q. destruct (B2 x Q); auto. }
      destruct polls2 as [| q qs].
      * specialize (J2 eq_refl). subst todo2. unfold finish, inv, owed. cbn [m_polls m_first m_nodes m_done m_full m_busy m_polled m_todo].
        split; [| split; [| split; [| split; [| split]]]].
        -- split; [exact (ok_once _ _ _ _ A2) |]. do 3 (split; [reflexivity |]). split; [exact (ok_nodes _ _ _ _ A2) |].
           intros _ x X. destruct (NP x X) as [Q | []]. exact Q.
        -- intros x X. left. exact (OW x X).
        -- exact PO.
        -- exact NO.
        -- intros x [].
        -- discriminate.
      * unfold inv, owed. cbn [m_polls m_first m_nodes m_done m_full m_busy m_polled m_todo].
        split; [| split; [| split; [| split; [| split]]]].
        -- split; [exact A2 |]. split; [discriminate |]. split; [exact FU |]. intros _. right. exact NP.
        -- intros x X. left. exact (OW x X).
        -- exact PO.
        -- exact NO.
        -- intros x X. apply C2 in X. apply (proj1 (O _ _)) in X. destruct (I x X) as [Q | Q]; auto.
        -- intros _. change (zlen (@nil Z)) with 0 in L, L2. lia.
    + unfold finish, inv, owed. cbn [m_polls m_first m_nodes m_done m_full m_busy m_polled m_todo].
      split; [| split; [| split; [| split; [| split]]]].
      * split; [exact (ok_once _ _ _ _ A) |]. do 3 (split; [reflexivity |]). split; [exact (ok_nodes _ _ _ _ A) |].
        intros T x X. destruct (I x X) as [Q | Q]; [| exact Q]. destruct (D T) as [D' | D']; [discriminate D' |].
        destruct (D' x Q) as [Q' | Q']; [apply E, Q' |]. destruct (B x Q') as [[] | Q2]. exact Q2.
      * intros x [X | X]; left; [apply E, X |]. destruct (B x X) as [[] | Q]. exact Q.
      * intros x X. destruct (G x X); auto.
      * exact I.
      * intros x [].
      * discriminate.
  - unfold inv, owed. cbn [m_polls m_first m_nodes m_done m_full m_busy m_polled m_todo].
    split; [| split; [| split; [| split; [| split]]]].
    + split; [exact A |]. split; [discriminate |]. split; [exact FU |]. intros T. destruct (D T) as [D' | D']; [left; exact D' | right].
      intros x X. destruct (I x X) as [Q | Q]; [| auto]. destruct (D' x Q) as [Q' | Q']; [left; apply E, Q' |]. destruct (B x Q'); auto.
    + intros x [X | X]; [left; apply E, X |]. destruct (B x X); auto.
    + intros x X. destruct (G x X); auto.
    + exact I.
    + intros x X. left. exact (C x X).
    + intros _. exact L.
Qed.

Lemma start_ok full s s' : idle s -> start full s s' -> inv full s'.
Proof.
  intros (I1 & I2 & I3 & I4) H.
  assert (K : forall nodes, ok [] [] nodes []).
  { intros nodes. split; try constructor; try tauto; try (intros x []). cbn. lia. }
  destruct H as [o me skip F O | o F O].
  - apply (next_ok o _ full O); cbn [m_polls m_first m_nodes m_done m_full m_busy m_polled m_todo]; [rewrite I2, I3; apply K | symmetry; exact F | auto].
  - apply (next_ok o _ full O); cbn [m_polls m_first m_nodes m_done m_full m_busy m_polled m_todo]; [rewrite I2, I3; apply K | congruence | congruence].
Qed.
Lemma done_ok full s x l known o : m_busy s = true -> inv full s -> order o -> incl known l ->
  let s1 := mkMap (o (union (m_todo s) l)) (m_done s) (filter (fun y => negb (y =? x)) (m_polls s))
                  (union (m_nodes s) known) (m_first s) (m_full s) (m_busy s) (m_polled s) in
  ok (m_done s1) (m_polls s1) (m_nodes s1) (m_polled s1) /\ m_full s1 = full /\
  (full = true -> m_first s1 = true \/ forall x, In x (m_nodes s1) -> In x (m_polled s1) \/ In x (m_todo s1)).
Proof.
  intros B I O KL. cbv zeta. cbn [m_polls m_first m_nodes m_done m_full m_busy m_polled m_todo].
  unfold inv in I. rewrite B in I. destruct I as (K & _ & FU & D). split; [| split; [exact FU |]].
  - destruct K as [K1 K2 K3 K4 K5 K6]. split; [exact K1 | exact K2 | apply NoDup_filter, K3 | | |].
    + intros y Y. apply filter_In in Y as [Y _]. exact (K4 y Y).
    + assert (zlen (filter (fun y => negb (y =? x)) (m_polls s)) <= zlen (m_polls s)); [| lia].
      clear. unfold zlen. induction (m_polls s) as [| a r IH]; cbn [filter]; [lia |]. destruct (negb (a =? x)); cbn [length]; lia.
    + intros y Y. apply union_in. left. exact (K6 y Y).
  - intros T. destruct (D T) as [D' | D']; [left; exact D' | right]. intros y Y.
    apply union_in in Y as [Y | Y].
    + destruct (D' y Y); [auto |]. right. apply (proj2 (O _ _)), union_in. auto.
    + right. apply (proj2 (O _ _)), union_in. right. exact (KL y Y).
Qed.
Lemma step_ok full s e : good e -> inv full s -> m_busy s = true -> inv full (mstep s e).
Proof.
  intros G I B. destruct e as [o x l known | a b |]; cbn [mstep]; [| | exact I].
  - unfold polldone. rewrite B. destruct G as [O KL].
    pose proof (done_ok full s x l known o B I O KL) as DK. cbv zeta in DK. rewrite B in DK. destruct DK as (A1 & A2 & A3).
    exact (proj1 (next_ok o _ full O A1 A2 A3)).
  - unfold event. destruct (m_full s) eqn:F; [exact I |].
    unfold inv in I |- *. cbn [m_polls m_first m_nodes m_done m_full m_busy m_polled m_todo]. rewrite B in I |- *.
    destruct I as ([K1 K2 K3 K4 K5 K6] & P & FU & D). split; [| split; [exact P |]; split; [congruence |]; congruence].
    split; try assumption. intros y Y. rewrite !addset_in. right. right. exact (K6 y Y).
Qed.

Lemma run_ok full l : forall s, inv full s -> during s l -> inv full (mrun s l).
Proof.
  induction l as [| e t IH]; intros s I D; [exact I |]. destruct D as (B & G & D).
  exact (IH (mstep s e) (step_ok full s e G I B) D).
Qed.
Lemma owed_step full s e x : good e -> inv full s -> m_busy s = true -> owed s x -> owed (mstep s e) x.
Proof.
  intros G I B W. destruct e as [o y l known | a b |]; cbn [mstep]; [| | exact W].
  - unfold polldone. rewrite B. destruct G as [O KL].
    pose proof (done_ok full s y l known o B I O KL) as DK. cbv zeta in DK. rewrite B in DK. destruct DK as (A1 & A2 & A3).
    apply (proj1 (proj2 (next_ok o _ full O A1 A2 A3))). cbn [m_polled m_todo].
    destruct W as [W | [_ W]]; [left; exact W | right; apply (proj2 (O _ _)), union_in; left; exact W].
  - unfold event. destruct (m_full s); [exact W |]. unfold owed in W |- *. cbn [m_polled m_todo m_busy].
    destruct W as [W | [W1 W2]]; [left; exact W | right]. split; [exact W1 |]. rewrite !addset_in. auto.
Qed.
Lemma owed_run full l : forall s x, inv full s -> during s l -> owed s x -> owed (mrun s l) x.
Proof.
  induction l as [| e t IH]; intros s x I D W; [exact W |]. destruct D as (B & G & D).
  exact (IH (mstep s e) x (step_ok full s e G I B) D (owed_step full s e x G I B W)).
Qed.
Lemma during_app a : forall s b, during s (a ++ b) <-> during s a /\ during (mrun s a) b.
Proof.
  induction a as [| e t IH]; intros s b; cbn [app during mrun fold_left]; [tauto |].
  rewrite IH. unfold mrun. tauto.
Qed.

(** * The scan *)
(** At any time of a scan no node has been polled twice, at most 20 polls are going
    on, and while the scan goes on there is one whose report it waits for. *)
Theorem scan_once full s s0 l :
  idle s -> start full s s0 -> during s0 l ->
  NoDup (m_polled (mrun s0 l)) /\ zlen (m_polls (mrun s0 l)) <= 20 /\ incl (m_polls (mrun s0 l)) (m_polled (mrun s0 l)) /\
  (m_busy (mrun s0 l) = true -> m_polls (mrun s0 l) <> []).
Proof.
  intros I S D. pose proof (run_ok full l s0 (start_ok full s s0 I S) D) as K. unfold inv in K.
  destruct (m_busy (mrun s0 l)).
  - destruct K as ([K1 K2 K3 K4 K5 K6] & P & _). auto.
  - destruct K as (K1 & K2 & _). rewrite K2. split; [exact K1 |]. split; [cbn; lia |]. split; [intros x [] | discriminate].
Qed.
Print Assumptions scan_once.

(** When a full scan is over every node of the database has been polled, among them
    the mapper's own, those known before, and all that were reported. *)
Theorem scan_all o me skip s l :
  idle s -> order o -> during (startfull o me skip s) l -> m_busy (mrun (startfull o me skip s) l) = false ->
  let s' := mrun (startfull o me skip s) l in
  (forall x, In x (m_nodes s') <-> In x (m_polled s')) /\
  In me (m_polled s') /\ (forall x, In x (m_nodes s) -> In x (m_polled s')) /\
  (forall a b o' x r known y, l = a ++ MDone o' x r known :: b -> In y r -> In y (m_polled s')).
Proof.
  intros I O D E. cbv zeta. assert (S : start true s (startfull o me skip s)) by (constructor; auto).
  pose proof (start_ok true s _ I S) as I0. pose proof (run_ok true l _ I0 D) as K. unfold inv in K. rewrite E in K.
  destruct K as (_ & _ & _ & _ & K1 & K2). specialize (K2 eq_refl).
  assert (W : forall x, owed (mrun (startfull o me skip s) l) x -> In x (m_polled (mrun (startfull o me skip s) l))).
  { intros x [W | [W _]]; [exact W | congruence]. }
  destruct I as (J1 & J2 & J3 & J4).
  assert (NK : let s1 := mkMap (o (addset me (filter (fun x => negb (skip x)) (m_nodes s)))) (m_done s) (m_polls s) (m_nodes s) true true (m_busy s) [] in
    ok (m_done s1) (m_polls s1) (m_nodes s1) (m_polled s1)).
  { cbv zeta. cbn [m_polls m_nodes m_done m_polled]. rewrite J2, J3. split; try constructor; try tauto; try (intros x []). cbn. lia. }
  cbv zeta in NK.
  destruct (next_ok o _ true O NK eq_refl (fun _ => or_introl eq_refl)) as (_ & N2 & _). fold (startfull o me skip s) in N2.
  split; [| split; [| split]].
  - intros x. split; [apply K2 | apply K1].
  - apply W. apply (owed_run true l _ me I0 D). apply N2. right. cbn [m_todo]. apply (proj2 (O _ _)), addset_in. left. reflexivity.
  - intros x X. apply K2. clear - X. 
    assert (F : forall todo done polls nodes polled, let '(_, _, _, nodes', _) := fill todo done polls nodes polled in incl nodes nodes').
    { induction todo as [| y t IH]; intros done polls nodes polled; cbn [fill]; [intros z Z; exact Z |].
      destruct (zlen polls <? MAXPARPOLL); [| intros z Z; exact Z]. destruct (inb y done); [apply IH |].
      specialize (IH (addset y done) (addset y polls) (addset y nodes) (polled ++ [y])).
      destruct (fill t (addset y done) (addset y polls) (addset y nodes) (polled ++ [y])) as [[[[? ?] ?] ?] ?].
      intros z Z. apply IH, addset_in. right. exact Z. }
    assert (F1 : forall s, incl (m_nodes s) (m_nodes (fill_ s))).
    { intros s'. unfold fill_. specialize (F (m_todo s') (m_done s') (m_polls s') (m_nodes s') (m_polled s')).
      destruct (fill (m_todo s') (m_done s') (m_polls s') (m_nodes s') (m_polled s')) as [[[[? ?] ?] ?] ?]. exact F. }
    assert (F2 : forall o s, incl (m_nodes s) (m_nodes (nextnode o s))).
    { intros o' s'. unfold nextnode. destruct (m_polls (fill_ s')) as [| zz zs]; [| apply F1]. destruct (m_first (fill_ s')); [| cbn [finish m_nodes]; apply F1].
      match goal with |- context[fill_ (mkMap ?a ?b ?c ?d ?e ?f ?g ?h)] => pose proof (F1 (mkMap a b c d e f g h)) as F3; destruct (m_polls (fill_ (mkMap a b c d e f g h))) as [| zz zs] end;
        cbn [finish m_nodes] in F3 |- *; intros z Z; apply F3, F1, Z. }
    assert (F4 : forall l0 s, incl (m_nodes s) (m_nodes (mrun s l0))).
    { intros l0. induction l0 as [| e t IH]; intros s'; [intros z Z; exact Z |]. intros z Z. apply (IH (mstep s' e)).
      destruct e as [o' y r known | a b |]; cbn [mstep]; [| | exact Z].
      - unfold polldone. destruct (m_busy s'); [| exact Z]. apply F2. cbn [m_nodes]. apply union_in. left. exact Z.
      - unfold event. destruct (m_full s'); [exact Z |]. cbn [m_nodes]. rewrite !addset_in. auto. }
    apply F4. unfold startfull. apply F2. exact X.
  - intros a b o' x r known y -> Y. apply during_app in D as [D1 D2]. cbn [during] in D2. destruct D2 as (B & G & D2).
    pose proof (run_ok true a _ I0 D1) as Ia. apply W.
    unfold mrun. rewrite fold_left_app. cbn [fold_left]. fold (mrun (startfull o me skip s) a).
    set (sa := mrun (startfull o me skip s) a) in *.
    apply (owed_run true b _ y (step_ok true sa _ G Ia B) D2).
    cbn [mstep]. unfold polldone. rewrite B. destruct G as [O' KL].
    pose proof (done_ok true sa x r known o' B Ia O' KL) as DK. cbv zeta in DK. rewrite B in DK. destruct DK as (A1 & A2 & A3).
    apply (proj1 (proj2 (next_ok o' _ true O' A1 A2 A3))). cbn [m_polled m_todo]. right. apply (proj2 (O' _ _)), union_in. right. exact Y.
Qed.
Print Assumptions scan_all.

(** An incremental scan polls every node that events have asked for before it, or
    while it goes on (unless that node has been polled in this scan already), or
    that is reported. *)
Theorem scan_inc o s l :
  idle s -> order o -> during (startinc o s) l -> m_busy (mrun (startinc o s) l) = false ->
  let s' := mrun (startinc o s) l in
  (forall x, In x (m_todo s) -> In x (m_polled s')) /\
  (forall a b p q, l = a ++ MEvent p q :: b -> In p (m_polled s') /\ In q (m_polled s')) /\
  (forall a b o' x r known y, l = a ++ MDone o' x r known :: b -> In y r -> In y (m_polled s')).
Proof.
  intros I O D E. cbv zeta. assert (S : start false s (startinc o s)) by (constructor; auto).
  pose proof (start_ok false s _ I S) as I0.
  assert (W : forall x, owed (mrun (startinc o s) l) x -> In x (m_polled (mrun (startinc o s) l))).
  { intros x [W | [W _]]; [exact W | congruence]. }
  destruct I as (J1 & J2 & J3 & J4).
  split; [| split].
  - intros x X. apply W. apply (owed_run false l _ x I0 D).
    assert (NK : let s1 := mkMap (o (m_todo s)) (m_done s) (m_polls s) (m_nodes s) false (m_full s) (m_busy s) [] in
      ok (m_done s1) (m_polls s1) (m_nodes s1) (m_polled s1)).
    { cbv zeta. cbn [m_polls m_nodes m_done m_polled]. rewrite J2, J3. split; try constructor; try tauto; try (intros z []). cbn. lia. }
    cbv zeta in NK. apply (proj1 (proj2 (next_ok o _ false O NK J4 ltac:(discriminate)))). right. cbn [m_todo]. apply (proj2 (O _ _)), X.
  - intros a b p q ->. apply during_app in D as [D1 D2]. cbn [during] in D2. destruct D2 as (B & G & D2).
    pose proof (run_ok false a _ I0 D1) as Ia.
    assert (T : forall y, y = p \/ y = q -> In y (m_polled (mrun (startinc o s) (a ++ MEvent p q :: b)))); [| split; apply T; auto].
    intros y Y. apply W. unfold mrun. rewrite fold_left_app. cbn [fold_left]. fold (mrun (startinc o s) a).
    set (sa := mrun (startinc o s) a) in *.
    apply (owed_run false b _ y (step_ok false sa _ G Ia B) D2).
    cbn [mstep]. unfold event. unfold inv in Ia. rewrite B in Ia. destruct Ia as (_ & _ & FU & _). rewrite FU.
    right. cbn [m_busy m_todo]. split; [exact B |]. rewrite !addset_in. destruct Y; auto.
  - intros a b o' x r known y -> Y. apply during_app in D as [D1 D2]. cbn [during] in D2. destruct D2 as (B & G & D2).
    pose proof (run_ok false a _ I0 D1) as Ia. apply W.
    unfold mrun. rewrite fold_left_app. cbn [fold_left]. fold (mrun (startinc o s) a).
    set (sa := mrun (startinc o s) a) in *.
    apply (owed_run false b _ y (step_ok false sa _ G Ia B) D2).
    cbn [mstep]. unfold polldone. rewrite B. destruct G as [O' KL].
    pose proof (done_ok false sa x r known o' B Ia O' KL) as DK. cbv zeta in DK. rewrite B in DK. destruct DK as (A1 & A2 & A3).
    apply (proj1 (proj2 (next_ok o' _ false O' A1 A2 A3))). cbn [m_polled m_todo]. right. apply (proj2 (O' _ _)), union_in. right. exact Y.
Qed.
Print Assumptions scan_inc.

(** The reports of a run. *)
Definition dones (l : list mev) : list mev := filter (fun e => match e with MDone _ _ _ _ => true | _ => false end) l.
(** Each report is of a poll that is going on, and all nodes are among [U]. *)
Fixpoint among (U : list Z) (s : mapper) (l : list mev) : Prop :=
  match l with
  | [] => True
  | e :: t => match e with MDone _ x r _ => In x (m_polls s) /\ incl r U | MEvent a b => In a U /\ In b U | MOther => True end /\ among U (mstep s e) t
  end.
Lemma filter_one x l : NoDup l -> In x l -> zlen (filter (fun y => negb (y =? x)) l) = zlen l - 1.
Proof.
  unfold zlen. induction 1 as [| y t Y N IH]; intros X; [destruct X |]. cbn [filter].
  destruct (Z.eqb_spec y x) as [-> | E]; cbn [negb].
  - cbn [length].
    assert (F : filter (fun z => negb (z =? x)) t = t).
    { clear - Y. induction t as [| z r IH]; [reflexivity |]. cbn [filter]. destruct (Z.eqb_spec z x) as [-> | E]; [destruct Y; left; reflexivity |].
      cbn [negb]. f_equal. apply IH. intros F. apply Y. right. exact F. }
    rewrite F. lia.
  - destruct X as [X | X]; [congruence |]. cbn [length]. specialize (IH X). lia.
Qed.
Lemma ends_run full U l : forall s k, inv full s -> m_busy s = true -> during s l -> among U s l ->
  incl (m_nodes s) U -> incl (m_todo s) U -> zlen (m_polled s) = zlen (m_polls s) + k ->
  m_busy (mrun s l) = true ->
  exists s', s' = mrun s l /\ inv full s' /\ incl (m_nodes s') U /\ zlen (m_polled s') = zlen (m_polls s') + k + zlen (dones l).
Proof.
  induction l as [| e t IH]; intros s k I B D A N T L E.
  - exists s. split; [reflexivity |]. split; [exact I |]. split; [exact N |]. cbn. lia.
  - destruct D as (_ & G & D). destruct A as [A1 A2]. pose proof (step_ok full s e G I B) as I'.
    assert (B' : m_busy (mstep s e) = true).
    { destruct t as [| e' t]; [exact E | exact (proj1 D)]. }
    destruct e as [o x r known | a b |].
    + cbn [mstep] in *. unfold polldone in *. rewrite B in *. destruct G as [O KL]. destruct A1 as [X R].
      pose proof (done_ok full s x r known o B I O KL) as DK. cbv zeta in DK. rewrite B in DK. destruct DK as (K1 & K2 & K3).
      destruct (next_ok o _ full O K1 K2 K3) as (_ & _ & P3 & P4 & P5 & P6). specialize (P6 B').
      cbn [m_polls m_first m_nodes m_done m_full m_busy m_polled m_todo] in P3, P4, P5, P6.
      assert (ND : NoDup (m_polls s)). { unfold inv in I. rewrite B in I. exact (ok_polls _ _ _ _ (proj1 I)). }
      assert (PN : incl (m_polled s) (m_nodes s)). { unfold inv in I. rewrite B in I. exact (ok_nodes _ _ _ _ (proj1 I)). }
      rewrite (filter_one x _ ND X) in P6.
      set (s1 := nextnode o _) in *.
      assert (TU : forall z, In z (o (union (m_todo s) r)) -> In z U).
      { intros z Z. apply (proj1 (O _ _)) in Z. apply union_in in Z as [Z | Z]; [exact (T z Z) | exact (R z Z)]. }
      assert (NU : forall z, In z (union (m_nodes s) known) -> In z U).
      { intros z Z. apply union_in in Z as [Z | Z]; [exact (N z Z) | exact (R z (KL z Z))]. }
      assert (PU : incl (m_polled s1) U).
      { intros z Z. destruct (P3 z Z) as [Q | [Q | Q]]; [exact (N z (PN z Q)) | exact (TU z Q) | exact (NU z Q)]. }
      destruct (IH s1 (k + 1) I' B' D A2) as (s' & S1 & S2 & S3 & S4).
      * intros z Z. destruct (P4 z Z) as [Q | Q]; [exact (NU z Q) | exact (PU z Q)].
      * intros z Z. destruct (P5 z Z) as [Q | [Q | Q]]; [exact (TU z Q) | exact (NU z Q) | exact (PU z Q)].
      * lia.
      * unfold mrun in E. cbn [fold_left mstep] in E. unfold polldone in E. rewrite B in E. exact E.
      * exists s'. split; [rewrite S1; unfold mrun; cbn [fold_left mstep]; unfold polldone; rewrite B; reflexivity |]. split; [exact S2 |]. split; [exact S3 |].
        cbn [dones filter]. fold (dones t). unfold zlen in S4 |- *. cbn [length]. lia.
    + cbn [dones filter]. fold (dones t). destruct A1 as [Aa Ab]. apply (IH (mstep s (MEvent a b)) k I' B' D A2); [| | | exact E];
        cbn [mstep]; unfold event; destruct (m_full s); try assumption; cbn [m_polls m_nodes m_todo m_polled]; try exact L;
        intros z Z; rewrite !addset_in in Z; destruct Z as [-> | [-> | Z]]; auto.
    + exact (IH s k I B D A2 N T L E).
Qed.
(** A scan comes to an end: if there are no more nodes than [U], fewer reports than
    that leave it going on. *)
Theorem scan_ends full U s s0 l :
  idle s -> start full s s0 -> m_busy s0 = true -> during s0 l -> among U s0 l ->
  incl (m_nodes s0) U -> incl (m_todo s0) U -> m_busy (mrun s0 l) = true ->
  zlen (dones l) < zlen U.
Proof.
  intros I S B D A N T E. pose proof (start_ok full s s0 I S) as I0.
  assert (L : zlen (m_polled s0) = zlen (m_polls s0) + 0).
  { destruct I as (J1 & J2 & J3 & J4). destruct S as [o me skip F O | o F O].
    - assert (K : ok (m_done s) (m_polls s) (m_nodes s) []) by (rewrite J2, J3; split; try constructor; try tauto; try (intros z []); cbn; lia).
      destruct (next_ok o (mkMap (o (addset me (filter (fun x => negb (skip x)) (m_nodes s)))) (m_done s) (m_polls s) (m_nodes s) true true (m_busy s) []) true O K eq_refl (fun _ => or_introl eq_refl)) as (_ & _ & _ & _ & _ & P6).
      specialize (P6 B). cbn [m_polls m_polled] in P6. assert (Z0 : zlen (m_polls s) = 0) by (rewrite J3; reflexivity). change (zlen (@nil Z)) with 0 in P6. unfold startfull. lia.
    - assert (K : ok (m_done s) (m_polls s) (m_nodes s) []) by (rewrite J2, J3; split; try constructor; try tauto; try (intros z []); cbn; lia).
      destruct (next_ok o (mkMap (o (m_todo s)) (m_done s) (m_polls s) (m_nodes s) false (m_full s) (m_busy s) []) false O K J4 ltac:(discriminate)) as (_ & _ & _ & _ & _ & P6).
      specialize (P6 B). cbn [m_polls m_polled] in P6. assert (Z0 : zlen (m_polls s) = 0) by (rewrite J3; reflexivity). change (zlen (@nil Z)) with 0 in P6. unfold startinc. lia. }
  destruct (ends_run full U l s0 0 I0 B D A N T L E) as (s' & S1 & S2 & S3 & S4).
  rewrite <- S1 in E. unfold inv in S2. rewrite E in S2. destruct S2 as ([K1 K2 K3 K4 K5 K6] & P & _).
  assert (LE : (length (m_polled s') <= length U)%nat) by (apply NoDup_incl_length; [exact K2 | intros z Z; exact (S3 z (K6 z Z))]).
  unfold zlen in S4 |- *. destruct (m_polls s'); [destruct (P eq_refl) |]. cbn [length] in S4. lia.
Qed.
Print Assumptions scan_ends.

(** * Up and down *)
(** What is observed of a node or adjacency, with the times; the times rise. *)
Definition watch (l : list (bool * Z)) : item := fold_left (fun x e => fst (update x (fst e) (snd e))) l item0.
Fixpoint rising (t0 : Z) (l : list (bool * Z)) : Prop := match l with [] => True | (_, t) :: r => t0 < t /\ rising t r end.
Definition is_up (x : item) : Prop := forall scan, health scan x = HUp.
Lemma up_iff x : is_up x <-> i_down x < i_up x.
Proof.
  unfold is_up, health. split; intros H.
  - specialize (H 0). destruct (Z.gtb_spec (i_up x) (i_down x)); [lia |]. destruct (0 - i_down x >? 60 * day); [discriminate H |]. destruct (0 - i_down x >? 14 * day); discriminate H.
  - intros scan. destruct (Z.gtb_spec (i_up x) (i_down x)); [reflexivity | lia].
Qed.
Lemma rising_snoc l : forall t0 b t, rising t0 (l ++ [(b, t)]) -> rising t0 l /\ t0 < t /\ forall e, In e l -> snd e < t.
Proof.
  induction l as [| [c u] r IH]; intros t0 b t H; cbn [app rising] in H.
  - split; [exact I |]. split; [tauto | intros e []].
  - destruct H as [H1 H2]. destruct (IH u b t H2) as (A & B & C). split; [split; assumption |]. split; [lia |].
    intros e [<- | E]; [exact B | exact (C e E)].
Qed.
Lemma watch_snoc l b t : watch (l ++ [(b, t)]) = fst (update (watch l) b t).
Proof. unfold watch. rewrite fold_left_app. reflexivity. Qed.
(** The times in an item are those of observations. *)
Lemma watch_times l : forall T, 0 <= T -> (forall e, In e l -> snd e <= T) -> i_seen (watch l) <= T /\ i_down (watch l) <= T /\ i_up (watch l) <= T.
Proof.
  induction l as [| [b t] l IH] using rev_ind; intros T P H; [cbn; lia |].
  rewrite watch_snoc. destruct (IH T P (fun e E => H e (in_or_app _ _ _ (or_introl E)))) as (A & B & C).
  assert (D : t <= T) by (apply (H (b, t)), in_or_app; right; left; reflexivity).
  unfold update. destruct b; [destruct (i_up (watch l) <=? i_down (watch l)) | destruct (i_up (watch l) >? i_down (watch l))]; cbn [fst i_seen i_down i_up]; lia.
Qed.
Lemma below l t : 0 < t -> (forall e, In e l -> snd e < t) -> i_seen (watch l) < t /\ i_down (watch l) < t /\ i_up (watch l) < t.
Proof.
  intros P H. destruct (watch_times l (t - 1)) as (A & B & C); [lia | intros e E; specialize (H e E); lia | lia].
Qed.
(** An item is taken for up exactly if it was up when last observed, and was last
    seen when it was last observed up. *)
Theorem item_state l b t : rising 0 (l ++ [(b, t)]) ->
  (is_up (watch (l ++ [(b, t)])) <-> b = true) /\ (b = true -> i_seen (watch (l ++ [(b, t)])) = t) /\ (b = false -> i_seen (watch (l ++ [(b, t)])) = i_seen (watch l)).
Proof.
  intros H. destruct (rising_snoc l 0 b t H) as (_ & P & L). destruct (below l t P L) as (A & B & C).
  rewrite up_iff, watch_snoc. unfold update. destruct b.
  - destruct (Z.leb_spec (i_up (watch l)) (i_down (watch l))); cbn [fst i_seen i_down i_up]; repeat split; try lia; try discriminate.
  - destruct (Z.gtb_spec (i_up (watch l)) (i_down (watch l))); cbn [fst i_seen i_down i_up]; repeat split; try lia; try discriminate.
Qed.
Print Assumptions item_state.
(** An observation is news (the neighbour is polled again, C79) exactly if it is of
    something up that was last seen down or never observed. *)
Theorem item_news l b0 t0 b t : rising 0 (l ++ [(b0, t0)]) ->
  snd (update (watch (l ++ [(b0, t0)])) b t) = b && negb b0 /\ snd (update (watch []) b t) = b.
Proof.
  intros R. destruct (item_state l b0 t0 R) as (U & _ & _). rewrite up_iff in U. split; [| destruct b; reflexivity].
  unfold update. destruct b.
  - destruct (Z.leb_spec (i_up (watch (l ++ [(b0, t0)]))) (i_down (watch (l ++ [(b0, t0)])))) as [X | X]; cbn [snd].
    + destruct b0; [pose proof (proj2 U eq_refl); lia | reflexivity].
    + rewrite (proj1 U X). reflexivity.
  - destruct (i_up (watch (l ++ [(b0, t0)])) >? i_down (watch (l ++ [(b0, t0)]))); reflexivity.
Qed.
Print Assumptions item_news.
(** The times of the last change are those shown: up (or down) since the first of the
    observations that agree with the last. *)
Theorem item_since a b t0 t1 r :
  rising 0 (a ++ [(negb b, t0)] ++ (b, t1) :: r) -> Forall (fun e => fst e = b) r ->
  (if b then i_up else i_down) (watch (a ++ [(negb b, t0)] ++ (b, t1) :: r)) = t1.
Proof.
  intros R F. revert R F. induction r as [| [c t] r IH] using rev_ind; intros R F.
  - change ((b, t1) :: []) with ([(b, t1)]) in R |- *. rewrite app_assoc in R |- *.
    destruct (rising_snoc _ _ _ _ R) as (R1 & _ & _). destruct (item_state a (negb b) t0 R1) as (U & _ & _). rewrite up_iff in U.
    rewrite watch_snoc. unfold update. destruct b; cbn [negb] in U |- *.
    + destruct (Z.leb_spec (i_up (watch (a ++ [(false, t0)]))) (i_down (watch (a ++ [(false, t0)])))) as [_ | X]; [reflexivity |]. apply U in X. discriminate X.
    + destruct (Z.gtb_spec (i_up (watch (a ++ [(true, t0)]))) (i_down (watch (a ++ [(true, t0)])))) as [_ | X]; [reflexivity |]. pose proof (proj2 U eq_refl). lia.
  - apply Forall_app in F as [F1 F2]. inversion_clear F2 as [| ? ? F3 _]. cbn [fst] in F3. subst c.
    assert (Q : a ++ [(negb b, t0)] ++ (b, t1) :: r ++ [(b, t)] = (a ++ [(negb b, t0)] ++ (b, t1) :: r) ++ [(b, t)]).
    { rewrite <- app_assoc. reflexivity. }
    rewrite Q in R |- *. destruct (rising_snoc _ _ _ _ R) as (R1 & _ & _). specialize (IH R1 F1).
    set (l := a ++ [(negb b, t0)] ++ (b, t1) :: r) in *. rewrite watch_snoc.
    assert (U : i_down (watch l) < i_up (watch l) <-> b = true).
    { rewrite <- up_iff. destruct r as [| e r] using rev_ind.
      - unfold l in R1 |- *. change ((b, t1) :: []) with ([(b, t1)]) in R1 |- *. rewrite app_assoc in R1 |- *. exact (proj1 (item_state _ _ _ R1)).
      - clear IHr. apply Forall_app in F1 as [_ F1]. inversion_clear F1 as [| ? ? F3 _]. destruct e as [c u]. cbn [fst] in F3. subst c.
        assert (Q2 : l = (a ++ [(negb b, t0)] ++ (b, t1) :: r) ++ [(b, u)]) by (unfold l; rewrite <- app_assoc; reflexivity).
        rewrite Q2 in R1 |- *. exact (proj1 (item_state _ _ _ R1)). }
    unfold update. destruct b.
    + destruct (Z.leb_spec (i_up (watch l)) (i_down (watch l))) as [X | X]; [pose proof (proj2 U eq_refl); lia | exact IH].
    + destruct (Z.gtb_spec (i_up (watch l)) (i_down (watch l))) as [X | X]; [apply U in X; discriminate X | exact IH].
Qed.
Print Assumptions item_since.
(** After a full scan exactly the items seen in it, by [n] polls, are up. *)
Theorem item_scan l ts n : rising 0 l -> 0 < ts -> (forall e, In e l -> snd e < ts) ->
  (is_up (testdown (Nat.iter n (fun x => fst (update x true ts)) (watch l)) ts) <-> n <> O).
Proof.
  intros R P L. destruct (below l ts P L) as (A & B & C). rewrite up_iff.
  assert (K : forall m, let y := Nat.iter (S m) (fun x => fst (update x true ts)) (watch l) in i_seen y = ts /\ i_down y < i_up y).
  { induction m as [| m IH]; cbv zeta.
    - change (Nat.iter 1 (fun x => fst (update x true ts)) (watch l)) with (fst (update (watch l) true ts)). unfold update. destruct (Z.leb_spec (i_up (watch l)) (i_down (watch l))); cbn [fst i_seen i_down i_up]; lia.
    - change (Nat.iter (S (S m)) (fun x => fst (update x true ts)) (watch l)) with (fst (update (Nat.iter (S m) (fun x => fst (update x true ts)) (watch l)) true ts)).
      cbv zeta in IH. set (y := Nat.iter (S m) _ _) in *. unfold update. destruct (Z.leb_spec (i_up y) (i_down y)); cbn [fst i_seen i_down i_up]; lia. }
  destruct n as [| n].
  - change (Nat.iter 0 (fun x => fst (update x true ts)) (watch l)) with (watch l). unfold testdown. destruct (Z.ltb_spec (i_seen (watch l)) ts); [| lia]. unfold update.
    destruct (Z.gtb_spec (i_up (watch l)) (i_down (watch l))); cbn [fst i_seen i_down i_up]; split; try lia; intros F; destruct (F eq_refl).
  - specialize (K n). cbv zeta in K. set (y := Nat.iter (S n) _ _) in *. destruct K as [K1 K2]. unfold testdown.
    destruct (Z.ltb_spec (i_seen y) ts); [lia |]. split; [discriminate | intros _; exact K2].
Qed.
Print Assumptions item_scan.
(** What is not up fades: first down, after 14 days faded, after 60 gone, never back
    without being seen. *)
Theorem item_fades x : ~ is_up x ->
  (forall scan, scan <= i_down x + 14 * 24 * 3600 -> health scan x = HDown) /\
  (forall scan, i_down x + 14 * 24 * 3600 < scan <= i_down x + 60 * 24 * 3600 -> health scan x = HFade) /\
  (forall scan, i_down x + 60 * 24 * 3600 < scan -> health scan x = HGone) /\
  (forall ts, testdown x ts = x).
Proof.
  intros U. rewrite up_iff in U. unfold health, testdown, update, day.
  destruct (Z.gtb_spec (i_up x) (i_down x)); [lia |]. split; [| split; [| split]]; intros s; [intros S | intros S | intros S | destruct (i_seen x <? s); reflexivity].
  - destruct (Z.gtb_spec (s - i_down x) (60 * 86400)); [lia |]. destruct (Z.gtb_spec (s - i_down x) (14 * 86400)); [lia | reflexivity].
  - destruct (Z.gtb_spec (s - i_down x) (60 * 86400)); [lia |]. destruct (Z.gtb_spec (s - i_down x) (14 * 86400)); [reflexivity | lia].
  - destruct (Z.gtb_spec (s - i_down x) (60 * 86400)); [reflexivity | lia].
Qed.
Print Assumptions item_fades.

(** * What the mapper does not do *)
(** Times are whole seconds, and down wins: what goes down and comes up again in the
    same second (events circ_down, circ_up) stays down. *)
Theorem item_second_refuted :
  exists x t, is_up x /\ let y := fst (update (fst (update x false t)) true t) in i_seen y = t /\ forall scan, health scan y <> HUp.
Proof.
  exists (watch [(true, 5)]), 9. split; [apply up_iff; cbn; lia |]. cbv zeta. split; [reflexivity |].
  intros scan. unfold health. change (i_up _ >? i_down _) with false. cbv iota.
  destruct (_ >? 60 * day); [discriminate |]. destruct (_ >? 14 * day); discriminate.
Qed.
Print Assumptions item_second_refuted.
(** An event during an incremental scan about a node that has been polled in it
    already does not lead to another poll: the change is seen only in the next full
    scan. *)
Definition idle_map (todo nodes : list Z) : mapper := mkMap todo [] [] nodes false false false [].
Theorem scan_event_refuted :
  exists s a b, idle s /\ during (startinc (fun l => l) s) (a ++ MEvent 1 2 :: b) /\
    m_polled (mrun (startinc (fun l => l) s) a) = [1; 2] /\
    m_busy (mrun (startinc (fun l => l) s) (a ++ MEvent 1 2 :: b)) = false /\
    m_polled (mrun (startinc (fun l => l) s) (a ++ MEvent 1 2 :: b)) = [1; 2] /\
    m_todo (mrun (startinc (fun l => l) s) (a ++ MEvent 1 2 :: b)) = [].
Proof.
  exists (idle_map [1; 2] [1; 2]), [MDone (fun l => l) 1 [] []], [MDone (fun l => l) 2 [] []].
  assert (O : order (fun l => l)) by (intros l x; tauto).
  split; [repeat split |]. split; [| repeat split; reflexivity].
  cbn [app during]. split; [reflexivity |]. split; [split; [exact O | intros x []] |]. split; [reflexivity |]. split; [exact I |].
  split; [reflexivity |]. split; [split; [exact O | intros x []] |]. exact I.
Qed.
Print Assumptions scan_event_refuted.

(** A full scan of a mapper, node 1, that knows 2 and an endnode 7, left out at
    first; 2 reports 3 and 1; sets come out backwards. *)
Definition scan0 : mapper := startfull (@rev Z) 1 (fun x => x =? 7) (idle_map [] [2; 7]).
Definition scan_evs : list mev := [MDone (@rev Z) 2 [3; 1] [3]; MOther; MEvent 2 9; MDone (@rev Z) 1 [2] []; MDone (@rev Z) 3 [] []; MDone (@rev Z) 7 [2] []].
Example net_scan :
  m_polled scan0 = [1; 2] /\ m_polls scan0 = [1; 2] /\ m_busy scan0 = true /\
  m_polled (mrun scan0 scan_evs) = [1; 2; 3; 7] /\ m_nodes (mrun scan0 scan_evs) = [2; 7; 1; 3] /\ m_busy (mrun scan0 scan_evs) = false /\
  during scan0 scan_evs /\ order (@rev Z) /\ idle (idle_map [] [2; 7]) /\ among [1; 2; 3; 7; 9] scan0 scan_evs.
Proof.
  assert (O : order (@rev Z)) by (intros l x; symmetry; apply in_rev).
  do 6 (split; [reflexivity |]). split; [| split; [exact O |]; split; [repeat split |]].
  - unfold scan_evs. cbn [during good]. repeat match goal with |- _ /\ _ => split end; try reflexivity; try exact O; try exact I; intros x X; cbn in X |- *; tauto.
  - unfold scan_evs. cbn [among]. repeat match goal with |- _ /\ _ => split end; try exact I; try (intros x X); try (vm_compute; tauto); cbn in X |- *; tauto.
Qed.
Example net_item :
  let l := [(true, 100); (true, 200); (false, 300); (true, 400)] in
  rising 0 l /\ watch l = mkItem 400 300 400 /\ health 500 (watch l) = HUp /\
  watch (firstn 3 l) = mkItem 200 300 100 /\ health (300 + 15 * 86400) (watch (firstn 3 l)) = HFade.
Proof. cbv zeta. repeat split; lia || reflexivity. Qed.
