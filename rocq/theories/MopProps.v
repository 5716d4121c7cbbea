(** C46: receipt numbers of MOP requests and the delivery of replies.

    The specification is over the log of what happened: receipts drawn (ODraw),
    requests sent (OSend), replies handed over (OReply), requests given up
    (OTimeout) and connections cancelled (OCancel). *)
From Verif Require Import Base Dict MopModel.

(** * Specification *)
Fixpoint draws (o : list mout) : list Z := match o with [] => [] | ODraw r :: t => r :: draws t | _ :: t => draws t end.
(** The entries that end what connection c asked for last. *)
Definition ends (c : Z) (e : mout) : bool :=
  match e with OSend d _ _ | OReply d _ _ | OTimeout d | OCancel d => d =? c | _ => false end.
Definition quiet (c : Z) (o : list mout) : Prop := Forall (fun e => ends c e = false) o.
Definition answers (k r : Z) (e : mout) : bool := match e with OReply _ k2 r2 => (k2 =? k) && (r2 =? r) | _ => false end.
(** No request stays open while 65535 further receipts are drawn. *)
Definition short_lived (o : list mout) : Prop :=
  forall a c k r b d, o = a ++ OSend c k r :: b ++ d -> quiet c b -> zlen (draws b) < 65535.

(** * Invariant *)
Lemma decides_key : decides key_eqb.
Proof. intros [a b] [c d]. unfold key_eqb. cbn [fst snd]. rewrite andb_true_iff, !Z.eqb_eq. split; [intros [-> -> ]; reflexivity|intros H; injection H as -> -> ; auto]. Qed.
Lemma draws_app : forall a b, draws (a ++ b) = draws a ++ draws b.
Proof. induction a as [|[] a IH]; intros b; cbn; rewrite ?IH; reflexivity. Qed.
Definition ostep (c : Z) (s : option key) (e : mout) : option key :=
  match e with OSend d k r => if d =? c then Some (k, r) else s | OReply d _ _ | OTimeout d | OCancel d => if d =? c then None else s | _ => s end.
Definition openof (c : Z) (o : list mout) : option key := fold_left (ostep c) o None.
Definition hstep (q : key) (s : option Z) (e : mout) : option Z :=
  match e with OSend c k r => if key_eqb (k, r) q then Some c else s | OReply _ k r => if key_eqb (k, r) q then None else s | _ => s end.
Definition holder (q : key) (o : list mout) : option Z := fold_left (hstep q) o None.
Lemma openof_snoc : forall c o e, openof c (o ++ [e]) = ostep c (openof c o) e.
Proof. intros. unfold openof. rewrite fold_left_app. reflexivity. Qed.
Lemma holder_snoc : forall q o e, holder q (o ++ [e]) = hstep q (holder q o) e.
Proof. intros. unfold holder. rewrite fold_left_app. reflexivity. Qed.
Definition rec_at (g n : Z) : Z := (g - 1 + n) mod 65535 + 1.

Record inv (g : Z) (m : mop) (o : list mout) : Prop := {
  v_gen : m_gen m = rec_at g (zlen (draws o));
  v_draw : forall a r b, draws o = a ++ r :: b -> r = rec_at g (zlen a);
  v_send : forall a c k r b, o = a ++ OSend c k r :: b -> 1 <= zlen (draws a) /\ r = rec_at g (zlen (draws a) - 1);
  v_old : forall c x, dget Z.eqb (m_conns m) c = Some x -> 0 <= c < m_next m;
  v_next : 0 <= m_next m;
  v_open : forall c x, dget Z.eqb (m_conns m) c = Some x -> match openof c o with Some (k, r) => k_circ x = k /\ k_rnum x = Some r | None => k_rnum x = None end;
  v_none : forall c, dget Z.eqb (m_conns m) c = None -> openof c o = None;
  v_req : forall q c, dget key_eqb (m_reqs m) q = Some c -> openof c o = Some q /\ holder q o = Some c;
  v_tmr : forall c x, dget Z.eqb (m_conns m) c = Some x -> k_rnum x <> None -> k_tmr x = true /\ k_wait x = false;
  v_wait : forall c x, dget Z.eqb (m_conns m) c = Some x -> k_wait x = true -> k_listed x = false;
  v_rev : short_lived o -> forall c q, openof c o = Some q -> dget key_eqb (m_reqs m) q = Some c }.

Lemma rec_range : forall g n, 1 <= rec_at g n <= 65535.
Proof. intros. unfold rec_at. lia. Qed.
Lemma rnext_rec : forall g n, 1 <= g <= 65535 -> 0 <= n -> rnext (rec_at g n) = (rec_at g n, rec_at g (n + 1)).
Proof. intros g n H N. unfold rnext. f_equal. unfold rec_at. destruct (_ =? 65535) eqn:E; lia. Qed.
Lemma short_app : forall a b, short_lived (a ++ b) -> short_lived a.
Proof. intros a b H x c k r y d E. apply (H x c k r y (d ++ b)). rewrite E. rewrite <- !app_assoc. cbn [app]. rewrite <- !app_assoc. reflexivity. Qed.
Lemma split_snoc : forall (o : list mout) e a x b, o ++ [e] = a ++ x :: b -> (a = o /\ x = e /\ b = []) \/ exists b2, b = b2 ++ [e] /\ o = a ++ x :: b2.
Proof.
  intros o e a x b. destruct (rev b) as [|y t] eqn:R.
  - assert (b = []) by (rewrite <- (rev_involutive b), R; reflexivity). subst b. intros H. apply app_inj_tail in H. destruct H as [-> -> ]. auto.
  - assert (b = rev t ++ [y]) by (rewrite <- (rev_involutive b), R; reflexivity). subst b. intros H. right.
    change (a ++ x :: rev t ++ [y]) with (a ++ (x :: rev t) ++ [y]) in H. rewrite app_assoc in H. apply app_inj_tail in H. destruct H as [-> -> ]. exists (rev t). auto.
Qed.
Lemma open_split : forall c o k r, openof c o = Some (k, r) -> exists a b, o = a ++ OSend c k r :: b /\ quiet c b.
Proof.
  intros c o k r. induction o as [|e o IH] using rev_ind; intros H; [discriminate|].
  rewrite openof_snoc in H.
  assert (X : openof c o = Some (k, r) /\ ends c e = false \/ e = OSend c k r).
  { destruct e; cbn [ostep ends] in *; try (left; split; [exact H|reflexivity]); destruct (_ =? c) eqn:E; try discriminate; auto.
    right. injection H as -> -> . f_equal. lia. }
  destruct X as [[X Y]|X].
  - destruct (IH X) as (a & b & -> & Q). exists a, (b ++ [e]). split; [rewrite <- app_assoc; reflexivity|]. apply Forall_app. split; [exact Q|]. constructor; auto.
  - subst e. exists o, []. split; [reflexivity|constructor].
Qed.
Lemma hold_split : forall k r o c, holder (k, r) o = Some c -> exists a b, o = a ++ OSend c k r :: b /\ Forall (fun e => answers k r e = false) b /\ forall d, ~ In (OSend d k r) b.
Proof.
  intros k r o c. induction o as [|e o IH] using rev_ind; intros H; [discriminate|].
  rewrite holder_snoc in H.
  assert (X : holder (k, r) o = Some c /\ answers k r e = false /\ (forall d, e <> OSend d k r) \/ e = OSend c k r).
  { destruct e as [z|d k2 r2|d k2 r2| | | | ]; cbn [hstep answers] in *; try (left; repeat split; [exact H|congruence]).
    - destruct (key_eqb _ _) eqn:E. + apply decides_key in E. right. congruence.
      + left. repeat split; [exact H|]. intros x F. assert (k2 = k /\ r2 = r) as [-> -> ] by (split; congruence). rewrite (decides_refl _ _ decides_key) in E. discriminate.
    - destruct (key_eqb _ _) eqn:E; [discriminate|]. left. unfold key_eqb in E. cbn [fst snd] in E. repeat split; [exact H|exact E|congruence]. }
  destruct X as [(X & Y & W)|X].
  - destruct (IH X) as (a & b & -> & Q & N). exists a, (b ++ [e]). split; [rewrite <- app_assoc; reflexivity|]. split.
    + apply Forall_app. split; [exact Q|]. constructor; auto.
    + intros d F. apply in_app_or in F. destruct F as [F|[F|[]]]; [exact (N d F)|exact (W d F)].
  - subst e. exists o, []. split; [reflexivity|]. split; [constructor|intros d []].
Qed.

(** ** The primitive changes keep the invariant *)
(* an output that concerns no request *)
Definition idle (e : mout) : bool := match e with ODone _ | OApiError _ => true | _ => false end.
Lemma inv_idle : forall g m o e, inv g m o -> idle e = true -> inv g m (o ++ [e]).
Proof.
  intros g m o e V E.
  assert (D : draws (o ++ [e]) = draws o) by (rewrite draws_app; destruct e; try discriminate; apply app_nil_r).
  assert (O : forall c, openof c (o ++ [e]) = openof c o) by (intros; rewrite openof_snoc; destruct e; try discriminate; reflexivity).
  assert (H : forall q, holder q (o ++ [e]) = holder q o) by (intros; rewrite holder_snoc; destruct e; try discriminate; reflexivity).
  destruct V. constructor; rewrite ?D; auto.
  - intros a c k r b X. apply split_snoc in X. destruct X as [(-> & <- & -> )|(b2 & -> & X)]; [discriminate|]. eapply v_send0. exact X.
  - intros c x X. rewrite O. apply v_open0. exact X.
  - intros c X. rewrite O. auto.
  - intros q c X. rewrite O, H. auto.
  - intros S2 c q X. rewrite O in X. apply v_rev0; [eapply short_app; exact S2|exact X].
Qed.
Lemma inv_draw : forall g m o, 1 <= g <= 65535 -> inv g m o -> inv g (setgen m (snd (rnext (m_gen m)))) (o ++ [ODraw (fst (rnext (m_gen m)))]).
Proof.
  intros g m o G V. assert (L := zlen_nonneg _ (draws o)).
  rewrite (v_gen _ _ _ V), rnext_rec by assumption. cbn [fst snd]. set (r0 := rec_at g (zlen (draws o))).
  assert (D : draws (o ++ [ODraw r0]) = draws o ++ [r0]) by (rewrite draws_app; reflexivity).
  assert (O : forall c, openof c (o ++ [ODraw r0]) = openof c o) by (intros; rewrite openof_snoc; reflexivity).
  assert (H : forall q, holder q (o ++ [ODraw r0]) = holder q o) by (intros; rewrite holder_snoc; reflexivity).
  destruct V. constructor; cbn [m_gen m_conns m_next m_reqs setgen]; rewrite ?D; auto.
  - rewrite zlen_app, zlen_cons, zlen_nil. f_equal.
  - intros a r b X. destruct (rev b) as [|y t] eqn:R.
    + assert (b = []) by (rewrite <- (rev_involutive b), R; reflexivity). subst b. apply app_inj_tail in X. destruct X as [<- <- ]. reflexivity.
    + assert (b = rev t ++ [y]) by (rewrite <- (rev_involutive b), R; reflexivity). subst b.
      change (a ++ r :: rev t ++ [y]) with (a ++ (r :: rev t) ++ [y]) in X. rewrite app_assoc in X. apply app_inj_tail in X. eapply v_draw0. apply X.
  - intros a c k r b X. apply split_snoc in X. destruct X as [(-> & F & -> )|(b2 & -> & X)]; [discriminate|]. eapply v_send0. exact X.
  - intros c x X. rewrite O. apply v_open0. exact X.
  - intros c X. rewrite O. auto.
  - intros q c X. rewrite O, H. auto.
  - intros S2 c q X. rewrite O in X. apply v_rev0; [eapply short_app; exact S2|exact X].
Qed.
(* a connection changes, or is made, without a request *)
Lemma inv_conn : forall g m o c x, inv g m o -> openof c o = None -> k_rnum x = None -> (k_wait x = true -> k_listed x = false) -> 0 <= c < m_next m -> inv g (putconn m c x) o.
Proof.
  intros g m o c x V O R W N. destruct V. constructor; cbn [m_gen m_conns m_next m_reqs putconn setconns]; auto.
  - intros d y X. rewrite (dget_dset Z.eqb decides_Z) in X. destruct (d =? c) eqn:E; [lia|eapply v_old0; exact X].
  - intros d y X. rewrite (dget_dset Z.eqb decides_Z) in X. destruct (d =? c) eqn:E; [|apply v_open0; exact X].
    assert (d = c) by lia. subst d. rewrite O. congruence.
  - intros d X. rewrite (dget_dset Z.eqb decides_Z) in X. destruct (d =? c); [discriminate|auto].
  - intros d y X. rewrite (dget_dset Z.eqb decides_Z) in X. destruct (d =? c) eqn:E; [|apply (v_tmr0 _ _ X)]. assert (y = x) by congruence. subst y. congruence.
  - intros d y X. rewrite (dget_dset Z.eqb decides_Z) in X. destruct (d =? c) eqn:E; [|apply (v_wait0 _ _ X)]. assert (y = x) by congruence. subst y. exact W.
Qed.
Lemma inv_new : forall g m o x, inv g m o -> k_rnum x = None -> k_wait x = false ->
  inv g {| m_gen := m_gen m; m_conns := dset Z.eqb (m_conns m) (m_next m) x; m_next := m_next m + 1; m_reqs := m_reqs m |} o.
Proof.
  intros g m o x V R W.
  assert (NX := v_next _ _ _ V).
  assert (V2 : inv g {| m_gen := m_gen m; m_conns := m_conns m; m_next := m_next m + 1; m_reqs := m_reqs m |} o).
  { destruct V. constructor; cbn [m_gen m_conns m_next m_reqs]; auto; [|lia]. intros c y X. specialize (v_old0 c y X). lia. }
  assert (NO : openof (m_next m) o = None).
  { apply (v_none _ _ _ V). destruct (dget _ _ _) eqn:E; [|reflexivity]. apply (v_old _ _ _ V) in E. lia. }
  apply (inv_conn g _ o (m_next m) x V2 NO R); [congruence|]. cbn [m_next]. lia.
Qed.
(* the last request of c ends, and c has no request after it *)
Definition closing (c : Z) (e : mout) : Prop := e = OTimeout c \/ e = OCancel c.
Lemma inv_close : forall g m o c x y e, inv g m o -> dget Z.eqb (m_conns m) c = Some x -> closing c e ->
  k_rnum y = None -> (k_wait y = true -> k_listed y = false) ->
  inv g (putconn (match k_rnum x with Some r => setreqs m (ddel key_eqb (m_reqs m) (k_circ x, r)) | None => m end) c y) (o ++ [e]).
Proof.
  intros g m o c x y e V X E R W.
  assert (D : draws (o ++ [e]) = draws o) by (rewrite draws_app; destruct E; subst e; apply app_nil_r).
  assert (O : forall d, openof d (o ++ [e]) = if d =? c then None else openof d o).
  { intros d. rewrite openof_snoc. rewrite Z.eqb_sym. destruct E; subst e; cbn [ostep]; destruct (c =? d); reflexivity. }
  assert (H : forall q, holder q (o ++ [e]) = holder q o) by (intros; rewrite holder_snoc; destruct E; subst e; reflexivity).
  set (m1 := match k_rnum x with Some r => _ | None => m end).
  assert (M1 : m_gen m1 = m_gen m /\ m_conns m1 = m_conns m /\ m_next m1 = m_next m) by (unfold m1; destruct (k_rnum x); auto).
  assert (M2 : forall q d, dget key_eqb (m_reqs m1) q = Some d <-> dget key_eqb (m_reqs m) q = Some d /\ openof c o <> Some q).
  { intros q d. pose proof (v_open _ _ _ V c x X) as P. unfold m1. destruct (openof c o) as [[k r]|].
    - destruct P as [P1 P2]. rewrite P1, P2. cbn [m_reqs setreqs]. rewrite (dget_ddel key_eqb decides_key). destruct (key_eqb q (k, r)) eqn:K.
      + apply decides_key in K. subst q. split; [discriminate|]. intros [_ F]. contradiction.
      + split; [intros F; split; [exact F|]|intros [F _]; exact F]. intros G. injection G as <- . rewrite (decides_refl _ _ decides_key) in K. discriminate.
    - rewrite P. split; [intros F; split; [exact F|discriminate]|intros [F _]; exact F]. }
  destruct M1 as (M3 & M4 & M5). clearbody m1.
  destruct V. constructor; cbn [m_gen m_conns m_next m_reqs putconn setconns]; rewrite ?D, ?M3, ?M4, ?M5; auto.
  - intros a d k r b Y. apply split_snoc in Y. destruct Y as [(-> & F & -> )|(b2 & -> & Y)]; [destruct E; congruence|]. eapply v_send0. exact Y.
  - intros d z Y. rewrite (dget_dset Z.eqb decides_Z) in Y. destruct (d =? c) eqn:Q; [|eapply v_old0; exact Y]. assert (d = c) by lia. subst d. eapply v_old0. exact X.
  - intros d z Y. rewrite O. rewrite (dget_dset Z.eqb decides_Z) in Y. destruct (d =? c) eqn:Q; [congruence|]. apply v_open0. exact Y.
  - intros d Y. rewrite O. rewrite (dget_dset Z.eqb decides_Z) in Y. destruct (d =? c) eqn:Q; [discriminate|]. auto.
  - intros q d Y. rewrite O, H. apply M2 in Y. destruct Y as [Y Z]. destruct (v_req0 _ _ Y) as [A B]. split; [|exact B]. destruct (d =? c) eqn:Q; [|exact A]. assert (d = c) by lia. subst d. contradiction.
  - intros d z Y. rewrite (dget_dset Z.eqb decides_Z) in Y. destruct (d =? c) eqn:Q; [|apply (v_tmr0 _ _ Y)]. assert (z = y) by congruence. subst z. congruence.
  - intros d z Y. rewrite (dget_dset Z.eqb decides_Z) in Y. destruct (d =? c) eqn:Q; [|apply (v_wait0 _ _ Y)]. assert (z = y) by congruence. subst z. exact W.
  - intros S2 d q Y. rewrite O in Y. destruct (d =? c) eqn:Q; [discriminate|]. apply short_app in S2. pose proof (v_rev0 S2 d q Y) as A.
    apply M2. split; [exact A|]. intros F. pose proof (v_rev0 S2 c q F) as B. assert (d = c) by congruence. lia.
Qed.
Lemma inv_reply : forall g m o c x y k r, inv g m o -> dget key_eqb (m_reqs m) (k, r) = Some c -> dget Z.eqb (m_conns m) c = Some x ->
  k_rnum y = None -> (k_wait y = true -> k_listed y = false) ->
  inv g (putconn (match k_rnum x with Some r2 => setreqs (setreqs m (ddel key_eqb (m_reqs m) (k, r))) (ddel key_eqb (ddel key_eqb (m_reqs m) (k, r)) (k_circ x, r2)) | None => setreqs m (ddel key_eqb (m_reqs m) (k, r)) end) c y) (o ++ [OReply c k r]).
Proof.
  intros g m o c x y k r V RQ X R W. destruct (v_req _ _ _ V _ _ RQ) as [OP HO].
  pose proof (v_open _ _ _ V c x X) as P. rewrite OP in P. destruct P as [P1 P2]. rewrite P1, P2.
  assert (D : draws (o ++ [OReply c k r]) = draws o) by (rewrite draws_app; apply app_nil_r).
  assert (O : forall d, openof d (o ++ [OReply c k r]) = if d =? c then None else openof d o).
  { intros d. rewrite openof_snoc. rewrite Z.eqb_sym. cbn [ostep]. destruct (c =? d); reflexivity. }
  assert (H : forall q, holder q (o ++ [OReply c k r]) = if key_eqb q (k, r) then None else holder q o).
  { intros q. rewrite holder_snoc. cbn [hstep]. destruct (key_eqb q (k, r)) eqn:E.
    - apply decides_key in E. subst q. rewrite (decides_refl _ _ decides_key). reflexivity.
    - destruct (key_eqb (k, r) q) eqn:F; [|reflexivity]. apply decides_key in F. subst q. rewrite (decides_refl _ _ decides_key) in E. discriminate. }
  cbn [m_reqs setreqs].
  assert (M2 : forall q d, dget key_eqb (ddel key_eqb (ddel key_eqb (m_reqs m) (k, r)) (k, r)) q = Some d <-> dget key_eqb (m_reqs m) q = Some d /\ q <> (k, r)).
  { intros q d. rewrite !(dget_ddel key_eqb decides_key). destruct (key_eqb q (k, r)) eqn:E.
    - apply decides_key in E. split; [discriminate|intros [_ F]; contradiction].
    - split; [intros F; split; [exact F|]|intros [F _]; exact F]. intros -> . rewrite (decides_refl _ _ decides_key) in E. discriminate. }
  assert (KN : forall q, q <> (k, r) -> key_eqb q (k, r) = false) by (intros q N; apply (decides_neq _ _ decides_key); exact N).
  set (dd := ddel _ _ _) in *. clearbody dd.
  destruct V. constructor; cbn [m_gen m_conns m_next m_reqs putconn setconns setreqs]; rewrite ?D; auto.
  - intros a d k2 r2 b Y. apply split_snoc in Y. destruct Y as [(-> & F & -> )|(b2 & -> & Y)]; [congruence|]. eapply v_send0. exact Y.
  - intros d z Y. rewrite (dget_dset Z.eqb decides_Z) in Y. destruct (d =? c) eqn:Q; [|eapply v_old0; exact Y]. assert (d = c) by lia. subst d. eapply v_old0. exact X.
  - intros d z Y. rewrite O. rewrite (dget_dset Z.eqb decides_Z) in Y. destruct (d =? c) eqn:Q; [congruence|]. apply v_open0. exact Y.
  - intros d Y. rewrite O. rewrite (dget_dset Z.eqb decides_Z) in Y. destruct (d =? c) eqn:Q; [discriminate|]. auto.
  - intros q d Y. rewrite O, H. apply M2 in Y. destruct Y as [Y Z]. destruct (v_req0 _ _ Y) as [A B]. rewrite (KN _ Z). split; [|exact B].
    destruct (d =? c) eqn:Q; [|exact A]. assert (d = c) by lia. subst d. congruence.
  - intros d z Y. rewrite (dget_dset Z.eqb decides_Z) in Y. destruct (d =? c) eqn:Q; [|apply (v_tmr0 _ _ Y)]. assert (z = y) by congruence. subst z. congruence.
  - intros d z Y. rewrite (dget_dset Z.eqb decides_Z) in Y. destruct (d =? c) eqn:Q; [|apply (v_wait0 _ _ Y)]. assert (z = y) by congruence. subst z. exact W.
  - intros S2 d q Y. rewrite O in Y. destruct (d =? c) eqn:Q; [discriminate|]. apply short_app in S2. pose proof (v_rev0 S2 d q Y) as A.
    apply M2. split; [exact A|]. intros -> . assert (d = c) by congruence. lia.
Qed.
Lemma rec_clash : forall g m n, 0 <= m -> m <= n -> rec_at g m = rec_at g (n + 1) -> 65534 <= n - m.
Proof. intros g m n A B E. unfold rec_at in E. lia. Qed.
Lemma inv_send : forall g m o c x, 1 <= g <= 65535 -> inv g m o -> openof c o = None -> 0 <= c < m_next m -> k_rnum x = None -> forall m2 o2, send_req m c x = (m2, o2) -> inv g m2 (o ++ o2).
Proof.
  intros g m o c x G V ON CN R m2 o2 E. assert (L := zlen_nonneg _ (draws o)).
  unfold send_req in E. rewrite (v_gen _ _ _ V), rnext_rec in E by assumption.
  assert (VD := inv_draw g m o G V). rewrite (v_gen _ _ _ V), rnext_rec in VD by assumption. cbn [fst snd] in VD.
  set (r0 := rec_at g (zlen (draws o))) in *.
  injection E as <- <- .
  replace (o ++ [ODraw r0; OSend c (k_circ x) r0]) with ((o ++ [ODraw r0]) ++ [OSend c (k_circ x) r0]) by (rewrite <- app_assoc; reflexivity).
  set (o1 := o ++ [ODraw r0]) in *. set (k := k_circ x).
  assert (DO : draws o1 = draws o ++ [r0]) by (unfold o1; rewrite draws_app; reflexivity).
  assert (D : draws (o1 ++ [OSend c k r0]) = draws o1) by (rewrite draws_app; apply app_nil_r).
  assert (O : forall d, openof d (o1 ++ [OSend c k r0]) = if d =? c then Some (k, r0) else openof d o1).
  { intros d. rewrite openof_snoc. rewrite Z.eqb_sym. cbn [ostep]. destruct (c =? d); reflexivity. }
  assert (H : forall q, holder q (o1 ++ [OSend c k r0]) = if key_eqb q (k, r0) then Some c else holder q o1).
  { intros q. rewrite holder_snoc. cbn [hstep]. destruct (key_eqb q (k, r0)) eqn:E.
    - apply decides_key in E. subst q. rewrite (decides_refl _ _ decides_key). reflexivity.
    - destruct (key_eqb (k, r0) q) eqn:F; [|reflexivity]. apply decides_key in F. subst q. rewrite (decides_refl _ _ decides_key) in E. discriminate. }
  assert (ON1 : openof c o1 = None) by (unfold o1; rewrite openof_snoc; exact ON).
  (* nobody else has r0 open *)
  assert (SOLE : short_lived o1 -> forall d k2, openof d o1 <> Some (k2, r0)).
  { intros S2 d k2 F. assert (F2 : openof d o = Some (k2, r0)) by (unfold o1 in F; rewrite openof_snoc in F; exact F).
    destruct (open_split _ _ _ _ F2) as (a & b & EQ & Q).
    destruct (v_send _ _ _ V _ _ _ _ _ EQ) as [A1 A2].
    assert (LD : zlen (draws o) = zlen (draws a) + zlen (draws b)) by (rewrite EQ, draws_app, zlen_app; reflexivity).
    assert (NB := zlen_nonneg _ (draws b)).
    assert (Q2 : zlen (draws (b ++ [ODraw r0])) < 65535).
    { apply (S2 a d k2 r0 (b ++ [ODraw r0]) []); [unfold o1; rewrite EQ, <- app_assoc, app_nil_r; reflexivity|]. apply Forall_app. split; [exact Q|repeat constructor]. }
    rewrite draws_app, zlen_app in Q2. cbn [draws] in Q2. rewrite zlen_cons, zlen_nil in Q2.
    unfold r0 in A2. assert (C := rec_clash g (zlen (draws a) - 1) (zlen (draws o) - 1)). replace (zlen (draws o) - 1 + 1) with (zlen (draws o)) in C by lia.
    specialize (C ltac:(lia) ltac:(lia) (eq_sym A2)). lia. }
  destruct VD. cbn [m_gen m_conns m_next m_reqs setgen] in *. constructor; cbn [m_gen m_conns m_next m_reqs putconn setconns setreqs setgen]; rewrite ?D; auto.
  - intros a d k2 r2 b Y. apply split_snoc in Y. destruct Y as [(-> & F & -> )|(b2 & -> & Y)]; [|eapply v_send0; exact Y].
    injection F as -> -> -> . rewrite DO, zlen_app, zlen_cons, zlen_nil. split; [lia|]. unfold r0. f_equal. lia.
  - intros d z Y. rewrite (dget_dset Z.eqb decides_Z) in Y. destruct (d =? c) eqn:Q; [lia|eapply v_old0; exact Y].
  - intros d z Y. rewrite O. rewrite (dget_dset Z.eqb decides_Z) in Y. destruct (d =? c) eqn:Q; [|apply v_open0; exact Y].
    assert (z = with_req x (Some r0)) by congruence. subst z. split; reflexivity.
  - intros d Y. rewrite O. rewrite (dget_dset Z.eqb decides_Z) in Y. destruct (d =? c) eqn:Q; [discriminate|]. auto.
  - intros q d Y. rewrite O, H. rewrite (dget_dset key_eqb decides_key) in Y. destruct (key_eqb q (k, r0)) eqn:K.
    + apply decides_key in K. assert (d = c) by congruence. subst d. rewrite Z.eqb_refl. subst q; split; reflexivity.
    + destruct (v_req0 _ _ Y) as [A B]. split; [|exact B]. destruct (d =? c) eqn:Q; [|exact A]. assert (d = c) by lia. subst d. congruence.
  - intros d z Y. rewrite (dget_dset Z.eqb decides_Z) in Y. destruct (d =? c) eqn:Q; [|apply (v_tmr0 _ _ Y)]. assert (z = with_req x (Some r0)) by congruence. subst z. split; reflexivity.
  - intros d z Y. rewrite (dget_dset Z.eqb decides_Z) in Y. destruct (d =? c) eqn:Q; [|apply (v_wait0 _ _ Y)]. assert (z = with_req x (Some r0)) by congruence. subst z. discriminate.
  - intros S2 d q Y. apply short_app in S2. rewrite O in Y. rewrite (dget_dset key_eqb decides_key). destruct (d =? c) eqn:Q.
    + assert (q = (k, r0)) by congruence. subst q. rewrite (decides_refl _ _ decides_key). f_equal. lia.
    + destruct (key_eqb q (k, r0)) eqn:K; [|apply v_rev0; assumption]. apply decides_key in K. subst q. exfalso. exact (SOLE S2 d k Y).
Qed.

(** ** Steps *)
Lemma inv_dispatch : forall g m o c x b m2 o2, 1 <= g <= 65535 -> inv g m o -> openof c o = None -> 0 <= c < m_next m -> k_rnum x = None -> k_listed x = false ->
  loop_dispatch m c x b = (m2, o2) -> inv g m2 (o ++ o2).
Proof.
  intros g m o c x b m2 o2 G V O N R LS E. unfold loop_dispatch in E. cbn zeta in E.
  assert (P : inv g (putconn m c (with_left x (k_left x - 1))) o) by (apply inv_conn; auto).
  destruct b.
  - destruct (k_left _ =? 0). { injection E as <- <- . apply inv_idle; [exact P|reflexivity]. }
    destruct (k_fast _). { eapply inv_send; [exact G|exact V|exact O|exact N| |exact E]. exact R. }
    injection E as <- <- . rewrite app_nil_r. apply inv_conn; auto.
  - destruct (k_wait x). { eapply inv_send; [exact G|exact V|exact O|exact N| |exact E]. exact R. }
    destruct (k_nml x). { injection E as <- <- . apply inv_idle; [exact V|reflexivity]. }
    destruct (k_left _ =? 0). { injection E as <- <- . apply inv_idle; [exact P|reflexivity]. }
    eapply inv_send; [exact G|exact V|exact O|exact N| |exact E]. exact R.
Qed.
Lemma inv_cancel : forall g m o c x x1 e, inv g m o -> dget Z.eqb (m_conns m) c = Some x -> closing c e -> k_rnum x1 = k_rnum x -> k_circ x1 = k_circ x -> inv g (cancel m c x1) (o ++ [e]).
Proof.
  intros g m o c x x1 e V X E R C. unfold cancel. rewrite R, C. eapply inv_close; [exact V|exact X|exact E|reflexivity|reflexivity].
Qed.
Lemma inv_end_api : forall g cl l m o m2 o2, inv g m o -> end_api m cl l = (m2, o2) -> inv g m2 (o ++ o2).
Proof.
  intros g cl. induction l as [|c t IH]; intros m o m2 o2 V E; cbn [end_api] in E.
  { injection E as <- <- . now rewrite app_nil_r. }
  destruct (dget Z.eqb (m_conns m) c) as [x|] eqn:X; [|eapply IH; eassumption].
  destruct (k_listed x && (k_client x =? cl)); [|eapply IH; eassumption].
  destruct (end_api (cancel m c x) cl t) as [m1 o1] eqn:F. injection E as <- <- .
  replace (o ++ OCancel c :: o1) with ((o ++ [OCancel c]) ++ o1) by (rewrite <- app_assoc; reflexivity).
  eapply IH; [|exact F]. eapply inv_cancel; [exact V|exact X|right; reflexivity|reflexivity|reflexivity].
Qed.
Lemma inv_step : forall g m o e m2 o2, 1 <= g <= 65535 -> inv g m o -> mstep m e = (m2, o2) -> inv g m2 (o ++ o2).
Proof.
  intros g m o e m2 o2 G V E. destruct e as [cl k packets fast nml long|cl k|k r|c|cl]; cbn [mstep] in E; cbn zeta in E.
  - match type of E with context [dset Z.eqb (m_conns m) (m_next m) ?z] => set (x := z) in * end.
    match type of E with (if _ then (?z, _) else _) = _ => set (m1 := z) in * end.
    assert (V1 : inv g m1 o) by (apply inv_new; auto).
    destruct (packets <? 1). { injection E as <- <- . now rewrite app_nil_r. }
    assert (V2 := inv_draw g m1 o G V1). destruct (rnext (m_gen m1)) as [r gg]. cbn [fst snd] in V2.
    destruct long. { injection E as <- <- . exact V2. }
    destruct (send_req (setgen m1 gg) (m_next m) x) as [m3 o3] eqn:F. injection E as <- <- .
    replace (o ++ ODraw r :: o3) with ((o ++ [ODraw r]) ++ o3) by (rewrite <- app_assoc; reflexivity).
    eapply (inv_send g _ _ (m_next m) x G V2); [|cbn [m_next setgen]|reflexivity|exact F].
    + rewrite openof_snoc. cbn [ostep]. apply (v_none _ _ _ V). destruct (dget _ _ _) eqn:Y; [|reflexivity]. apply (v_old _ _ _ V) in Y. lia.
    + assert (NX := v_next _ _ _ V). unfold m1. cbn [m_next]. lia.
  - destruct (end_api m cl (dkeys (m_conns m))) as [m1 o1] eqn:F. injection E as <- <- .
    replace (o ++ OApiError cl :: o1) with ((o ++ [OApiError cl]) ++ o1) by (rewrite <- app_assoc; reflexivity).
    eapply inv_end_api; [|exact F]. apply inv_idle; [exact V|reflexivity].
  - destruct (r =? 0). { injection E as <- <- . now rewrite app_nil_r. }
    destruct (dget key_eqb (m_reqs m) (k, r)) as [c|] eqn:RQ; [|injection E as <- <- ; now rewrite app_nil_r].
    cbn [m_conns setreqs] in E. destruct (v_req _ _ _ V _ _ RQ) as [OP _].
    destruct (dget Z.eqb (m_conns m) c) as [x|] eqn:X; [|rewrite (v_none _ _ _ V c X) in OP; discriminate].
    destruct (loop_dispatch _ c (cancelled x) true) as [m3 o3] eqn:F. injection E as <- <- .
    replace (o ++ OReply c k r :: o3) with ((o ++ [OReply c k r]) ++ o3) by (rewrite <- app_assoc; reflexivity).
    assert (CN := v_old _ _ _ V c x X).
    eapply (inv_dispatch g _ _ c (cancelled x) true); [exact G| | | |reflexivity|reflexivity|exact F].
    + unfold cancel. cbn [m_reqs setreqs]. eapply inv_reply; [exact V|exact RQ|exact X|reflexivity|reflexivity].
    + rewrite openof_snoc. cbn [ostep]. rewrite Z.eqb_refl. reflexivity.
    + unfold cancel. destruct (k_rnum x); exact CN.
  - destruct (dget Z.eqb (m_conns m) c) as [x|] eqn:X; [|injection E as <- <- ; now rewrite app_nil_r].
    destruct (k_tmr x); [|injection E as <- <- ; now rewrite app_nil_r].
    destruct (loop_dispatch _ c _ false) as [m3 o3] eqn:F. injection E as <- <- .
    assert (CN := v_old _ _ _ V c x X). assert (OPN := v_open _ _ _ V c x X).
    destruct (k_wait x) eqn:W; cbn [app].
    + assert (RN : k_rnum x = None). { destruct (k_rnum x) eqn:R; [|reflexivity]. destruct (v_tmr _ _ _ V c x X) as [_ Q]; congruence. }
      assert (ON : openof c o = None) by (destruct (openof c o) as [[? ?]|]; [destruct OPN; congruence|reflexivity]).
      eapply (inv_dispatch g _ _ c (cancelled (with_tmr x false)) false); [exact G| |exact ON| |reflexivity|reflexivity|exact F]; unfold cancel; cbn [with_tmr k_rnum]; rewrite RN; [|exact CN].
      apply inv_conn; auto.
    + replace (o ++ OTimeout c :: o3) with ((o ++ [OTimeout c]) ++ o3) by (rewrite <- app_assoc; reflexivity).
      eapply (inv_dispatch g _ _ c (cancelled (with_tmr x false)) false); [exact G| | | |reflexivity|reflexivity|exact F].
      * eapply inv_cancel; [exact V|exact X|left; reflexivity|reflexivity|reflexivity].
      * rewrite openof_snoc. cbn [ostep]. rewrite Z.eqb_refl. reflexivity.
      * unfold cancel. cbn [with_tmr k_rnum]. destruct (k_rnum x); exact CN.
  - eapply inv_end_api; eassumption.
Qed.
Lemma inv_run : forall g l m o m2 o2, 1 <= g <= 65535 -> inv g m o -> mrun m l = (m2, o2) -> inv g m2 (o ++ o2).
Proof.
  intros g. induction l as [|e t IH]; intros m o m2 o2 G V E; cbn [mrun] in E.
  { injection E as <- <- . now rewrite app_nil_r. }
  destruct (mstep m e) as [m1 o1] eqn:E1. destruct (mrun m1 t) as [m3 o3] eqn:E2. injection E as <- <- .
  rewrite app_assoc. eapply IH; [exact G| |exact E2]. eapply inv_step; eassumption.
Qed.
Lemma inv_start : forall g, 1 <= g <= 65535 -> inv g (mstart g) [].
Proof.
  intros g G. constructor; cbn; try discriminate; try lia; try (intros; reflexivity).
  - unfold rec_at. change (zlen []) with 0. lia.
  - intros [|? ?] ? ? X; discriminate.
  - intros [|? ?] ? ? ? ? X; discriminate.
Qed.
Lemma inv_from_start : forall g l m o, 1 <= g <= 65535 -> mrun (mstart g) l = (m, o) -> inv g m o.
Proof. intros g l m o G E. exact (inv_run g l _ [] m o G (inv_start g G) E). Qed.

(** * Theorems *)
(** Every receipt number drawn is in 1..65535 and differs from each of the
    65534 drawn before it, and the request sent next carries it. *)
Theorem mop_receipts : forall g l m o, 1 <= g <= 65535 -> mrun (mstart g) l = (m, o) ->
  (forall a b r d, draws o = a ++ b ++ r :: d -> 1 <= r <= 65535 /\ (zlen b <= 65534 -> ~ In r b)) /\
  (forall a c k r b, o = a ++ OSend c k r :: b -> exists p, draws a = p ++ [r]).
Proof.
  intros g l m o G E. assert (V := inv_from_start g l m o G E). split.
  - intros a b r d H.
    assert (R : r = rec_at g (zlen (a ++ b))) by (apply (v_draw _ _ _ V _ _ d); rewrite <- app_assoc; exact H).
    split; [rewrite R; apply rec_range|]. intros LB IN. apply in_split in IN. destruct IN as (b1 & b2 & -> ).
    assert (R2 : r = rec_at g (zlen (a ++ b1))).
    { apply (v_draw _ _ _ V _ _ (b2 ++ r :: d)). rewrite H. rewrite <- !app_assoc. reflexivity. }
    rewrite !zlen_app, zlen_cons in *. assert (A := zlen_nonneg _ a). assert (B := zlen_nonneg _ b1). assert (C := zlen_nonneg _ b2).
    unfold rec_at in *. lia.
  - intros a c k r b H. destruct (v_send _ _ _ V _ _ _ _ _ H) as [A B].
    assert (NE : draws a <> []) by (intros F; rewrite F in A; change (zlen []) with 0 in A; lia).
    destruct (exists_last NE) as (p & z & EZ). exists p. rewrite EZ. f_equal. f_equal.
    assert (D : draws o = p ++ z :: draws b) by (rewrite H, draws_app, EZ; cbn [draws]; rewrite <- app_assoc; reflexivity).
    rewrite (v_draw _ _ _ V _ _ _ D), B, EZ, zlen_app, zlen_cons, zlen_nil. f_equal. lia.
Qed.
(** A reply is handed over only as the answer to a request that is still open:
    the connection sent a request with this receipt on this circuit, and since
    then it got no reply, no timeout, was not cancelled and sent nothing else,
    and no reply with this receipt was handed to anybody. *)
Theorem mop_reply_matched : forall g l m o, 1 <= g <= 65535 -> mrun (mstart g) l = (m, o) ->
  forall o1 c k r o2, o = o1 ++ OReply c k r :: o2 ->
  exists a b, o1 = a ++ OSend c k r :: b /\ quiet c b /\ Forall (fun e => answers k r e = false) b.
Proof.
  intros g l. cut (forall m0 o0 m o, 1 <= g <= 65535 -> inv g m0 o0 -> mrun m0 l = (m, o) -> forall o1 c k r o2, o = o1 ++ OReply c k r :: o2 -> openof c (o0 ++ o1) = Some (k, r) /\ holder (k, r) (o0 ++ o1) = Some c).
  { intros H m o G E o1 c k r o2 S2. destruct (H _ [] _ _ G (inv_start g G) E _ _ _ _ _ S2) as [A B]. cbn [app] in *.
    destruct (open_split _ _ _ _ A) as (a & b & E1 & Q). destruct (hold_split _ _ _ _ B) as (a2 & b2 & E2 & Q2 & N2).
    exists a, b. repeat split; [exact E1|exact Q|].
    (* the two splits are the same *)
    assert (X : exists w, b2 = w ++ b \/ b = w ++ OSend c k r :: b2).
    { rewrite E1 in E2. clear - E2. revert a2 E2. induction a as [|y a IH]; intros [|z a2] E2; cbn [app] in E2.
      - injection E2 as -> . exists []. left. reflexivity.
      - injection E2 as _ E2. exists a2. right. exact E2.
      - exists (a ++ [OSend c k r]). left. injection E2 as _ E2. rewrite <- E2, <- app_assoc. reflexivity.
      - injection E2 as _ E2. exact (IH _ E2). }
    destruct X as [w [-> | -> ]].
    - apply Forall_app in Q2. apply Q2.
    - exfalso. apply Forall_app in Q. destruct Q as [_ Q]. inversion Q as [|? ? H1 H2]; subst. cbn [ends] in H1. rewrite Z.eqb_refl in H1. discriminate. }
  induction l as [|e t IH]; intros m0 o0 m o G V E o1 c k r o2 S2; cbn [mrun] in E.
  { injection E as <- <- . destruct o1; discriminate. }
  destruct (mstep m0 e) as [m1 p1] eqn:E1. destruct (mrun m1 t) as [m3 o3] eqn:E2. injection E as <- <- .
  assert (V1 := inv_step g m0 o0 e m1 p1 G V E1).
  assert (X : (exists w, p1 = o1 ++ OReply c k r :: w) \/ exists w, o1 = p1 ++ w /\ o3 = w ++ OReply c k r :: o2).
  { clear - S2. revert p1 S2. induction o1 as [|y o1 IH]; intros [|z p1] S2; cbn [app] in *.
    - right. exists []. auto.
    - left. injection S2 as -> _. exists p1. reflexivity.
    - right. exists (y :: o1). auto.
    - injection S2 as -> S2. destruct (IH _ S2) as [[w -> ]|(w & -> & -> )]; [left; exists w; reflexivity|right; exists w; auto]. }
  destruct X as [[w W]|(w & -> & W)].
  2:{ rewrite app_assoc. eapply IH; [exact G|exact V1|exact E2|exact W]. }
  (* the reply is an output of this step *)
  clear IH E2 S2 V1. rewrite W in E1. clear W p1.
  assert (NS : forall m c0 x m2 p, send_req m c0 x = (m2, p) -> ~ In (OReply c k r) p).
  { intros m c0 x m2 p F IN. unfold send_req in F. destruct (rnext _) as [? ?]. injection F as <- <- . destruct IN as [F|[F|[]]]; discriminate. }
  assert (ND : forall m c0 x b m2 p, loop_dispatch m c0 x b = (m2, p) -> ~ In (OReply c k r) p).
  { intros m c0 x b m2 p F. unfold loop_dispatch in F. cbn zeta in F.
    repeat match type of F with (if ?z then _ else _) = _ => destruct z end; try (eapply NS; exact F); injection F as <- <- ; intros IN; cbn [In] in IN; intuition discriminate. }
  assert (NE : forall cl q m m2 p, end_api m cl q = (m2, p) -> ~ In (OReply c k r) p).
  { intros cl. induction q as [|d q IHq]; intros m m2 p F; cbn [end_api] in F; [injection F as <- <- ; intros []|].
    destruct (dget _ _ d); [|eapply IHq; exact F]. destruct (_ && _); [|eapply IHq; exact F].
    destruct (end_api _ cl q) as [m4 p4] eqn:F4. injection F as <- <- . intros [F|F]; [discriminate|]. exact (IHq _ _ _ F4 F). }
  assert (IN : In (OReply c k r) (o1 ++ OReply c k r :: w)) by (apply in_or_app; right; left; reflexivity).
  destruct e as [cl k0 packets fast nml long|cl k0|k0 r0|c0|cl]; cbn [mstep] in E1; cbn zeta in E1.
  - exfalso. destruct (packets <? 1); [injection E1 as _ F; rewrite <- F in IN; destruct IN|].
    destruct (rnext _) as [rr gg]. destruct long; [injection E1 as _ F; rewrite <- F in IN; cbn [In] in IN; intuition discriminate|].
    destruct (send_req _ _ _) as [m4 p4] eqn:F4. injection E1 as _ F. rewrite <- F in IN. destruct IN as [IN|IN]; [discriminate|exact (NS _ _ _ _ _ F4 IN)].
  - exfalso. destruct (end_api _ _ _) as [m4 p4] eqn:F4. injection E1 as _ F. rewrite <- F in IN. destruct IN as [IN|IN]; [discriminate|exact (NE _ _ _ _ _ F4 IN)].
  - destruct (r0 =? 0); [injection E1 as _ F; rewrite <- F in IN; destruct IN|].
    destruct (dget key_eqb _ _) as [c1|] eqn:RQ; [|injection E1 as _ F; rewrite <- F in IN; destruct IN].
    destruct (dget Z.eqb _ c1) as [x|] eqn:X; [|injection E1 as _ F; rewrite <- F in IN; destruct IN].
    destruct (loop_dispatch _ _ _ _) as [m4 p4] eqn:F4. injection E1 as _ F.
    destruct o1 as [|y o1].
    + injection F as -> -> -> _. rewrite app_nil_r. exact (v_req _ _ _ V _ _ RQ).
    + exfalso. injection F as _ F. apply (ND _ _ _ _ _ _ F4). rewrite F. apply in_or_app. right. left. reflexivity.
  - exfalso. destruct (dget _ _ c0) as [x|]; [|injection E1 as _ F; rewrite <- F in IN; destruct IN].
    destruct (k_tmr x); [|injection E1 as _ F; rewrite <- F in IN; destruct IN].
    destruct (loop_dispatch _ _ _ _) as [m4 p4] eqn:F4. injection E1 as _ F. rewrite <- F in IN. apply in_app_or in IN.
    destruct IN as [IN|IN]; [destruct (k_wait x); cbn [In] in IN; intuition discriminate|exact (ND _ _ _ _ _ _ F4 IN)].
  - exfalso. exact (NE _ _ _ _ _ E1 IN).
Qed.
(** A received reply is handed over at most once, and as it was received: for
    its own circuit and receipt number.  Nothing else hands over replies. *)
Definition is_reply (e : mout) : bool := match e with OReply _ _ _ => true | _ => false end.
Theorem mop_reply_once : forall m e m2 o, mstep m e = (m2, o) ->
  match e with
  | MReply k r => filter is_reply o = [] \/ exists c, filter is_reply o = [OReply c k r]
  | _ => filter is_reply o = []
  end.
Proof.
  assert (NS : forall m c0 x, filter is_reply (snd (send_req m c0 x)) = []) by (intros; unfold send_req; destruct (rnext _); reflexivity).
  assert (ND : forall m c0 x b, filter is_reply (snd (loop_dispatch m c0 x b)) = []).
  { intros m c0 x b. unfold loop_dispatch. cbn zeta. repeat match goal with |- context [if ?z then _ else _] => destruct z end; try apply NS; reflexivity. }
  assert (NE : forall cl q m, filter is_reply (snd (end_api m cl q)) = []).
  { intros cl. induction q as [|d q IHq]; intros m; cbn [end_api]; [reflexivity|].
    destruct (dget _ _ d); [|apply IHq]. destruct (_ && _); [|apply IHq]. specialize (IHq (cancel m d c)). destruct (end_api _ cl q). cbn [snd filter is_reply] in *. exact IHq. }
  intros m e m2 o E. apply (f_equal snd) in E. cbn [snd] in E. subst o.
  destruct e as [cl k0 packets fast nml long|cl k0|k0 r0|c0|cl]; cbn [mstep]; cbn zeta.
  - destruct (packets <? 1); [reflexivity|]. destruct (rnext _). destruct long; [reflexivity|].
    match goal with |- context [send_req ?a ?b ?c] => specialize (NS a b c); destruct (send_req a b c) end. exact NS.
  - specialize (NE cl (dkeys (m_conns m)) m). destruct (end_api _ _ _). exact NE.
  - destruct (r0 =? 0); [left; reflexivity|]. destruct (dget key_eqb _ _) as [c1|]; [|left; reflexivity]. destruct (dget Z.eqb _ c1) as [x|]; [|left; reflexivity].
    match goal with |- context [loop_dispatch ?a ?b ?c ?d] => specialize (ND a b c d); destruct (loop_dispatch a b c d) as [m3 o3] end.
    right. exists c1. cbn [snd filter is_reply] in *. rewrite ND. reflexivity.
  - destruct (dget _ _ c0) as [x|]; [|reflexivity]. destruct (k_tmr x); [|reflexivity].
    match goal with |- context [loop_dispatch ?a ?b ?c ?d] => specialize (ND a b c d); destruct (loop_dispatch a b c d) as [m3 o3] end.
    cbn [snd] in *. destruct (k_wait x); exact ND.
  - apply NE.
Qed.
(** As long as no request stays open while 65535 more receipts are drawn, an
    open request gets the reply that carries its receipt, and its timer can
    give it up. *)
Theorem mop_reply_delivered : forall g l m o a c k r b, 1 <= g <= 65535 -> mrun (mstart g) l = (m, o) ->
  short_lived o -> o = a ++ OSend c k r :: b -> quiet c b ->
  (exists t, snd (mstep m (MReply k r)) = OReply c k r :: t) /\ exists t, snd (mstep m (MTimeout c)) = OTimeout c :: t.
Proof.
  intros g l m o a c k r b G E SL S2 Q. assert (V := inv_from_start g l m o G E).
  assert (OP : openof c o = Some (k, r)).
  { rewrite S2. clear - Q. unfold openof. rewrite fold_left_app. cbn [fold_left ostep]. rewrite Z.eqb_refl.
    induction b as [|e b IH]; [reflexivity|]. inversion Q as [|? ? Q1 Q2]; subst. cbn [fold_left].
    assert (X : ostep c (Some (k, r)) e = Some (k, r)) by (destruct e; cbn [ostep ends] in *; rewrite ?Q1; reflexivity). rewrite X. exact (IH Q2). }
  assert (RQ := v_rev _ _ _ V SL _ _ OP).
  destruct (dget Z.eqb (m_conns m) c) as [x|] eqn:X; [|rewrite (v_none _ _ _ V c X) in OP; discriminate].
  assert (P := v_open _ _ _ V c x X). rewrite OP in P. destruct P as [P1 P2].
  destruct (v_tmr _ _ _ V c x X) as [T1 T2]; [congruence|].
  destruct (v_send _ _ _ V _ _ _ _ _ S2) as [_ RR]. assert (RG := rec_range g (zlen (draws a) - 1)). rewrite <- RR in RG.
  split.
  - cbn [mstep]. replace (r =? 0) with false by lia. rewrite RQ. cbn [m_conns setreqs]. rewrite X. destruct (loop_dispatch _ _ _ _) as [m3 o3]. exists o3. reflexivity.
  - cbn [mstep]. rewrite X, T1, T2. destruct (loop_dispatch _ _ _ _) as [m3 o3]. exists o3. reflexivity.
Qed.

(** ** The course of one connection *)
Definition about (c : Z) (e : mout) : bool := match e with OSend d _ _ | OReply d _ _ | OTimeout d | OCancel d | ODone d => d =? c | _ => false end.
Definition pdisp (r c : Z) (x : conn) (reply : bool) : conn * list mout :=
  let x1 := with_left x (k_left x - 1) in
  let again y := (with_req y (Some r), [OSend c (k_circ x) r]) in
  if reply then if k_left x1 =? 0 then (x1, [ODone c]) else if k_fast x then again x1 else (with_wait x1, [])
  else if k_wait x then again x else if k_nml x then (x, [ODone c]) else if k_left x1 =? 0 then (x1, [ODone c]) else again x1.
Inductive cstep (c : Z) (x : conn) : conn -> list mout -> Prop :=
  | c_same : cstep c x x []
  | c_cancel : k_listed x = true -> cstep c x (cancelled x) [OCancel c]
  | c_reply : forall k r r2 y t, k_rnum x <> None -> pdisp r2 c (cancelled x) true = (y, t) -> cstep c x y (OReply c k r :: t)
  | c_timeout : forall r2 y t, k_tmr x = true -> pdisp r2 c (cancelled (with_tmr x false)) false = (y, t) -> cstep c x y ((if k_wait x then [] else [OTimeout c]) ++ t).
Lemma send_req_c : forall m c x, exists r, dget Z.eqb (m_conns (fst (send_req m c x))) c = Some (with_req x (Some r)) /\ filter (about c) (snd (send_req m c x)) = [OSend c (k_circ x) r].
Proof.
  intros. unfold send_req. destruct (rnext _) as [r g2]. exists r. cbn [fst snd m_conns putconn setconns filter about]. rewrite (dget_dset_same Z.eqb decides_Z), Z.eqb_refl. auto.
Qed.
Lemma send_req_d : forall m c d x, d <> c -> dget Z.eqb (m_conns (fst (send_req m c x))) d = dget Z.eqb (m_conns m) d /\ filter (about d) (snd (send_req m c x)) = [].
Proof.
  intros m c d x N. unfold send_req. destruct (rnext _) as [r g2]. cbn [fst snd m_conns putconn setconns setreqs setgen filter about].
  rewrite (dget_dset_other Z.eqb decides_Z) by exact N. replace (c =? d) with false by lia. auto.
Qed.
Lemma disp_c : forall m c x b, dget Z.eqb (m_conns m) c = Some x -> exists r, pdisp r c x b = match dget Z.eqb (m_conns (fst (loop_dispatch m c x b))) c with Some y => (y, filter (about c) (snd (loop_dispatch m c x b))) | None => (x, [ODone (c + 1)]) end.
Proof.
  intros m c x b X. unfold loop_dispatch, pdisp. cbn zeta. cbn [with_left k_fast].
  repeat match goal with |- context [if ?z then _ else _] => destruct z end;
  try (match goal with |- context [send_req ?a ?b ?d] => destruct (send_req_c a b d) as (r & A & B); exists r; rewrite A, B; reflexivity end);
  exists 0; cbn [fst snd m_conns putconn setconns filter about]; rewrite ?(dget_dset_same Z.eqb decides_Z), ?X, ?Z.eqb_refl; reflexivity.
Qed.
Lemma disp_d : forall m c d x b, d <> c -> dget Z.eqb (m_conns (fst (loop_dispatch m c x b))) d = dget Z.eqb (m_conns m) d /\ filter (about d) (snd (loop_dispatch m c x b)) = [].
Proof.
  intros m c d x b N. unfold loop_dispatch. cbn zeta.
  repeat match goal with |- context [if ?z then _ else _] => destruct z end; try (apply send_req_d; exact N);
  cbn [fst snd m_conns putconn setconns filter about]; rewrite ?(dget_dset_other Z.eqb decides_Z) by exact N; replace (c =? d) with false by lia; auto.
Qed.
Lemma cancel_conns : forall m c x d, dget Z.eqb (m_conns (cancel m c x)) d = if d =? c then Some (cancelled x) else dget Z.eqb (m_conns m) d.
Proof. intros. unfold cancel. cbn [m_conns putconn setconns]. rewrite (dget_dset Z.eqb decides_Z). destruct (k_rnum x); reflexivity. Qed.
Lemma end_api_c : forall cl c l m x, dget Z.eqb (m_conns m) c = Some x ->
  exists y, dget Z.eqb (m_conns (fst (end_api m cl l))) c = Some y /\
  (y = x /\ filter (about c) (snd (end_api m cl l)) = [] \/ k_listed x = true /\ y = cancelled x /\ filter (about c) (snd (end_api m cl l)) = [OCancel c]) /\
  (In c l -> k_listed x = true -> k_client x = cl -> filter (about c) (snd (end_api m cl l)) = [OCancel c]).
Proof.
  intros cl c. induction l as [|d t IH]; intros m x X; cbn [end_api].
  { exists x. cbn [fst snd filter]. split; [exact X|]. split; [auto|]. intros []. }
  destruct (Z.eq_dec d c) as [-> |ND].
  - rewrite X. destruct (k_listed x && (k_client x =? cl)) eqn:Q.
    + assert (X2 : dget Z.eqb (m_conns (cancel m c x)) c = Some (cancelled x)) by (rewrite cancel_conns, Z.eqb_refl; reflexivity).
      destruct (IH _ _ X2) as (y & Y1 & Y2 & _). destruct (end_api (cancel m c x) cl t) as [m1 o1]. cbn [fst snd] in *. exists y. split; [exact Y1|].
      destruct Y2 as [[-> Y2]|[F _]]; [|discriminate]. cbn [filter about]. rewrite Z.eqb_refl, Y2. split; [right; split; [apply andb_true_iff in Q; apply Q|auto]|reflexivity].
    + destruct (IH _ _ X) as (y & Y1 & Y2 & Y3). exists y. split; [exact Y1|]. split; [exact Y2|]. intros _ A B. rewrite A in Q. lia.
  - destruct (dget Z.eqb (m_conns m) d) as [z|] eqn:Zd.
    + destruct (k_listed z && (k_client z =? cl)).
      * assert (X2 : dget Z.eqb (m_conns (cancel m d z)) c = Some x) by (rewrite cancel_conns; replace (c =? d) with false by lia; exact X).
        destruct (IH _ _ X2) as (y & Y1 & Y2 & Y3). destruct (end_api (cancel m d z) cl t) as [m1 o1]. cbn [fst snd] in *. exists y. split; [exact Y1|].
        cbn [filter about]. replace (d =? c) with false by lia. split; [exact Y2|]. intros [F|F]; [contradiction|auto].
      * destruct (IH _ _ X) as (y & Y1 & Y2 & Y3). exists y. split; [exact Y1|]. split; [exact Y2|]. intros [F|F]; [contradiction|auto].
    + destruct (IH _ _ X) as (y & Y1 & Y2 & Y3). exists y. split; [exact Y1|]. split; [exact Y2|]. intros [F|F]; [contradiction|auto].
Qed.
Lemma step_c : forall g m o e m2 o2 c x, inv g m o -> mstep m e = (m2, o2) -> dget Z.eqb (m_conns m) c = Some x ->
  exists y, dget Z.eqb (m_conns m2) c = Some y /\ cstep c x y (filter (about c) o2).
Proof.
  intros g m o e m2 o2 c x V E X. assert (CN := v_old _ _ _ V c x X).
  destruct e as [cl k packets fast nml long|cl k|k r|d|cl]; cbn [mstep] in E; cbn zeta in E.
  - match type of E with context [dset Z.eqb (m_conns m) (m_next m) ?z] => set (z0 := z) in * end.
    assert (X1 : dget Z.eqb (dset Z.eqb (m_conns m) (m_next m) z0) c = Some x) by (rewrite (dget_dset_other Z.eqb decides_Z); [exact X|lia]).
    exists x. destruct (packets <? 1). { injection E as <- <- . split; [exact X1|constructor]. }
    destruct (rnext _) as [r gg]. destruct long. { injection E as <- <- . split; [exact X1|constructor]. }
    match type of E with context [send_req ?a ?b ?cc] => destruct (send_req_d a b c cc) as [A B]; [lia|]; destruct (send_req a b cc) as [m3 o3] end. cbn [fst snd] in *.
    injection E as <- <- . rewrite A. cbn [filter about]. rewrite B. split; [exact X1|constructor].
  - destruct (end_api_c cl c (dkeys (m_conns m)) m x X) as (y & Y1 & Y2 & _). destruct (end_api _ _ _) as [m1 o1]. cbn [fst snd] in *. injection E as <- <- .
    exists y. split; [exact Y1|]. cbn [filter about]. destruct Y2 as [[-> -> ]|(L & -> & -> )]; [constructor|constructor; exact L].
  - destruct (r =? 0). { injection E as <- <- . exists x. split; [exact X|constructor]. }
    destruct (dget key_eqb (m_reqs m) (k, r)) as [d|] eqn:RQ; [|injection E as <- <- ; exists x; split; [exact X|constructor]].
    cbn [m_conns setreqs] in E. destruct (dget Z.eqb (m_conns m) d) as [z|] eqn:ZZ; [|injection E as <- <- ; exists x; split; [exact X|constructor]].
    destruct (Z.eq_dec d c) as [-> |ND].
    + assert (z = x) by congruence. subst z. destruct (v_req _ _ _ V _ _ RQ) as [OP _]. assert (P := v_open _ _ _ V c x X). rewrite OP in P.
      match type of E with context [loop_dispatch ?a ?b ?cc true] => destruct (disp_c a b cc true) as [r2 A]; [rewrite cancel_conns, Z.eqb_refl; reflexivity|]; pose proof (inv_dispatch) as _; destruct (loop_dispatch a b cc true) as [m3 o3] end.
      cbn [fst snd] in A. injection E as <- <- . cbn [filter about]. rewrite Z.eqb_refl.
      destruct (dget Z.eqb (m_conns m3) c) as [y|] eqn:Y.
      * exists y. split; [reflexivity|]. eapply c_reply; [|exact A]. destruct P. congruence.
      * exfalso. clear - A. unfold pdisp in A. cbn zeta in A. repeat match type of A with (if ?z then _ else _) = _ => destruct z end; apply (f_equal snd) in A; cbn [snd] in A; try discriminate; injection A as A; lia.
    + match type of E with context [loop_dispatch ?a ?b ?cc true] => destruct (disp_d a b c cc true) as [A B]; [lia|]; destruct (loop_dispatch a b cc true) as [m3 o3] end.
      cbn [fst snd] in *. injection E as <- <- . exists x. rewrite A, cancel_conns. replace (c =? d) with false by lia. split; [exact X|]. cbn [filter about]. replace (d =? c) with false by lia. rewrite B. constructor.
  - destruct (dget Z.eqb (m_conns m) d) as [z|] eqn:ZZ; [|injection E as <- <- ; exists x; split; [exact X|constructor]].
    destruct (k_tmr z) eqn:T; [|injection E as <- <- ; exists x; split; [exact X|constructor]].
    destruct (Z.eq_dec d c) as [-> |ND].
    + assert (z = x) by congruence. subst z.
      match type of E with context [loop_dispatch ?a ?b ?cc false] => destruct (disp_c a b cc false) as [r2 A]; [rewrite cancel_conns, Z.eqb_refl; reflexivity|]; destruct (loop_dispatch a b cc false) as [m3 o3] end.
      cbn [fst snd] in A. injection E as <- <- . rewrite filter_app.
      replace (filter (about c) (if k_wait x then [] else [OTimeout c])) with (if k_wait x then [] else [OTimeout c]) by (destruct (k_wait x); cbn [filter about]; rewrite ?Z.eqb_refl; reflexivity).
      destruct (dget Z.eqb (m_conns m3) c) as [y|] eqn:Y.
      * exists y. split; [reflexivity|]. eapply c_timeout; [exact T|exact A].
      * exfalso. clear - A. unfold pdisp in A. cbn zeta in A. repeat match type of A with (if ?z then _ else _) = _ => destruct z end; apply (f_equal snd) in A; cbn [snd] in A; try discriminate; injection A as A; lia.
    + match type of E with context [loop_dispatch ?a ?b ?cc false] => destruct (disp_d a b c cc false) as [A B]; [lia|]; destruct (loop_dispatch a b cc false) as [m3 o3] end.
      cbn [fst snd] in *. injection E as <- <- . exists x. rewrite A, cancel_conns. replace (c =? d) with false by lia. split; [exact X|].
      rewrite filter_app, B. destruct (k_wait z); cbn [filter about app]; [constructor|]. replace (d =? c) with false by lia. constructor.
  - destruct (end_api_c cl c (dkeys (m_conns m)) m x X) as (y & Y1 & Y2 & _). rewrite E in *. cbn [fst snd] in *.
    exists y. split; [exact Y1|]. destruct Y2 as [[-> -> ]|(L & -> & -> )]; [constructor|constructor; exact L].
Qed.
Definition count (f : mout -> bool) (o : list mout) : Z := zlen (filter f o).
Definition is_send (c : Z) (e : mout) : bool := match e with OSend d _ _ => d =? c | _ => false end.
Definition is_answer (c : Z) (e : mout) : bool := match e with OReply d _ _ | OTimeout d => d =? c | _ => false end.
Definition is_done (c : Z) (e : mout) : bool := match e with ODone d => d =? c | _ => false end.
Lemma count_app : forall f a b, count f (a ++ b) = count f a + count f b.
Proof. intros. unfold count. rewrite filter_app. apply zlen_app. Qed.
Lemma count_about : forall c f o, (forall e, f e = true -> about c e = true) -> count f (filter (about c) o) = count f o.
Proof.
  intros c f o H. unfold count. f_equal. induction o as [|e o IH]; [reflexivity|]. cbn [filter]. destruct (about c e) eqn:A; cbn [filter].
  - destruct (f e); rewrite IH; reflexivity.
  - destruct (f e) eqn:F; [rewrite (H e F) in A; discriminate|exact IH].
Qed.
Record course (p : Z) (nml : bool) (cl : Z) (c : Z) (x : conn) (o : list mout) : Prop := {
  u_client : k_client x = cl; u_nml : k_nml x = nml;
  u_left : 0 <= k_left x <= p;
  u_live : k_tmr x = true -> 1 <= k_left x /\ count (is_done c) o = 0 /\ count (is_answer c) o = p - k_left x /\ count (is_send c) o = p - k_left x + (match k_rnum x with Some _ => 1 | None => 0 end);
  u_rnum : k_rnum x <> None -> k_tmr x = true /\ k_wait x = false;
  u_send : 1 <= count (is_send c) o <= p;
  u_wait : k_wait x = true -> k_listed x = false;
  u_twait : k_rnum x = None -> k_tmr x = true -> k_wait x = true;
  u_list : k_listed x = true -> k_rnum x <> None;
  u_unl : k_listed x = false -> existsb (fun e => match e with OReply d _ _ | OTimeout d | OCancel d => d =? c | _ => false end) o = true;
  u_done : count (is_done c) o <= 1 /\ (count (is_done c) o = 1 -> k_tmr x = false /\ k_listed x = false /\ count (is_answer c) o = count (is_send c) o /\ (nml = false -> count (is_send c) o = p));
  u_alive : k_tmr x = true \/ count (is_done c) o = 1 \/ In (OCancel c) o }.
Ltac counts := unfold count in *; cbn [filter is_send is_answer is_done app] in *; rewrite ?Z.eqb_refl in *; cbn [app] in *; rewrite ?zlen_cons, ?zlen_nil in *.
Lemma course_app : forall p nml cl c x o y t, course p nml cl c x o -> cstep c x y t -> course p nml cl c y (o ++ t).
Proof.
  intros p nml cl c x o y t U ST.
  assert (CD : forall b, 0 <= count (is_done c) b) by (intros; apply zlen_nonneg).
  destruct U. destruct ST as [ | L | k r r2 y t RN PD | r2 y t TM PD ].
  - rewrite app_nil_r. constructor; assumption.
  - assert (RN := u_list0 L). destruct (u_rnum0 RN) as [TM W]. destruct (u_live0 TM) as (A1 & A2 & A3 & A4).
    destruct (k_rnum x) eqn:R; [|contradiction].
    constructor; cbn [cancelled k_client k_nml k_left k_tmr k_rnum k_wait k_listed]; rewrite ?R, ?count_app; try assumption; try discriminate; try congruence.
    + counts. lia.
    + intros _. rewrite existsb_app. cbn [existsb]. rewrite Z.eqb_refl. apply orb_true_r.
    + counts. split; [lia|]. intros F. lia.
    + right. right. apply in_or_app. right. left. reflexivity.
  - destruct (u_rnum0 RN) as [TM W]. destruct (u_live0 TM) as (A1 & A2 & A3 & A4). destruct (k_rnum x) eqn:R; [|contradiction].
    assert (EX : forall s, existsb (fun e => match e with OReply d _ _ | OTimeout d | OCancel d => d =? c | _ => false end) (o ++ OReply c k r :: s) = true).
    { intros s. rewrite existsb_app. cbn [existsb]. rewrite Z.eqb_refl. apply orb_true_r. }
    unfold pdisp in PD. cbn zeta in PD. unfold cancelled, with_left in PD. cbn [k_left k_fast k_circ k_client k_tmr k_rnum k_wait k_listed k_nml] in PD. rewrite R in PD.
    destruct (k_left x - 1 =? 0) eqn:Z0; [|destruct (k_fast x)]; injection PD as <- <- ;
      unfold with_req, with_wait; constructor; cbn [k_client k_nml k_left k_tmr k_rnum k_wait k_listed]; rewrite ?count_app; try assumption; try discriminate; try congruence; try (intros; apply EX); try (left; reflexivity); try (right; left; counts; lia); counts; try lia; intros; repeat split; try discriminate; try congruence; lia.
  - destruct (u_live0 TM) as (A1 & A2 & A3 & A4).
    unfold pdisp in PD. cbn zeta in PD. unfold cancelled, with_left, with_tmr in PD. cbn [k_left k_fast k_circ k_client k_tmr k_rnum k_wait k_listed k_nml] in PD.
    destruct (k_wait x) eqn:W.
    + assert (RN : k_rnum x = None) by (destruct (k_rnum x) eqn:R; [destruct u_rnum0; congruence|reflexivity]). rewrite RN in *.
      assert (EX : forall s, existsb (fun e => match e with OReply d _ _ | OTimeout d | OCancel d => d =? c | _ => false end) (o ++ s) = true).
      { intros s. rewrite existsb_app. rewrite u_unl0 by auto. reflexivity. }
      injection PD as <- <- . cbn [app]. unfold with_req; constructor; cbn [k_client k_nml k_left k_tmr k_rnum k_wait k_listed]; rewrite ?count_app; try assumption; try discriminate; try congruence; try (intros; apply EX); try (left; reflexivity); try (right; left; counts; lia); counts; try lia; intros; repeat split; try discriminate; try congruence; lia.
    + destruct (k_rnum x) eqn:R; [|exfalso; assert (false = true) by auto; discriminate].
      assert (EX : forall s, existsb (fun e => match e with OReply d _ _ | OTimeout d | OCancel d => d =? c | _ => false end) (o ++ [OTimeout c] ++ s) = true).
      { intros s. rewrite existsb_app. cbn [app existsb]. rewrite Z.eqb_refl. apply orb_true_r. }
      destruct (k_nml x) eqn:NM; [|destruct (k_left x - 1 =? 0) eqn:Z0]; injection PD as <- <- ;
        unfold with_req; constructor; cbn [k_client k_nml k_left k_tmr k_rnum k_wait k_listed]; rewrite ?count_app; try assumption; try discriminate; try congruence; try (intros; apply EX); try (left; reflexivity); try (right; left; counts; lia); counts; try lia; intros; repeat split; try discriminate; try congruence; lia.
Qed.
Lemma cstep_last : forall p nml cl c x o y t, course p nml cl c x o -> cstep c x y t ->
  (count (is_done c) o = 1 -> t = []) /\ (count (is_done c) t = 0 \/ exists a, t = a ++ [ODone c]).
Proof.
  intros p nml cl c x o y t U ST. split.
  - intros D. destruct (u_done _ _ _ _ _ _ U) as [_ H]. destruct (H D) as (A & B & _).
    destruct ST as [ | L | k r r2 y t RN PD | r2 y t TM PD ]; [reflexivity|congruence| |congruence].
    destruct (u_rnum _ _ _ _ _ _ U RN). congruence.
  - destruct ST as [ | L | k r r2 y t RN PD | r2 y t TM PD ]; [left; reflexivity|left; reflexivity| | ];
    unfold pdisp in PD; cbn zeta in PD;
    repeat match type of PD with (if ?z then _ else _) = _ => destruct z end; apply (f_equal snd) in PD; cbn [snd] in PD; subst t;
      try (left; destruct (k_wait x); reflexivity); right.
    + exists [OReply c k r]. reflexivity.
    + exists (if k_wait x then [] else [OTimeout c]). reflexivity.
    + exists (if k_wait x then [] else [OTimeout c]). reflexivity.
Qed.
Lemma course_run : forall g p nml cl c l m o0 o x m2 o2, 1 <= g <= 65535 -> inv g m o0 -> dget Z.eqb (m_conns m) c = Some x ->
  course p nml cl c x o -> (count (is_done c) o = 0 \/ exists a, o = a ++ [ODone c]) -> mrun m l = (m2, o2) ->
  exists y, dget Z.eqb (m_conns m2) c = Some y /\ course p nml cl c y (o ++ filter (about c) o2) /\ (count (is_done c) (o ++ filter (about c) o2) = 0 \/ exists a, o ++ filter (about c) o2 = a ++ [ODone c]).
Proof.
  intros g p nml cl c. induction l as [|e t IH]; intros m o0 o x m2 o2 G V X U D E; cbn [mrun] in E.
  { injection E as <- <- . exists x. cbn [filter]. rewrite app_nil_r. auto. }
  destruct (mstep m e) as [m1 p1] eqn:E1. destruct (mrun m1 t) as [m3 o3] eqn:E2. injection E as <- <- .
  destruct (step_c g m o0 e m1 p1 c x V E1 X) as (y & Y & ST). rewrite filter_app, app_assoc.
  eapply (IH m1 (o0 ++ p1) _ y); [exact G|eapply inv_step; eassumption|exact Y|eapply course_app; eassumption| |exact E2].
  destruct (cstep_last _ _ _ _ _ _ _ _ U ST) as [A B]. destruct (Z.eq_dec (count (is_done c) o) 1) as [D1|D1].
  - rewrite (A D1), app_nil_r. destruct D as [D|D]; [lia|auto].
  - destruct B as [B|[a -> ]]; [|right; exists (o ++ a); rewrite <- app_assoc; reflexivity].
    left. rewrite count_app, B. destruct D as [D|[a -> ]]; [lia|]. exfalso. apply D1. rewrite count_app. unfold count at 2. cbn [filter is_done]. rewrite Z.eqb_refl.
    assert (UD := u_done _ _ _ _ _ _ U). rewrite count_app in UD, D1. unfold count at 2 in UD. unfold count at 2 in D1. cbn [filter is_done] in UD, D1. rewrite Z.eqb_refl in UD, D1.
    rewrite zlen_cons, zlen_nil in *. assert (0 <= count (is_done c) a) by apply zlen_nonneg. lia.
Qed.
Lemma end_api_none : forall cl c l m, dget Z.eqb (m_conns (fst (end_api m cl l))) c = None -> dget Z.eqb (m_conns m) c = None /\ filter (about c) (snd (end_api m cl l)) = [].
Proof.
  intros cl c. induction l as [|d t IH]; intros m H; cbn [end_api] in *; [auto|].
  destruct (dget Z.eqb (m_conns m) d) as [z|] eqn:Zd; [|auto]. destruct (_ && _); [|auto].
  specialize (IH (cancel m d z)). destruct (end_api (cancel m d z) cl t) as [m1 o1]. cbn [fst snd filter about] in *. destruct (IH H) as [A B].
  rewrite cancel_conns in A. rewrite Z.eqb_sym. destruct (c =? d); [discriminate|auto].
Qed.
Lemma disp_some : forall m c x b, dget Z.eqb (m_conns m) c = Some x -> dget Z.eqb (m_conns (fst (loop_dispatch m c x b))) c <> None.
Proof.
  intros m c x b X F. destruct (disp_c m c x b X) as [r A]. rewrite F in A. unfold pdisp in A. cbn zeta in A.
  repeat match type of A with (if ?z then _ else _) = _ => destruct z end; apply (f_equal snd) in A; cbn [snd] in A; try discriminate; injection A as A; lia.
Qed.
Lemma step_none : forall m e m2 o2 c, mstep m e = (m2, o2) -> dget Z.eqb (m_conns m2) c = None -> dget Z.eqb (m_conns m) c = None /\ filter (about c) o2 = [].
Proof.
  intros m e m2 o2 c E H. destruct e as [cl k packets fast nml long|cl k|k r|d|cl]; cbn [mstep] in E; cbn zeta in E.
  - match type of E with context [dset Z.eqb (m_conns m) (m_next m) ?z] => set (z0 := z) in * end.
    assert (N : c <> m_next m -> dget Z.eqb (dset Z.eqb (m_conns m) (m_next m) z0) c = dget Z.eqb (m_conns m) c) by (intros; apply (dget_dset_other Z.eqb decides_Z); assumption).
    assert (N2 : c = m_next m -> dget Z.eqb (dset Z.eqb (m_conns m) (m_next m) z0) c <> None) by (intros -> ; rewrite (dget_dset_same Z.eqb decides_Z); discriminate).
    assert (R : dget Z.eqb (dset Z.eqb (m_conns m) (m_next m) z0) c = None -> dget Z.eqb (m_conns m) c = None) by (intros X; destruct (Z.eq_dec c (m_next m)) as [Q|Q]; [destruct (N2 Q X)|rewrite <- (N Q); exact X]).
    destruct (packets <? 1); [injection E as <- <- ; auto|]. destruct (rnext _) as [r gg]. destruct long; [injection E as <- <- ; auto|].
    match type of E with context [send_req ?a ?b ?cc] => destruct (Z.eq_dec c b) as [Q|Q]; [destruct (send_req_c a b cc) as (r2 & A & B)|destruct (send_req_d a b c cc Q) as [A B]]; destruct (send_req a b cc) as [m3 o3] end;
    cbn [fst snd] in *; injection E as <- <- ; [subst c; congruence|]. cbn [filter about]. rewrite B. split; [|reflexivity]. apply R. rewrite A in H. exact H.
  - pose proof (end_api_none cl c (dkeys (m_conns m)) m) as A. destruct (end_api _ _ _) as [m1 o1]. cbn [fst snd] in *. injection E as <- <- . exact (A H).
  - destruct (r =? 0); [injection E as <- <- ; auto|]. destruct (dget key_eqb (m_reqs m) (k, r)) as [d|]; [|injection E as <- <- ; auto].
    cbn [m_conns setreqs] in E. destruct (dget Z.eqb (m_conns m) d) as [z|] eqn:ZZ; [|injection E as <- <- ; auto].
    match type of E with context [loop_dispatch ?a ?b ?cc true] => destruct (Z.eq_dec c b) as [Q|Q]; [pose proof (disp_some a b cc true) as A|destruct (disp_d a b c cc true Q) as [A B]]; destruct (loop_dispatch a b cc true) as [m3 o3] end;
    cbn [fst snd] in *; injection E as <- <- .
    + subst c. exfalso. apply A; [rewrite cancel_conns, Z.eqb_refl; reflexivity|exact H].
    + rewrite A, cancel_conns in H. replace (c =? d) with false in H by lia. cbn [filter about]. replace (d =? c) with false by lia. auto.
  - destruct (dget Z.eqb (m_conns m) d) as [z|] eqn:ZZ; [|injection E as <- <- ; auto]. destruct (k_tmr z); [|injection E as <- <- ; auto].
    match type of E with context [loop_dispatch ?a ?b ?cc false] => destruct (Z.eq_dec c b) as [Q|Q]; [pose proof (disp_some a b cc false) as A|destruct (disp_d a b c cc false Q) as [A B]]; destruct (loop_dispatch a b cc false) as [m3 o3] end;
    cbn [fst snd] in *; injection E as <- <- .
    + subst c. exfalso. apply A; [rewrite cancel_conns, Z.eqb_refl; reflexivity|exact H].
    + rewrite A, cancel_conns in H. replace (c =? d) with false in H by lia. split; [exact H|]. rewrite filter_app, B. destruct (k_wait z); cbn [filter about app]; [reflexivity|]. replace (d =? c) with false by lia. reflexivity.
  - pose proof (end_api_none cl c (dkeys (m_conns m)) m) as A. rewrite E in A. cbn [fst snd] in A. exact (A H).
Qed.
Lemma run_none : forall l m m2 o2 c, mrun m l = (m2, o2) -> dget Z.eqb (m_conns m2) c = None -> dget Z.eqb (m_conns m) c = None /\ filter (about c) o2 = [].
Proof.
  induction l as [|e t IH]; intros m m2 o2 c E H; cbn [mrun] in E; [injection E as <- <- ; auto|].
  destruct (mstep m e) as [m1 p1] eqn:E1. destruct (mrun m1 t) as [m3 o3] eqn:E2. injection E as <- <- .
  destruct (IH _ _ _ _ E2 H) as [A B]. destruct (step_none _ _ _ _ _ E1 A) as [C D]. rewrite filter_app, B, D. auto.
Qed.
(** A loop request for p packets: it uses a connection that was not used
    before, sends at most p requests, reports its results at most once and then
    does nothing any more; unless it was asked for by network management it
    reports when all p packets were sent and each was answered or given up.
    Until its first packet is answered or given up, the end of its API client
    cancels it. *)
Theorem mop_loop_course : forall g l1 m1 o1 cl k p fast nml m2 o2 l2 m3 o3,
  1 <= g <= 65535 -> 1 <= p ->
  mrun (mstart g) l1 = (m1, o1) -> mstep m1 (MLoop cl k p fast nml false) = (m2, o2) -> mrun m2 l2 = (m3, o3) ->
  exists c r0 r1, o2 = [ODraw r0; ODraw r1; OSend c k r1] /\
  (forall e, In e o1 -> about c e = false) /\
  let o := filter (about c) (o2 ++ o3) in
  count (is_send c) o <= p /\ count (is_done c) o <= 1 /\
  (count (is_done c) o = 1 -> (exists a, o = a ++ [ODone c]) /\ count (is_answer c) o = count (is_send c) o /\ (nml = false -> count (is_send c) o = p)) /\
  ((forall e, In e o3 -> ends c e = false) -> In (OCancel c) (snd (mstep m3 (MEndApi cl)))).
Proof.
  intros g l1 m1 o1 cl k p fast nml m2 o2 l2 m3 o3 G P E1 E2 E3. assert (V := inv_from_start g l1 m1 o1 G E1).
  assert (V2 := inv_step g m1 o1 _ m2 o2 G V E2).
  set (c := m_next m1).
  assert (CN : dget Z.eqb (m_conns m1) c = None) by (destruct (dget _ _ _) eqn:Y; [apply (v_old _ _ _ V) in Y; unfold c in Y; lia|reflexivity]).
  assert (NEW : filter (about c) o1 = []) by (eapply run_none; [exact E1|exact CN]).
  assert (X : exists r0 r1 x, o2 = [ODraw r0; ODraw r1; OSend c k r1] /\ dget Z.eqb (m_conns m2) c = Some x /\ course p nml cl c x [OSend c k r1] /\ k_listed x = true).
  { clear - E2 P. cbn [mstep] in E2. cbn zeta in E2. replace (p <? 1) with false in E2 by lia. destruct (rnext _) as [r0 g0].
    unfold send_req in E2. destruct (rnext _) as [r1 g1]. injection E2 as <- <- . fold c. exists r0, r1. eexists. split; [reflexivity|]. cbn [m_conns putconn setconns].
    split; [apply (dget_dset_same Z.eqb decides_Z)|]. split; [|reflexivity].
    constructor; cbn [with_req k_client k_nml k_left k_tmr k_rnum k_wait k_listed]; try discriminate; try congruence; counts; try lia; intros; repeat split; try discriminate; try lia. }
  destruct X as (r0 & r1 & x & -> & X & U & LX). exists c, r0, r1. split; [reflexivity|]. split.
  { intros e IN. destruct (about c e) eqn:A; [|reflexivity]. assert (In e (filter (about c) o1)) by (apply filter_In; auto). rewrite NEW in *. contradiction. }
  cbn zeta. cbn [app filter about]. rewrite Z.eqb_refl.
  destruct (course_run g p nml cl c l2 m2 _ _ x m3 o3 G V2 X U (or_introl eq_refl) E3) as (y & Y & UY & LY). cbn [app] in *.
  set (o := OSend c k r1 :: filter (about c) o3) in *.
  destruct (u_done _ _ _ _ _ _ UY) as [D1 D2].
  split; [apply (u_send _ _ _ _ _ _ UY)|]. split; [exact D1|]. split.
  - intros D. destruct (D2 D) as (_ & _ & A & B). destruct LY as [LY|LY]; [lia|]. auto.
  - intros Q. assert (LI : k_listed y = true).
    { destruct (k_listed y) eqn:F; [reflexivity|]. apply (u_unl _ _ _ _ _ _ UY) in F. apply existsb_exists in F. destruct F as (e & IN & Fe).
      unfold o in IN. destruct IN as [<- |IN]; [discriminate|]. apply filter_In in IN. destruct IN as [IN _]. specialize (Q e IN). destruct e; cbn [ends] in Q; congruence. }
    cbn [mstep]. destruct (end_api_c cl c (dkeys (m_conns m3)) m3 y Y) as (z & _ & _ & H).
    assert (IN : In (OCancel c) (filter (about c) (snd (end_api m3 cl (dkeys (m_conns m3)))))).
    { rewrite H; [left; reflexivity| |exact LI|apply (u_client _ _ _ _ _ _ UY)]. destruct (in_dec Z.eq_dec c (dkeys (m_conns m3))) as [|F]; [assumption|]. apply (dget_none Z.eqb decides_Z) in F. congruence. }
    apply filter_In in IN. apply IN.
Qed.

(** Until it has reported or was cancelled its timer runs: when that expires,
    the loop gives up the packet it waits for, or sends the next one. *)
Theorem mop_loop_alive : forall g l1 m1 o1 cl k p fast nml m2 o2 l2 m3 o3,
  1 <= g <= 65535 -> 1 <= p ->
  mrun (mstart g) l1 = (m1, o1) -> mstep m1 (MLoop cl k p fast nml false) = (m2, o2) -> mrun m2 l2 = (m3, o3) ->
  exists c r0 r1, o2 = [ODraw r0; ODraw r1; OSend c k r1] /\
  (In (ODone c) o3 \/ In (OCancel c) o3 \/ (exists t, snd (mstep m3 (MTimeout c)) = OTimeout c :: t) \/ exists j r, snd (mstep m3 (MTimeout c)) = [ODraw r; OSend c j r]).
Proof.
  intros g l1 m1 o1 cl k p fast nml m2 o2 l2 m3 o3 G P E1 E2 E3. assert (V := inv_from_start g l1 m1 o1 G E1).
  assert (V2 := inv_step g m1 o1 _ m2 o2 G V E2).
  set (c := m_next m1).
  assert (X : exists r0 r1 x, o2 = [ODraw r0; ODraw r1; OSend c k r1] /\ dget Z.eqb (m_conns m2) c = Some x /\ course p nml cl c x [OSend c k r1]).
  { clear - E2 P. cbn [mstep] in E2. cbn zeta in E2. replace (p <? 1) with false in E2 by lia. destruct (rnext _) as [r0 g0].
    unfold send_req in E2. destruct (rnext _) as [r1 g1]. injection E2 as <- <- . fold c. exists r0, r1. eexists. split; [reflexivity|]. cbn [m_conns putconn setconns].
    split; [apply (dget_dset_same Z.eqb decides_Z)|].
    constructor; cbn [with_req k_client k_nml k_left k_tmr k_rnum k_wait k_listed]; try discriminate; try congruence; try (left; reflexivity); counts; try lia; intros; repeat split; try discriminate; try lia. }
  destruct X as (r0 & r1 & x & -> & X & U). exists c, r0, r1. split; [reflexivity|].
  destruct (course_run g p nml cl c l2 m2 _ _ x m3 o3 G V2 X U (or_introl eq_refl) E3) as (y & Y & UY & _). cbn [app] in *.
  destruct (u_alive _ _ _ _ _ _ UY) as [T|[D|D]].
  - right. right. cbn [mstep]. rewrite Y, T. cbn [k_rnum cancelled with_tmr].
    unfold loop_dispatch. cbn [cancelled with_tmr k_wait k_nml]. destruct (k_wait y) eqn:W.
    + right. unfold send_req. destruct (rnext _) as [r gg]. cbn [snd app]. eexists _, r. reflexivity.
    + left. cbn zeta. destruct (if k_nml y then _ else _) as [m4 o4]. cbn [snd app]. eexists. reflexivity.
  - left. unfold count in D. destruct (filter (is_done c) (OSend c k r1 :: filter (about c) o3)) as [|e t] eqn:F; [discriminate|].
    assert (IN : In e (filter (is_done c) (OSend c k r1 :: filter (about c) o3))) by (rewrite F; left; reflexivity).
    apply filter_In in IN. destruct IN as [IN Q]. destruct e; cbn [is_done] in Q; try discriminate. replace c with c0 in * by lia.
    destruct IN as [IN|IN]; [discriminate|]. apply filter_In in IN. apply IN.
  - right. left. destruct D as [D|D]; [discriminate|]. apply filter_In in D. apply D.
Qed.
(** A loop request without packets, or with a message that is too long, never
    sends anything and never reports. *)
Theorem mop_loop_not_started : forall g l1 m1 o1 cl k p fast nml long m2 o2 l2 m3 o3,
  1 <= g <= 65535 -> p < 1 \/ long = true ->
  mrun (mstart g) l1 = (m1, o1) -> mstep m1 (MLoop cl k p fast nml long) = (m2, o2) -> mrun m2 l2 = (m3, o3) ->
  forall e, In e (o2 ++ o3) -> about (m_next m1) e = true -> e = OCancel (m_next m1).
Proof.
  intros g l1 m1 o1 cl k p fast nml long m2 o2 l2 m3 o3 G P E1 E2 E3. assert (V := inv_from_start g l1 m1 o1 G E1).
  assert (V2 := inv_step g m1 o1 _ m2 o2 G V E2). set (c := m_next m1) in *.
  assert (X : exists x, filter (about c) o2 = [] /\ dget Z.eqb (m_conns m2) c = Some x /\ k_rnum x = None /\ k_tmr x = false).
  { clear - E2 P. cbn [mstep] in E2. cbn zeta in E2. fold c in E2. destruct (p <? 1) eqn:Q.
    - injection E2 as <- <- . eexists. split; [reflexivity|]. split; [apply (dget_dset_same Z.eqb decides_Z)|]. auto.
    - destruct P as [P| -> ]; [lia|]. destruct (rnext _) as [r0 g0]. injection E2 as <- <- . eexists. split; [reflexivity|]. split; [apply (dget_dset_same Z.eqb decides_Z)|]. auto. }
  destruct X as (x & F2 & X & R & T).
  assert (RUN : forall l m o0 x m2 o2, inv g m o0 -> dget Z.eqb (m_conns m) c = Some x -> k_rnum x = None -> k_tmr x = false -> mrun m l = (m2, o2) -> Forall (fun e => e = OCancel c) (filter (about c) o2)).
  { clear - G. induction l as [|e t IH]; intros m o0 x m2 o2 V X R T E; cbn [mrun] in E; [injection E as <- <- ; constructor|].
    destruct (mstep m e) as [mq p1] eqn:E1. destruct (mrun mq t) as [m3 o3] eqn:E2. injection E as <- <- .
    destruct (step_c g m o0 e mq p1 c x V E1 X) as (y & Y & ST). rewrite filter_app. apply Forall_app.
    assert (V1 := inv_step g m o0 e mq p1 G V E1).
    inversion ST as [HY Ht|HL HY Ht|k0 r0 r2 y0 t0 RN PD HY Ht|r2 y0 t0 TM PD HY Ht]; [ | |contradiction|congruence].
    - split; [constructor|]. subst y. eapply IH; eauto.
    - split; [repeat constructor|]. eapply IH; [exact V1|exact Y| | |exact E2]; rewrite <- HY; cbn [cancelled k_rnum k_tmr]; rewrite ?R; auto. }
  specialize (RUN l2 m2 _ x m3 o3 V2 X R T E3). intros e IN A.
  assert (H : In e (filter (about c) (o2 ++ o3))) by (apply filter_In; auto). rewrite filter_app, F2 in H. cbn [app] in H. rewrite Forall_forall in RUN. apply RUN. exact H.
Qed.
Print Assumptions mop_loop_alive.
Print Assumptions mop_loop_not_started.

(** What does not hold. *)
(** Only loop requests can be sent: a counter request (and every other request
    for which MopCircuit.request has to choose the receipt) ends the API client
    instead, and with it the client's own loop requests. *)
Theorem mop_counters_refuted : forall m cl k,
  (forall c j r, ~ In (OSend c j r) (snd (mstep m (MCounters cl k)))) /\
  exists t, snd (mstep m (MCounters cl k)) = OApiError cl :: t /\ t = snd (mstep m (MEndApi cl)).
Proof.
  intros m cl k. cbn [mstep].
  assert (N : forall c j r q m, ~ In (OSend c j r) (snd (end_api m cl q))).
  { intros c j r. induction q as [|d q IH]; intros m0; cbn [end_api]; [intros []|]. destruct (dget _ _ d) as [z|]; [|apply IH]. destruct (_ && _); [|apply IH].
    specialize (IH (cancel m0 d z)). destruct (end_api _ cl q). cbn [snd] in *. intros [F|F]; [discriminate|exact (IH F)]. }
  specialize (fun c j r => N c j r (dkeys (m_conns m)) m). destruct (end_api m cl (dkeys (m_conns m))) as [m1 o1]. cbn [snd] in *. split.
  - intros c j r [F|F]; [discriminate|exact (N c j r F)].
  - exists o1. auto.
Qed.
(** The end of the API client does not cancel a loop request whose first packet
    was answered: it goes on sending and receiving. *)
Theorem mop_end_api_refuted : exists m,
  mrun (mstart 65534) [MLoop 7 1 3 true false false; MReply 1 65535; MEndApi 7; MReply 1 1] =
  (m, [ODraw 65534; ODraw 65535; OSend 0 1 65535; OReply 0 1 65535; ODraw 1; OSend 0 1 1; OReply 0 1 1; ODraw 2; OSend 0 1 2]).
Proof. eexists. vm_compute. reflexivity. Qed.
(** Two loop requests on one circuit and one on another: a reply with the right
    number on the wrong circuit, an unknown number, a second copy of a reply and
    a reply after a timeout are all dropped. *)
Example mop_example :
  exists m, mrun (mstart 65533)
    [MLoop 7 1 2 true false false; MLoop 8 1 1 false true false; MLoop 7 2 1 false false false; MReply 2 1; MReply 1 9; MReply 1 65534; MReply 1 65534; MTimeout 1; MReply 1 1; MReply 2 3] =
  (m, [ODraw 65533; ODraw 65534; OSend 0 1 65534; ODraw 65535; ODraw 1; OSend 1 1 1; ODraw 2; ODraw 3; OSend 2 2 3;
       OReply 0 1 65534; ODraw 4; OSend 0 1 4; OTimeout 1; ODone 1; OReply 2 2 3; ODone 2]) /\ short_lived [ODraw 65533; ODraw 65534; OSend 0 1 65534; ODraw 65535].
Proof.
  eexists. split; [vm_compute; reflexivity|]. intros a c k r b d E Q.
  assert (L : zlen (draws b) <= zlen (draws [ODraw 65533; ODraw 65534; OSend 0 1 65534; ODraw 65535])).
  { rewrite E, draws_app. cbn [draws]. rewrite draws_app, !zlen_app. assert (A := zlen_nonneg _ (draws a)). assert (B := zlen_nonneg _ (draws d)). lia. }
  cbn [draws] in L. rewrite !zlen_cons, zlen_nil in L. lia.
Qed.

Print Assumptions mop_receipts.
Print Assumptions mop_reply_matched.
Print Assumptions mop_reply_once.
Print Assumptions mop_reply_delivered.
Print Assumptions mop_loop_course.
Print Assumptions mop_counters_refuted.
Print Assumptions mop_end_api_refuted.
