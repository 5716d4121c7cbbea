From Verif Require Import Base TimersModel TimersSpec.

Lemma obj_eqb_spec : forall a b, reflect (a = b) (obj_eqb a b).
Proof.
  intros [x|x] [y|y]; cbn; try (constructor; congruence);
  destruct (Z.eqb_spec x y); constructor; congruence.
Qed.

Fixpoint chain (h : heap) (a : obj) (l : list obj) (b : obj) : Prop :=
  match l with
  | [] => nx h a = b /\ pv h b = a
  | x :: l' => nx h a = x /\ pv h x = a /\ chain h x l' b
  end.

Lemma chain_app : forall h l1 a x l2 b,
  chain h a (l1 ++ x :: l2) b <-> chain h a l1 x /\ chain h x l2 b.
Proof.
  induction l1 as [|y l1 IH]; intros; cbn.
  - tauto.
  - rewrite IH. tauto.
Qed.

Lemma chain_frame : forall h h' l a b,
  chain h a l b ->
  (forall x, In x (a :: l) -> nx h' x = nx h x) ->
  (forall x, In x (l ++ [b]) -> pv h' x = pv h x) ->
  chain h' a l b.
Proof.
  induction l as [|y l IH]; intros a b C N P; cbn in *.
  - destruct C. rewrite N, P; auto.
  - destruct C as (C1 & C2 & C3). repeat split.
    + rewrite N; auto.
    + rewrite P; auto.
    + apply IH; auto.
Qed.

Lemma last_cons : forall (A : Type) (l : list A) a c, last (c :: l) a = last l c.
Proof.
  induction l as [|d l IH]; intros a c; auto.
  change (last (c :: d :: l) a) with (last (d :: l) a). rewrite !IH. reflexivity.
Qed.

Lemma chain_last : forall h l a b, chain h a l b -> pv h b = last l a.
Proof.
  induction l as [|y l IH]; intros a b C; cbn [chain] in C.
  - tauto.
  - destruct C as (C1 & C2 & C3). apply IH in C3. rewrite C3.
    symmetry. apply last_cons.
Qed.

Lemma chain_hd : forall h l a b, chain h a l b -> nx h a = hd b l.
Proof. destruct l; cbn; intros; tauto. Qed.

Lemma last_In : forall (A : Type) (l : list A) a, In (last l a) (a :: l).
Proof.
  induction l as [|x l IH]; intros a; cbn; auto.
  destruct l as [|y l']; auto. specialize (IH a). cbn in IH |- *.
  destruct IH; auto.
Qed.

(** Redirect the end of a chain. *)
Lemma chain_retarget : forall h h' l a x y,
  chain h a l x -> NoDup (a :: l) ->
  (forall z, In z (a :: l) -> z <> last l a -> nx h' z = nx h z) ->
  (forall z, In z l -> pv h' z = pv h z) ->
  nx h' (last l a) = y -> pv h' y = last l a ->
  chain h' a l y.
Proof.
  induction l as [|c l IH]; intros a x y C D N P E1 E2; cbn [chain] in *.
  - cbn in *. auto.
  - destruct C as (C1 & C2 & C3).
    assert (EL : last (c :: l) a = last l c).
    { apply last_cons. }
    rewrite EL in *. inversion D as [|? ? D1 D2]; subst.
    repeat split.
    + apply N; [cbn; auto|]. intro X. apply D1. rewrite X at 1. apply last_In.
    + rewrite P by (cbn; auto). auto.
    + eapply IH; eauto.
      * intros z Hz Hne. apply N; auto. cbn in *; auto.
      * intros z Hz. apply P. cbn; auto.
Qed.

Lemma nx_remove : forall h x z,
  nx (remove h x) z = if obj_eqb z x then x else
                      if obj_eqb z (pv h x) then nx h x else nx h z.
Proof.
  intros. cbn. unfold upd.
  destruct (obj_eqb_spec z x); auto.
  destruct (obj_eqb_spec x (nx h x)) as [E|E]; auto.
Qed.

Lemma pv_remove : forall h x z,
  pv (remove h x) z = if obj_eqb z x then x else
                      if obj_eqb z (nx h x) then pv h x else pv h z.
Proof.
  intros. cbn. unfold upd.
  destruct (obj_eqb_spec z x); auto.
Qed.

Lemma rv_remove : forall h x z,
  rv (remove h x) z = if obj_eqb z x then rv h x + 1 else rv h z.
Proof. intros. cbn. unfold upd. auto. Qed.

Lemma nx_add_before : forall h s x z, s <> x ->
  nx (add_before h s x) z = if obj_eqb z (pv h s) then x else
                            if obj_eqb z x then s else nx h z.
Proof.
  intros. cbn. unfold upd.
  destruct (obj_eqb_spec s x); congruence.
Qed.

Lemma pv_add_before : forall h s x z, s <> x ->
  pv (add_before h s x) z = if obj_eqb z s then x else
                            if obj_eqb z x then pv h s else pv h z.
Proof. intros. cbn. unfold upd. auto. Qed.

Lemma rv_add_before : forall h s x z,
  rv (add_before h s x) z = if obj_eqb z s then rv h s + 1 else rv h z.
Proof. intros. cbn. unfold upd. auto. Qed.

(** Representation: the heap is a set of disjoint rings, one per slot, listing
    exactly [slots s]; everything else is self linked. *)
Record rep (h : heap) (slots : Z -> list Z) : Prop := {
  rep_chain : forall s, chain h (Hd s) (map It (slots s)) (Hd s);
  rep_nodup : forall s, NoDup (slots s);
  rep_disj : forall s s' i, In i (slots s) -> In i (slots s') -> s = s';
  rep_free : forall i, (forall s, ~ In i (slots s)) ->
             nx h (It i) = It i /\ pv h (It i) = It i
}.

Arguments rep_chain {h slots}. Arguments rep_nodup {h slots}.
Arguments rep_disj {h slots}. Arguments rep_free {h slots}.

Lemma rep_ext : forall h sl sl', rep h sl -> (forall s, sl s = sl' s) -> rep h sl'.
Proof.
  intros h sl sl' [A B C D] E. constructor; intros.
  - rewrite <- E. auto.
  - rewrite <- E. auto.
  - rewrite <- E in H, H0. eauto.
  - apply D. intros s. rewrite E. auto.
Qed.

Lemma rep0 : rep heap0 (fun _ => []).
Proof. constructor; cbn; intros; auto; try constructor; tauto. Qed.

Lemma In_It : forall i l, In (It i) (map It l) <-> In i l.
Proof.
  intros. rewrite in_map_iff. split.
  - intros (x & E & H). congruence.
  - intros. eauto.
Qed.
Lemma In_Hd : forall s l, ~ In (Hd s) (map It l).
Proof. intros s l H. apply in_map_iff in H as (x & E & _). discriminate. Qed.

Lemma NoDup_ring : forall s l, NoDup l -> NoDup (Hd s :: map It l).
Proof.
  intros. constructor; [apply In_Hd|].
  induction H as [|x l Hx H IH]; cbn; constructor; auto.
  rewrite In_It. auto.
Qed.

Definition without (i : Z) (l : list Z) := filter (fun j => negb (j =? i)) l.

Lemma without_notin : forall i l, ~ In i l -> without i l = l.
Proof.
  induction l as [|x l IH]; cbn; intros H; auto.
  destruct (Z.eqb_spec x i); cbn; [exfalso; auto|]. f_equal. auto.
Qed.
Lemma without_app : forall i a b, without i (a ++ b) = without i a ++ without i b.
Proof. intros. apply filter_app. Qed.
Lemma without_In : forall i j l, In j (without i l) <-> In j l /\ j <> i.
Proof.
  intros. unfold without. rewrite filter_In.
  destruct (Z.eqb_spec j i); cbn; intuition congruence.
Qed.
Lemma without_split : forall i l1 l2, NoDup (l1 ++ i :: l2) ->
  without i (l1 ++ i :: l2) = l1 ++ l2.
Proof.
  intros. rewrite without_app.
  change (without i (i :: l2)) with (if negb (i =? i) then i :: without i l2 else without i l2).
  rewrite Z.eqb_refl. cbn [negb].
  assert (~ In i (l1 ++ l2)) by (apply NoDup_remove_2; auto).
  rewrite in_app_iff in H0.
  rewrite !without_notin by tauto. reflexivity.
Qed.

Lemma NoDup_filter' : forall (A : Type) (f : A -> bool) l, NoDup l -> NoDup (filter f l).
Proof.
  induction l; cbn; intros H; auto. inversion H; subst.
  destruct (f a); auto. constructor; auto. rewrite filter_In. tauto.
Qed.

Lemma remove_free : forall h sl i, rep h sl -> (forall s, ~ In i (sl s)) ->
  rep (remove h (It i)) sl.
Proof.
  intros h sl i R F. destruct (rep_free R i F) as [E1 E2].
  assert (N : forall z, nx (remove h (It i)) z = nx h z).
  { intros. rewrite nx_remove, E1, E2. destruct (obj_eqb_spec z (It i)); congruence. }
  assert (P : forall z, pv (remove h (It i)) z = pv h z).
  { intros. rewrite pv_remove, E1, E2. destruct (obj_eqb_spec z (It i)); congruence. }
  destruct R as [A B C D]. constructor; auto; intros.
  - eapply chain_frame; eauto.
  - rewrite N, P. auto.
Qed.

Lemma remove_linked : forall h sl i s0, rep h sl -> In i (sl s0) ->
  rep (remove h (It i)) (fun s => without i (sl s)).
Proof.
  intros h sl i s0 R Hi.
  destruct (in_split _ _ Hi) as (l1 & l2 & E).
  pose proof (rep_chain R s0) as C. rewrite E, map_app in C. cbn [map] in C.
  apply chain_app in C as [C1 C2].
  pose proof (rep_nodup R s0) as ND. rewrite E in ND.
  pose proof (NoDup_ring s0 _ ND) as NR. rewrite map_app in NR. cbn [map] in NR.
  pose proof (chain_last _ _ _ _ C1) as PV. pose proof (chain_hd _ _ _ _ C2) as NX.
  set (p := last (map It l1) (Hd s0)) in *.
  set (n := hd (Hd s0) (map It l2)) in *.
  assert (Hp : In p (Hd s0 :: map It l1)) by apply last_In.
  assert (Hn : In n (map It l2 ++ [Hd s0])).
  { unfold n. destruct l2; cbn; auto. }
  assert (Hpi : p <> It i).
  { intro X. rewrite X in Hp. cbn in Hp. destruct Hp as [Hp|Hp]; [discriminate|].
    apply NoDup_cons_iff in NR as [_ NR]. apply NoDup_remove_2 in NR.
    apply NR. apply in_or_app. auto. }
  assert (Hni : n <> It i).
  { intro X. rewrite X in Hn. apply in_app_iff in Hn as [Hn|[Hn|[]]]; [|discriminate].
    apply NoDup_cons_iff in NR as [_ NR]. apply NoDup_remove_2 in NR.
    apply NR. apply in_or_app. auto. }
  set (h' := remove h (It i)).
  assert (Nx : forall z, nx h' z = if obj_eqb z (It i) then It i else
                 if obj_eqb z p then n else nx h z).
  { intro z. unfold h'. rewrite nx_remove, PV, NX. reflexivity. }
  assert (Pv : forall z, pv h' z = if obj_eqb z (It i) then It i else
                 if obj_eqb z n then p else pv h z).
  { intro z. unfold h'. rewrite pv_remove, PV, NX. reflexivity. }
  assert (Nid : forall z, z <> It i -> z <> p -> nx h' z = nx h z).
  { intros z Z1 Z2. rewrite Nx. destruct (obj_eqb_spec z (It i)); [congruence|].
    destruct (obj_eqb_spec z p); congruence. }
  assert (Pid : forall z, z <> It i -> z <> n -> pv h' z = pv h z).
  { intros z Z1 Z2. rewrite Pv. destruct (obj_eqb_spec z (It i)); [congruence|].
    destruct (obj_eqb_spec z n); congruence. }
  assert (Np : nx h' p = n).
  { rewrite Nx. destruct (obj_eqb_spec p (It i)); [congruence|].
    destruct (obj_eqb_spec p p); congruence. }
  assert (Pn : pv h' n = p).
  { rewrite Pv. destruct (obj_eqb_spec n (It i)); [congruence|].
    destruct (obj_eqb_spec n n); congruence. }
  constructor.
  - intro s. destruct (Z.eq_dec s s0) as [->|Hs].
    + rewrite E, without_split by auto. rewrite map_app.
      assert (ND1 : NoDup (Hd s0 :: map It l1)).
      { apply NoDup_ring. apply NoDup_remove_1 in ND.
        clear -ND. induction l1; constructor; inversion ND; subst; auto.
        intro X. apply H1. apply in_or_app. auto. }
      assert (CR : chain h' (Hd s0) (map It l1) n).
      { apply (chain_retarget h _ _ _ (It i)); auto.
        - intros z Hz1 Hz2. apply Nid; auto.
          intro; subst z. cbn in Hz1. destruct Hz1; [discriminate|].
          apply NoDup_cons_iff in NR as [_ NR]. apply NoDup_remove_2 in NR.
          apply NR. apply in_or_app. auto.
        - intros z Hz. apply Pid.
          + intro; subst z. apply NoDup_cons_iff in NR as [_ NR].
            apply NoDup_remove_2 in NR. apply NR. apply in_or_app. auto.
          + intro; subst z. apply in_app_iff in Hn as [Hn|[Hn|[]]].
            * apply NoDup_cons_iff in NR as [_ NR]. apply NoDup_remove_1 in NR.
              clear -NR Hz Hn. apply in_split in Hz as (a & b & Q). rewrite Q in NR.
              rewrite <- app_assoc in NR. cbn in NR. apply NoDup_remove_2 in NR.
              apply NR. apply in_or_app. right. apply in_or_app. auto.
            * rewrite <- Hn in Hz. apply In_Hd in Hz. auto. }
      destruct l2 as [|y l2'].
      * cbn in *. rewrite app_nil_r. exact CR.
      * cbn [map] in *. cbn [hd] in n. rewrite chain_app. split; [exact CR|].
        cbn [chain] in C2. destruct C2 as (_ & _ & C2).
        eapply chain_frame; [exact C2| |].
        -- intros z Hz. apply Nid.
           ++ intro; subst z. apply NoDup_cons_iff in NR as [_ NR].
              apply NoDup_remove_2 in NR. apply NR. apply in_or_app. right. exact Hz.
           ++ intro; subst z. cbn in Hp. destruct Hp as [Hp|Hp].
              ** rewrite <- Hp in Hz. apply (In_Hd s0 (y :: l2')). exact Hz.
              ** apply NoDup_cons_iff in NR as [_ NR]. apply NoDup_remove_1 in NR.
                 clear -NR Hz Hp. apply in_split in Hp as (a & b & Q). rewrite Q in NR.
                 rewrite <- app_assoc in NR. cbn in NR. apply NoDup_remove_2 in NR.
                 apply NR. apply in_or_app. right. apply in_or_app. right. exact Hz.
        -- intros z Hz. apply Pid.
           ++ intro; subst z. apply in_app_iff in Hz as [Hz|[Hz|[]]]; [|discriminate].
              apply NoDup_cons_iff in NR as [_ NR].
              apply NoDup_remove_2 in NR. apply NR. apply in_or_app. right. cbn; auto.
           ++ intro; subst z. unfold n in Hz.
              apply in_app_iff in Hz as [Hz|[Hz|[]]]; [|discriminate].
              apply NoDup_cons_iff in NR as [_ NR]. apply NoDup_remove_1 in NR.
              clear -NR Hz. apply NoDup_remove_2 in NR. apply NR. apply in_or_app. auto.
    + assert (Hf : ~ In i (sl s)) by (intro X; apply Hs; eapply rep_disj; eauto).
      rewrite without_notin by auto.
      assert (Hdis : forall z, In z (Hd s :: map It (sl s)) -> z <> It i /\ z <> p /\ z <> n).
      { intros z Hz. cbn in Hz. destruct Hz as [<-|Hz].
        - split; [discriminate|]. split; intro X.
          + rewrite <- X in Hp. cbn in Hp. destruct Hp as [Hp|Hp]; [congruence|].
            apply In_Hd in Hp. auto.
          + rewrite <- X in Hn. apply in_app_iff in Hn as [Hn|[Hn|[]]]; [|congruence].
            apply In_Hd in Hn. auto.
        - apply in_map_iff in Hz as (j & <- & Hj).
          assert (j <> i) by congruence. split; [congruence|].
          split; intro X.
          + rewrite <- X in Hp. cbn in Hp. destruct Hp as [Hp|Hp]; [discriminate|].
            apply In_It in Hp. apply Hs. apply (rep_disj R s s0 j); auto.
            rewrite E. apply in_or_app. auto.
          + rewrite <- X in Hn. apply in_app_iff in Hn as [Hn|[Hn|[]]]; [|discriminate].
            apply In_It in Hn. apply Hs. apply (rep_disj R s s0 j); auto.
            rewrite E. apply in_or_app. right. cbn. auto. }
      eapply chain_frame; [apply (rep_chain R)| |].
      * intros z Hz. apply Nid; apply Hdis; auto.
      * intros z Hz. assert (In z (Hd s :: map It (sl s))).
        { apply in_app_iff in Hz as [?|[?|[]]]; cbn; auto. }
        apply Pid; apply Hdis; auto.
  - intro s. apply NoDup_filter'. apply (rep_nodup R).
  - intros s s' j H1 H2. apply without_In in H1 as [H1 _]. apply without_In in H2 as [H2 _].
    eapply rep_disj; eauto.
  - intros j Hj. destruct (Z.eq_dec j i) as [->|Hne].
    + rewrite Nx, Pv. destruct (obj_eqb_spec (It i) (It i)); auto. congruence.
    + assert (Fj : forall s, ~ In j (sl s)).
      { intros s X. apply (Hj s). apply without_In. auto. }
      assert (It j <> It i) by congruence.
      assert (It j <> p).
      { intro X. rewrite <- X in Hp. cbn in Hp. destruct Hp as [Hp|Hp]; [discriminate|].
        apply In_It in Hp. apply (Fj s0). rewrite E. apply in_or_app. auto. }
      assert (It j <> n).
      { intro X. rewrite <- X in Hn. apply in_app_iff in Hn as [Hn|[Hn|[]]]; [|discriminate].
        apply In_It in Hn. apply (Fj s0). rewrite E. apply in_or_app. right. cbn; auto. }
      rewrite Nid, Pid by auto. apply (rep_free R). auto.
Qed.

Lemma add_before_rep : forall h sl i s0, rep h sl -> (forall s, ~ In i (sl s)) ->
  rep (add_before h (Hd s0) (It i))
      (fun s => if s =? s0 then sl s ++ [i] else sl s).
Proof.
  intros h sl i s0 R F.
  pose proof (rep_chain R s0) as C.
  pose proof (chain_last _ _ _ _ C) as PV.
  set (p := last (map It (sl s0)) (Hd s0)) in *.
  assert (Hp : In p (Hd s0 :: map It (sl s0))) by apply last_In.
  assert (Hpi : p <> It i).
  { intro X. rewrite X in Hp. cbn in Hp. destruct Hp as [Hp|Hp]; [discriminate|].
    apply In_It in Hp. apply (F s0 Hp). }
  set (h' := add_before h (Hd s0) (It i)).
  assert (Nx : forall z, nx h' z = if obj_eqb z p then It i else
                 if obj_eqb z (It i) then Hd s0 else nx h z).
  { intro z. unfold h'. rewrite nx_add_before, PV by discriminate. reflexivity. }
  assert (Pv : forall z, pv h' z = if obj_eqb z (Hd s0) then It i else
                 if obj_eqb z (It i) then p else pv h z).
  { intro z. unfold h'. rewrite pv_add_before, PV by discriminate. reflexivity. }
  assert (Nid : forall z, z <> It i -> z <> p -> nx h' z = nx h z).
  { intros z Z1 Z2. rewrite Nx. destruct (obj_eqb_spec z p); [congruence|].
    destruct (obj_eqb_spec z (It i)); congruence. }
  assert (Pid : forall z, z <> It i -> z <> Hd s0 -> pv h' z = pv h z).
  { intros z Z1 Z2. rewrite Pv. destruct (obj_eqb_spec z (Hd s0)); [congruence|].
    destruct (obj_eqb_spec z (It i)); congruence. }
  constructor.
  - intro s. destruct (Z.eqb_spec s s0) as [->|Hs].
    + rewrite map_app. cbn [map]. rewrite chain_app. split.
      * apply (chain_retarget h _ _ _ (Hd s0)); auto.
        -- apply NoDup_ring. apply (rep_nodup R).
        -- intros z Hz1 Hz2. apply Nid; auto. intro; subst z. cbn in Hz1.
           destruct Hz1 as [Hz1|Hz1]; [discriminate|]. apply In_It in Hz1.
           apply (F s0 Hz1).
        -- intros z Hz. apply Pid; intro; subst z.
           ++ apply In_It in Hz. apply (F s0 Hz).
           ++ apply In_Hd in Hz. auto.
        -- fold p. rewrite Nx. destruct (obj_eqb_spec p p); congruence.
        -- rewrite Pv. cbn. rewrite Z.eqb_refl. reflexivity.
      * cbn [chain]. rewrite Nx, Pv.
        destruct (obj_eqb_spec (It i) p); [congruence|]. cbn.
        rewrite !Z.eqb_refl. auto.
    + eapply chain_frame; [apply (rep_chain R)| |].
      * intros z Hz. cbn in Hz. apply Nid; intro; subst z.
        -- destruct Hz as [Hz|Hz]; [discriminate|]. apply In_It in Hz. apply (F s Hz).
        -- cbn in Hp. destruct Hz as [Hz|Hz].
           ++ rewrite <- Hz in Hp. destruct Hp as [Hp|Hp]; [congruence|]. apply In_Hd in Hp. auto.
           ++ destruct Hp as [Hp|Hp].
              ** rewrite <- Hp in Hz. apply In_Hd in Hz. auto.
              ** apply in_map_iff in Hz as (j & Ej & Hj). rewrite <- Ej in Hp.
                 apply In_It in Hp. apply Hs. eapply rep_disj; eauto.
      * intros z Hz. apply Pid; intro; subst z.
        -- apply in_app_iff in Hz as [Hz|[Hz|[]]]; [|discriminate].
           apply In_It in Hz. apply (F s Hz).
        -- apply in_app_iff in Hz as [Hz|[Hz|[]]]; [|congruence].
           apply In_Hd in Hz. auto.
  - intro s. destruct (Z.eqb_spec s s0) as [->|Hs]; [|apply (rep_nodup R)].
    pose proof (rep_nodup R s0). specialize (F s0).
    apply NoDup_rev in H. rewrite <- (rev_involutive (sl s0 ++ [i])).
    apply NoDup_rev. rewrite rev_app_distr. cbn. constructor; auto.
    rewrite <- in_rev. auto.
  - intros s s' j. destruct (Z.eqb_spec s s0) as [->|Hs], (Z.eqb_spec s' s0) as [->|Hs'];
    intros H1 H2; auto.
    + apply in_app_iff in H1 as [H1|[H1|[]]]; [eapply rep_disj; eauto|].
      subst j. destruct (F s' H2).
    + apply in_app_iff in H2 as [H2|[H2|[]]]; [eapply rep_disj; eauto|].
      subst j. destruct (F s H1).
    + eapply rep_disj; eauto.
  - intros j Hj.
    assert (j <> i).
    { intro; subst j. apply (Hj s0). rewrite Z.eqb_refl. apply in_or_app. cbn. auto. }
    assert (Fj : forall s, ~ In j (sl s)).
    { intros s X. apply (Hj s). destruct (Z.eqb_spec s s0); auto. apply in_or_app. auto. }
    rewrite Nid, Pid; try congruence.
    + apply (rep_free R). auto.
    + intro X. rewrite <- X in Hp. cbn in Hp. destruct Hp as [Hp|Hp]; [discriminate|].
      apply In_It in Hp. apply (Fj s0 Hp).
Qed.

(** *** Simulation between the wheel and the specification machine *)

Definition slots_of (size : Z) (A : list (Z * Z)) (s : Z) : list Z :=
  map fst (filter (fun p => snd p mod size =? s) A).

Definition qrel (h : heap) (c : Z * Z) (a : Z * bool) : Prop :=
  fst c = fst a /\ snd c <= rv h (It (fst c)) /\ snd a = (snd c =? rv h (It (fst c))).

Definition trel (h : heap) (t : thr) (s : sst) : Prop :=
  match t with
  | TIdle => busy s = false /\ held s = None
  | TDrain | TGrab => busy s = true /\ held s = None
  | TPost i r => busy s = true /\ exists a, held s = Some a /\ qrel h (i, r) a
  end.

Record sim (w : wheel) (s : sst) : Prop := {
  sim_size : 1 <= w_size w;
  sim_rep : rep (w_heap w) (slots_of (w_size w) (armed s));
  sim_pos : w_pos w = now s mod w_size w;
  sim_nodup : NoDup (map fst (armed s));
  sim_range : forall p, In p (armed s) -> now s <= snd p < now s + w_size w;
  sim_due : forall p, In p (armed s) -> snd p = now s -> busy s = true;
  sim_thr : trel (w_heap w) (w_thr w) s;
  sim_q : Forall2 (qrel (w_heap w)) (w_q w) (queue s)
}.

Lemma sim0 : forall size, 1 <= size -> sim (wheel0 size) sst0.
Proof.
  intros. constructor; cbn; auto; try constructor; try tauto.
  - exact (rep_chain rep0).
  - exact (rep_nodup rep0).
  - exact (rep_disj rep0).
Qed.

Lemma slots_disarm : forall size i A s,
  slots_of size (disarm i A) s = without i (slots_of size A s).
Proof.
  intros. unfold slots_of, disarm, without.
  induction A as [|[j d] A IH]; auto.
  cbn [filter map fst snd].
  destruct (j =? i) eqn:E1; destruct (d mod size =? s) eqn:E2;
  cbn [negb filter map fst snd]; rewrite ?E2; cbn [negb filter map fst snd]; rewrite ?E1;
  cbn [negb]; rewrite ?IH; auto.
Qed.

Lemma In_slots : forall size A s i,
  In i (slots_of size A s) <-> exists d, In (i, d) A /\ d mod size = s.
Proof.
  intros. unfold slots_of. rewrite in_map_iff. split.
  - intros ([j d] & E & H). cbn in E. subst j. apply filter_In in H as [H1 H2].
    cbn in H2. apply Z.eqb_eq in H2. eauto.
  - intros (d & H1 & H2). exists (i, d). split; auto. apply filter_In.
    split; auto. cbn. apply Z.eqb_eq. auto.
Qed.

Lemma In_disarm : forall i p A, In p (disarm i A) <-> In p A /\ fst p <> i.
Proof.
  intros. unfold disarm. rewrite filter_In.
  destruct (Z.eqb_spec (fst p) i); cbn; intuition congruence.
Qed.

Lemma NoDup_disarm : forall i A, NoDup (map fst A) -> NoDup (map fst (disarm i A)).
Proof.
  induction A as [|[j d] A IH]; cbn; intros H; auto.
  inversion H; subst. destruct (Z.eqb_spec j i); cbn; auto.
  constructor; auto. intro X. apply in_map_iff in X as ([j' d'] & E & X). cbn in E. subst j'.
  apply In_disarm in X as [X _]. apply H2. apply in_map_iff. exists (j, d'). auto.
Qed.

(** Removing an item, linked or not. *)
Lemma rep_remove : forall size A h i, rep h (slots_of size A) ->
  rep (remove h (It i)) (slots_of size (disarm i A)).
Proof.
  intros size A h i R.
  assert (D : (exists s, In i (slots_of size A s)) \/ (forall s, ~ In i (slots_of size A s))).
  { destruct (in_dec Z.eq_dec i (map fst A)) as [H|H].
    - left. apply in_map_iff in H as ([j d] & E & H). cbn in E. subst j.
      exists (d mod size). apply In_slots. eauto.
    - right. intros s X. apply In_slots in X as (d & X & _). apply H.
      apply in_map_iff. exists (i, d). auto. }
  destruct D as [[s Hs]|F].
  - eapply rep_ext; [eapply remove_linked; eauto|].
    intros. cbn. symmetry. apply slots_disarm.
  - eapply rep_ext; [apply remove_free; eauto|].
    intros. rewrite slots_disarm. symmetry. apply without_notin. auto.
Qed.

Lemma rep_selflinked : forall h sl x, rep h sl -> nx h x = x -> pv h x = x ->
  rep (remove h x) sl.
Proof.
  intros h sl x R E1 E2.
  assert (N : forall z, nx (remove h x) z = nx h z).
  { intros. rewrite nx_remove, E1, E2. destruct (obj_eqb_spec z x); congruence. }
  assert (P : forall z, pv (remove h x) z = pv h z).
  { intros. rewrite pv_remove, E1, E2. destruct (obj_eqb_spec z x); congruence. }
  destruct R as [A B C D]. constructor; auto; intros.
  - eapply chain_frame; eauto.
  - rewrite N, P. auto.
Qed.

Lemma qrel_stale : forall h h' i c a, qrel h c a ->
  (forall j, j <> i -> rv h' (It j) = rv h (It j)) ->
  rv h' (It i) = rv h (It i) + 1 ->
  qrel h' c (stale i a).
Proof.
  intros h h' i [j r] [k b] (Q1 & Q2 & Q3) H1 H2. unfold qrel, stale in *. cbn in *. subst k b.
  destruct (Z.eqb_spec j i) as [->|Hne]; cbn.
  - rewrite H2. repeat split; lia.
  - rewrite H1 by auto. repeat split; auto.
Qed.

Lemma q_stale : forall h h' i q aq, Forall2 (qrel h) q aq ->
  (forall j, j <> i -> rv h' (It j) = rv h (It j)) ->
  rv h' (It i) = rv h (It i) + 1 ->
  Forall2 (qrel h') q (map (stale i) aq).
Proof.
  induction 1; intros; cbn; constructor; auto. eapply qrel_stale; eauto.
Qed.

Lemma trel_stale : forall h h' i t s s', trel h t s ->
  (forall j, j <> i -> rv h' (It j) = rv h (It j)) ->
  rv h' (It i) = rv h (It i) + 1 ->
  busy s' = busy s -> held s' = option_map (stale i) (held s) ->
  trel h' t s'.
Proof.
  intros h h' i t s s' T H1 H2 B H. destruct t; cbn in *; rewrite B, H.
  - destruct T as [T1 T2]. rewrite T1, T2. auto.
  - destruct T as [T1 T2]. rewrite T1, T2. auto.
  - destruct T as [T1 T2]. rewrite T1, T2. auto.
  - destruct T as (T1 & a & T2 & T3). rewrite T1, T2. split; auto.
    exists (stale i a). cbn. split; auto. eapply qrel_stale; eauto.
Qed.

Lemma rv_remove_It : forall h i,
  (forall j, j <> i -> rv (remove h (It i)) (It j) = rv h (It j)) /\
  rv (remove h (It i)) (It i) = rv h (It i) + 1.
Proof.
  intros. split; intros; rewrite rv_remove; cbn.
  - destruct (Z.eqb_spec j i); congruence.
  - rewrite Z.eqb_refl. auto.
Qed.

Lemma slots_now : forall size A nw, 1 <= size ->
  (forall p, In p A -> nw <= snd p < nw + size) ->
  filter (fun p => snd p mod size =? nw mod size) A = filter (fun p : Z * Z => snd p =? nw) A.
Proof.
  intros size A nw Hs H. apply filter_ext_in. intros p Hp. specialize (H p Hp).
  destruct (Z.eqb_spec (snd p) nw) as [->|Hne]; [apply Z.eqb_refl|].
  apply Z.eqb_neq. intro X.
  assert ((snd p - nw) mod size = 0).
  { rewrite Zminus_mod, X, Z.sub_diag. apply Z.mod_0_l. lia. }
  rewrite Z.mod_small in H0 by lia. lia.
Qed.

Definition op_ok (o : op) : Prop :=
  match o with OStart _ raw => 0 <= raw | _ => True end.

Lemma filter_nil_forallb : forall (A : list (Z * Z)) nw,
  (forall p, In p A -> nw <= snd p) ->
  filter (fun p => snd p =? nw) A = [] ->
  forallb (fun p => nw <? snd p) A = true.
Proof.
  intros A nw H F. apply forallb_forall. intros p Hp. specialize (H p Hp).
  destruct (Z.eqb_spec (snd p) nw) as [E|E].
  - assert (In p []) as [].
    rewrite <- F. apply filter_In. rewrite E, Z.eqb_refl. auto.
  - apply Z.ltb_lt. lia.
Qed.

Theorem step_sim : forall w s o w' es, sim w s -> op_ok o ->
  step w o = Some (w', es) ->
  exists s', srun s es = Some s' /\ sim w' s'.
Proof.
  intros w s o w' es S OK H.
  destruct S as [Ssz Srep Spos Snd Srng Sdue Sthr Sq].
  destruct o as [i raw|i| | | | |]; cbn [step] in H.
  - (* start *)
    cbn in OK.
    set (ticks := if raw =? 0 then 1 else raw) in *.
    assert (Ht : 0 < ticks) by (unfold ticks; destruct (Z.eqb_spec raw 0); lia).
    destruct (Z.geb_spec ticks (w_size w)) as [G|G].
    { injection H as <- <-. exists s. split; auto. constructor; auto. }
    injection H as <- <-. cbn [srun sstep].
    destruct (Z.ltb_spec 0 ticks); [|lia].
    eexists. split; [reflexivity|].
    destruct (rv_remove_It (w_heap w) i) as [RV1 RV2].
    set (h1 := remove (w_heap w) (It i)) in *.
    set (pos := (w_pos w + ticks) mod w_size w) in *.
    assert (RV1' : forall j, j <> i -> rv (add_before h1 (Hd pos) (It i)) (It j) = rv (w_heap w) (It j)).
    { intros. rewrite rv_add_before. cbn [obj_eqb]. auto. }
    assert (RV2' : rv (add_before h1 (Hd pos) (It i)) (It i) = rv (w_heap w) (It i) + 1).
    { rewrite rv_add_before. cbn [obj_eqb]. auto. }
    constructor; cbn [set_heap w_size w_heap w_pos w_thr w_q armed now busy held queue]; auto.
    + eapply rep_ext.
      * apply add_before_rep.
        -- unfold h1. apply rep_remove. exact Srep.
        -- intros s0 X. apply In_slots in X as (d & X & _). apply In_disarm in X as [_ X].
           apply X. reflexivity.
      * intros s0. cbn beta. unfold slots_of. rewrite filter_app, map_app.
        cbn [filter snd]. unfold pos. rewrite Spos, Zplus_mod_idemp_l.
        rewrite (Z.eqb_sym s0).
        destruct ((now s + ticks) mod w_size w =? s0); cbn [map fst]; auto.
        rewrite app_nil_r. auto.
    + rewrite map_app. cbn [map fst].
      rewrite <- (rev_involutive (map fst (disarm i (armed s)) ++ [i])).
      apply NoDup_rev. rewrite rev_app_distr. cbn. constructor.
      * rewrite <- in_rev. intro X. apply in_map_iff in X as (p & E & X).
        apply In_disarm in X as [_ X]. congruence.
      * apply NoDup_rev. apply NoDup_disarm. auto.
    + intros p Hp. apply in_app_iff in Hp as [Hp|[Hp|[]]].
      * apply In_disarm in Hp as [Hp _]. eauto.
      * subst p. cbn. lia.
    + intros p Hp. apply in_app_iff in Hp as [Hp|[Hp|[]]].
      * apply In_disarm in Hp as [Hp _]. intros; eapply Sdue; eauto.
      * subst p. cbn. lia.
    + eapply trel_stale; eauto.
    + eapply q_stale; eauto.
  - (* stop *)
    injection H as <- <-. cbn [srun sstep]. eexists. split; [reflexivity|].
    destruct (rv_remove_It (w_heap w) i) as [RV1 RV2].
    constructor; cbn [set_heap w_size w_heap w_pos w_thr w_q armed now busy held queue]; auto.
    + apply rep_remove. auto.
    + apply NoDup_disarm. auto.
    + intros p Hp. apply In_disarm in Hp as [Hp _]. eauto.
    + intros p Hp. apply In_disarm in Hp as [Hp _]. eauto.
    + eapply trel_stale; eauto.
    + eapply q_stale; eauto.
  - (* tick *)
    destruct (w_thr w) eqn:ET; try discriminate. cbn in Sthr. destruct Sthr as [B Hh].
    injection H as <- <-. cbn [srun sstep]. rewrite B. cbn [negb andb].
    assert (FA : forallb (fun p => now s <? snd p) (armed s) = true).
    { apply forallb_forall. intros p Hp. apply Z.ltb_lt.
      pose proof (Srng p Hp). pose proof (Sdue p Hp).
      destruct (Z.eq_dec (snd p) (now s)) as [E|E]; [|lia].
      apply H0 in E. congruence. }
    rewrite FA. eexists. split; [reflexivity|].
    rewrite forallb_forall in FA.
    constructor; cbn [w_size w_heap w_pos w_thr w_q armed now busy held queue]; auto.
    + rewrite Spos, Zplus_mod_idemp_l. auto.
    + intros p Hp. pose proof (Srng p Hp). specialize (FA p Hp). apply Z.ltb_lt in FA. lia.
    + cbn. auto.
  - (* loop *)
    destruct (w_thr w) eqn:ET; try discriminate. cbn in Sthr. destruct Sthr as [B Hh].
    pose proof (chain_hd _ _ _ _ (rep_chain Srep (w_pos w))) as NX.
    unfold islinked in H. rewrite NX in H.
    assert (SL : slots_of (w_size w) (armed s) (w_pos w) =
                 map fst (filter (fun p : Z * Z => snd p =? now s) (armed s))).
    { unfold slots_of. rewrite Spos, slots_now; auto. }
    rewrite SL in H.
    destruct (filter (fun p : Z * Z => snd p =? now s) (armed s)) as [|[j d] fl] eqn:EF.
    + cbn [map hd] in H. destruct (obj_eqb_spec (Hd (w_pos w)) (Hd (w_pos w))); [|congruence].
      cbn [negb] in H. injection H as <- <-. cbn [srun sstep].
      assert (FA : forallb (fun p => now s <? snd p) (armed s) = true).
      { apply filter_nil_forallb; auto. intros p Hp. apply Srng in Hp. lia. }
      rewrite FA, B, Hh. cbn [andb]. eexists. split; [reflexivity|].
      rewrite forallb_forall in FA.
      constructor; cbn [set_thr w_size w_heap w_pos w_thr w_q armed now busy held queue]; auto.
      * intros p Hp E. specialize (FA p Hp). apply Z.ltb_lt in FA. lia.
      * cbn. auto.
    + cbn in H. injection H as <- <-. exists s. split; auto.
      constructor; cbn [set_thr w_size w_heap w_pos w_thr w_q]; auto. cbn. auto.
  - (* grab *)
    destruct (w_thr w) eqn:ET; try discriminate. cbn in Sthr. destruct Sthr as [B Hh].
    pose proof (rep_chain Srep (w_pos w)) as CH.
    pose proof (chain_hd _ _ _ _ CH) as NX.
    assert (SL : slots_of (w_size w) (armed s) (w_pos w) =
                 map fst (filter (fun p : Z * Z => snd p =? now s) (armed s))).
    { unfold slots_of. rewrite Spos, slots_now; auto. }
    destruct (filter (fun p : Z * Z => snd p =? now s) (armed s)) as [|[j d] fl] eqn:EF.
    + rewrite SL in CH, NX. cbn [map fst hd chain] in CH, NX. destruct CH as [CH1 CH2].
      rewrite NX in H. injection H as <- <-. exists s. split; auto.
      constructor; cbn [set_thr set_heap w_size w_heap w_pos w_thr w_q]; auto.
      * apply rep_selflinked; auto.
      * cbn. auto.
    + rewrite SL in NX. cbn [map fst hd] in NX. rewrite NX in H.
      injection H as <- <-. cbn [srun sstep]. rewrite EF, Hh, B, Z.eqb_refl. cbn [andb].
      eexists. split; [reflexivity|].
      destruct (rv_remove_It (w_heap w) j) as [RV1 RV2].
      constructor; cbn [set_thr set_heap w_size w_heap w_pos w_thr w_q armed now busy held queue]; auto.
      * apply rep_remove. auto.
      * apply NoDup_disarm. auto.
      * intros p Hp. apply In_disarm in Hp as [Hp _]. eauto.
      * cbn. split; auto. exists (j, true). split; auto.
        unfold qrel. cbn [fst snd]. rewrite Z.eqb_refl. repeat split; auto using Z.le_refl.
      * eapply q_stale; eauto.
  - (* post *)
    destruct (w_thr w) eqn:ET; try discriminate. cbn in Sthr.
    destruct Sthr as (B & [j b] & Hh & Q1 & Q2 & Q3).
    cbn [fst snd] in Q1, Q2, Q3. subst j.
    injection H as <- <-. cbn [srun sstep]. rewrite Hh, Z.eqb_refl.
    eexists. split; [reflexivity|].
    constructor; cbn [w_size w_heap w_pos w_thr w_q armed now busy held queue]; auto.
    + cbn. auto.
    + apply Forall2_app; auto. constructor; auto. unfold qrel. cbn [fst snd]. auto.
  - (* dispatch *)
    destruct (w_q w) as [|[i r] q] eqn:EQ; try discriminate.
    inversion Sq as [|? [j b] ? aq Q Sq' E1 E2]; subst.
    destruct Q as (Q1 & Q2 & Q3). cbn [fst snd] in Q1, Q2, Q3. subst j.
    destruct (r =? rv (w_heap w) (It i)) eqn:ER; injection H as <- <-; cbn [srun sstep];
    rewrite <- E2; rewrite Q3, Z.eqb_refl; (eexists; split; [reflexivity|]);
    constructor; cbn [w_size w_heap w_pos w_thr w_q armed now busy held queue]; auto.
Qed.

Lemma srun_app : forall a b s, srun s (a ++ b) =
  match srun s a with None => None | Some s' => srun s' b end.
Proof.
  induction a; intros; cbn; auto. destruct (sstep s a); auto.
Qed.

Theorem run_sim : forall ops w s w' es, sim w s -> Forall op_ok ops ->
  run w ops = Some (w', es) ->
  exists s', srun s es = Some s' /\ sim w' s'.
Proof.
  induction ops as [|o ops IH]; intros w s w' es S OK H; cbn in H.
  - injection H as <- <-. exists s. auto.
  - destruct (step w o) as [[w1 e1]|] eqn:E1; [|discriminate].
    destruct (run w1 ops) as [[w2 e2]|] eqn:E2; [|discriminate].
    injection H as <- <-. inversion OK; subst.
    destruct (step_sim _ _ _ _ _ S H1 E1) as (s1 & R1 & S1).
    destruct (IH _ _ _ _ S1 H2 E2) as (s2 & R2 & S2).
    exists s2. split; auto. rewrite srun_app, R1. auto.
Qed.
