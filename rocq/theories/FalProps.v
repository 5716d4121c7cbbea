(** C60: the file access listener gives users without a login only the files
    below its root directory. *)
From Verif Require Import Base FalModel.

(** *** Specification *)
(** Where the operating system ends up when it walks a path of components from
    the top directory (symbolic links aside); the place is the list of names
    from the top. *)
Fixpoint walk (at_ : list (list Z)) (l : list (list Z)) : list (list Z) :=
  match l with
  | [] => rev at_
  | c :: t => if leqb c [] || leqb c DOT then walk at_ t
              else if leqb c DOTDOT then walk (tl at_) t
              else walk (c :: at_) t
  end.
Definition place (p : list Z) : list (list Z) := walk [] (split p).
(** The root directory is given by names without wildcards. *)
Definition plain (c : list Z) : Prop := entry c /\ magic c = false.
Definition path (names : list (list Z)) : list Z := SL :: join names.
Definition within (root : list (list Z)) (p : list Z) : Prop := exists rest, place p = root ++ rest.

(** *** Splitting and joining *)
Definition noslash (c : list Z) : Prop := ~ In SL c.
Lemma split_cur : forall s cur, noslash cur -> exists x l, split_ [] s = x :: l /\ split_ cur s = (rev cur ++ x) :: l.
Proof.
  induction s as [|c s IH]; intros cur N; cbn [split_].
  - exists [], []. rewrite app_nil_r. auto.
  - destruct (Z.eqb_spec c SL) as [->|Nc].
    + exists [], (split_ [] s). rewrite app_nil_r. auto.
    + destruct (IH [c] ltac:(intros [X|[]]; congruence)) as (x & l & A & B). destruct (IH (c :: cur)) as (x2 & l2 & A2 & B2); [intros [X|X]; [congruence|contradiction]|].
      rewrite A in A2. injection A2 as <- <-. exists (c :: x), l. rewrite B, B2. cbn [rev app]. split; [reflexivity|]. rewrite <- app_assoc. reflexivity.
Qed.
Lemma split_noslash : forall s, Forall noslash (split s).
Proof.
  intros s. unfold split. assert (G : forall s cur, noslash cur -> Forall noslash (split_ cur s)).
  { induction s0 as [|c s0 IH]; intros cur N; cbn [split_].
    - constructor; [|constructor]. intros X. apply in_rev in X. contradiction.
    - destruct (Z.eqb_spec c SL) as [->|Nc].
      + constructor; [intros X; apply in_rev in X; contradiction|]. apply IH. intros [].
      + apply IH. intros [X|X]; [congruence|contradiction]. }
  apply G. intros [].
Qed.
Lemma split_cons : forall c, noslash c -> split c = [c].
Proof.
  intros c N. unfold split. assert (G : forall s cur, noslash s -> split_ cur s = [rev cur ++ s]).
  { induction s as [|x s IH]; intros cur M; cbn [split_]; [rewrite app_nil_r; reflexivity|]. destruct (Z.eqb_spec x SL) as [->|_]; [exfalso; apply M; left; reflexivity|].
    rewrite IH by (intros X; apply M; right; auto). cbn [rev]. rewrite <- app_assoc. reflexivity. }
  rewrite G by auto. reflexivity.
Qed.
Lemma split_app : forall a b, split (a ++ SL :: b) = split a ++ split b.
Proof.
  intros a b. unfold split. assert (G : forall a cur, split_ cur (a ++ SL :: b) = split_ cur a ++ split_ [] b).
  { induction a0 as [|x a0 IH]; intros cur; cbn [app split_]; [reflexivity|]. destruct (x =? SL); [rewrite IH; reflexivity|apply IH]. }
  apply G.
Qed.
Lemma split_join : forall l, Forall noslash l -> l <> [] -> split (join l) = l.
Proof.
  induction l as [|x l IH]; intros N E; [contradiction|]. inversion N as [|? ? Nx Nl]; subst. destruct l as [|y l]; cbn [join].
  - apply split_cons; auto.
  - rewrite split_app, (split_cons x) by auto. cbn [app]. f_equal. apply IH; auto. discriminate.
Qed.
Lemma join_split : forall s, join (split s) = s.
Proof.
  induction s as [|c s IH]; [reflexivity|]. unfold split in *. cbn [split_]. destruct (Z.eqb_spec c SL) as [->|Nc].
  - cbn [rev]. destruct (split_cur s [] ltac:(intros [])) as (x & l & A & _). rewrite A in *. cbn [join app] in *. rewrite IH. reflexivity.
  - destruct (split_cur s [c] ltac:(intros [X|[]]; congruence)) as (x & l & A & B). rewrite B. cbn [rev app]. rewrite A in IH.
    destruct l as [|y l]; cbn [join app] in *; rewrite <- IH; reflexivity.
Qed.
Lemma split_ne : forall s, split s <> [].
Proof. intros s. unfold split. destruct (split_cur s [] ltac:(intros [])) as (x & l & A & _). rewrite A. discriminate. Qed.

(** *** normpath *)
Definition dd (c : list Z) : Prop := c = DOTDOT.
Lemma leqb_refl : forall a, leqb a a = true. Proof. intros a. apply leqb_eq. reflexivity. Qed.
Lemma leqb_neq : forall a b, a <> b -> leqb a b = false.
Proof. intros a b N. destruct (leqb a b) eqn:E; auto. apply leqb_eq in E. contradiction. Qed.
(** A path without "..": only empty components and "." go. *)
Definition keep (l : list (list Z)) : list (list Z) := filter (fun c => negb (leqb c [] || leqb c DOT)) l.
Lemma ncomps_plain : forall l abs st, Forall (fun c => c <> DOTDOT) l -> ncomps abs st l = rev st ++ keep l.
Proof.
  induction l as [|c l IH]; intros abs st F; cbn [ncomps keep filter]; [rewrite app_nil_r; reflexivity|]. inversion F as [|? ? Fc Fl]; subst.
  destruct (leqb c [] || leqb c DOT); cbn [negb]; [apply IH; auto|]. rewrite (leqb_neq c DOTDOT) by auto. cbn [negb orb]. rewrite IH by auto. cbn [rev]. rewrite <- app_assoc. reflexivity.
Qed.
(** Absolute paths lose every "..", relative ones keep them only in front. *)
Lemma ncomps_shape : forall l abs st, Forall noslash l -> (exists k names, rev st = repeat DOTDOT k ++ names /\ Forall entry names /\ (abs = true -> k = 0%nat)) ->
  exists k names, ncomps abs st l = repeat DOTDOT k ++ names /\ Forall entry names /\ (abs = true -> k = 0%nat) /\
    (forall x, In x names -> In x (rev st) \/ In x l).
Proof.
  induction l as [|c l IH]; intros abs st N (k & names & E & F & A); cbn [ncomps].
  - exists k, names. split; auto. split; auto. split; auto. intros x X. left. rewrite E. apply in_or_app. auto.
  - inversion N as [|? ? Nc Nl]; subst. destruct (leqb c [] || leqb c DOT) eqn:E1.
    { destruct (IH abs st Nl (ex_intro _ k (ex_intro _ names (conj E (conj F A))))) as (k2 & n2 & X1 & X2 & X3 & X4). exists k2, n2. split; auto. split; auto. split; auto.
      intros x X. destruct (X4 x X); auto. right. right. auto. }
    apply orb_false_iff in E1. destruct E1 as (E1 & E2).
    assert (C1 : c <> []) by (intros ->; discriminate E1). assert (C2 : c <> DOT) by (intros ->; discriminate E2).
    match goal with |- context [if ?q then _ else _] => destruct q eqn:E3 end.
    + assert (P : exists k' names', rev (c :: st) = repeat DOTDOT k' ++ names' /\ Forall entry names' /\ (abs = true -> k' = 0%nat)).
      { cbn [rev]. rewrite E. destruct (leqb c DOTDOT) eqn:Ec.
        - apply leqb_eq in Ec. subst c. cbn [negb orb] in E3. apply orb_true_iff in E3.
          assert (names = [] /\ (abs = true -> False)) as (-> & A').
          { destruct E3 as [E3|E3].
            - apply andb_true_iff in E3. destruct E3 as (E3 & E4). destruct st; [|discriminate E4]. cbn [rev] in E. symmetry in E. apply app_eq_nil in E. split; [tauto|].
              intros ->. discriminate E3.
            - destruct st as [|x st]; [discriminate E3|]. apply leqb_eq in E3. subst x. cbn [rev] in E.
              destruct (list_eq_dec (list_eq_dec Z.eq_dec) names []) as [->|Nn].
              + split; auto. intros Ab. specialize (A Ab). subst k. cbn [repeat app] in E. apply app_eq_nil in E. destruct E as (_ & E). discriminate E.
              + exfalso. destruct (exists_last Nn) as (n' & z & ->). rewrite app_assoc in E. apply app_inj_tail in E. destruct E as (_ & <-).
                apply Forall_app in F. destruct F as (_ & F). inversion F as [|? ? (_ & _ & _ & F') _]. apply F'. reflexivity. }
          exists (S k), []. rewrite app_nil_r. split; [rewrite !app_nil_r; cbn [repeat]; symmetry; apply repeat_cons|]. split; [constructor|]. intros Ab. destruct (A' Ab).
        - exists k, (names ++ [c]). split; [rewrite app_assoc; reflexivity|]. split; auto. apply Forall_app. split; auto. constructor; auto.
          split; auto. split; auto. split; auto. intros ->. rewrite leqb_refl in Ec. discriminate Ec. }
      destruct (IH abs (c :: st) Nl P) as (k2 & n2 & X1 & X2 & X3 & X4). exists k2, n2. split; auto. split; auto. split; auto.
      intros x X. destruct (X4 x X) as [Y|Y]; [|right; right; auto]. cbn [rev] in Y. apply in_app_or in Y. destruct Y as [Y|[<-|[]]]; [auto|right; left; reflexivity].
    + apply orb_false_iff in E3. destruct E3 as (E3 & E4). apply orb_false_iff in E3. destruct E3 as (E3 & E5).
      assert (P : forall st', st' = tl st -> exists k' names', rev st' = repeat DOTDOT k' ++ names' /\ Forall entry names' /\ (abs = true -> k' = 0%nat)).
      { intros st' ->. destruct st as [|x st]; cbn [tl]; [exists 0%nat, []; repeat split; constructor|]. cbn [rev] in E.
        destruct (list_eq_dec (list_eq_dec Z.eq_dec) names []) as [->|Nn].
        - exfalso. rewrite app_nil_r in E. destruct k as [|k]; [cbn [repeat] in E; apply app_eq_nil in E; destruct E as (_ & E); discriminate E|].
          rewrite <- (Nat.add_1_r k), repeat_app in E. cbn [repeat] in E. apply app_inj_tail in E. destruct E as (_ & ->). rewrite leqb_refl in E4. discriminate E4.
        - destruct (exists_last Nn) as (n' & z & ->). rewrite app_assoc in E. apply app_inj_tail in E. destruct E as (E & _). apply Forall_app in F. exists k, n'. tauto. }
      assert (T : forall st', st' = tl st -> forall x, In x (rev st') -> In x (rev st)).
      { intros st' -> x X. destruct st as [|y st]; auto. cbn [rev tl] in *. apply in_or_app. auto. }
      destruct st as [|y st]; [destruct (IH abs [] Nl (P _ eq_refl)) as (k2 & n2 & X1 & X2 & X3 & X4)|destruct (IH abs st Nl (P _ eq_refl)) as (k2 & n2 & X1 & X2 & X3 & X4)];
        exists k2, n2; (split; [auto|]; split; [auto|]; split; [auto|]); intros x X; (destruct (X4 x X) as [Y|Y]; [left; eapply T; [reflexivity|exact Y]|right; right; auto]).
Qed.

(** *** The stripping of leading ".." *)
Section Strip.
Variable P : list Z -> Prop.
Definition sinv (s : list Z) : Prop :=
  exists k l, split s = repeat DOTDOT k ++ l /\ match l with [] => True | _ :: names => Forall P names end.
Lemma dotted_split : forall s, dotted s = true -> exists t l, split s = (46 :: 46 :: t) :: l.
Proof.
  intros s D. destruct s as [|a [|b s]]; try discriminate D. cbn [dotted] in D. apply andb_true_iff in D. destruct D as (A & B). apply Z.eqb_eq in A. apply Z.eqb_eq in B. subst.
  unfold split. cbn [split_]. change (46 =? SL) with false. cbn iota.
  destruct (split_cur s [46; 46]) as (x & l & _ & E); [intros [X|[X|[]]]; discriminate X|]. exists x, l. exact E.
Qed.
Lemma undotted_split : forall s, dotted s = false -> exists x l, split s = x :: l /\ dotted x = false.
Proof.
  intros s D. destruct (split s) as [|x l] eqn:E; [destruct (split_ne s E)|]. exists x, l. split; auto.
  destruct (dotted x) eqn:Dx; auto. rewrite <- D. rewrite <- (join_split s), E. destruct x as [|a [|b x]]; try discriminate Dx. destruct l; cbn [join app dotted] in *; auto.
Qed.
Lemma strip_inv : forall s, sinv s -> dotted s = true -> sinv (skipn 3 s).
Proof.
  intros s (k & l & E & F) D. destruct (dotted_split s D) as (t & l0 & E0). pose proof (join_split s) as J. rewrite E0 in J.
  assert (Ns : Forall noslash (split s)) by apply split_noslash. rewrite E0 in Ns. pose proof (Forall_inv Ns) as Nt. pose proof (Forall_inv_tail Ns) as Nl0.
  destruct t as [|c t].
  - (* the component ".." itself *)
    destruct l0 as [|y l0]; [change (join [[46; 46]]) with [46; 46] in J|change (join ([46; 46] :: y :: l0)) with (46 :: 46 :: SL :: join (y :: l0)) in J]; subst s; cbn [skipn].
    + exists 0%nat, [[]]. split; [reflexivity|constructor].
    + rewrite E0 in E. destruct k as [|k].
      * cbn [repeat app] in E. subst l. exists 0%nat, (y :: l0). cbn [repeat app]. split; [apply split_join; auto; discriminate|]. inversion F; auto.
      * cbn [repeat app] in E. injection E as E. exists k, l. split; auto. rewrite split_join by (auto; discriminate). auto.
  - rewrite E0 in E. destruct k as [|k]; [|cbn [repeat app] in E; unfold DOTDOT in E; discriminate E]. cbn [repeat app] in E. subst l.
    assert (Nt' : noslash t) by (intros X; apply Nt; right; right; right; auto).
    exists 0%nat, (t :: l0). cbn [repeat app]. split; auto. rewrite <- (split_join (t :: l0)) by (auto; discriminate). f_equal.
    rewrite <- J. destruct l0; cbn [join app skipn]; reflexivity.
Qed.
Lemma strip_done : forall f s, (length s <= f)%nat -> sinv s -> sinv (strip f s) /\ dotted (strip f s) = false.
Proof.
  induction f as [|f IH]; intros s L V; cbn [strip].
  - split; auto. destruct s; [reflexivity|cbn [length] in L; lia].
  - destruct (dotted s) eqn:D; [|auto]. apply IH; [|apply strip_inv; auto]. rewrite skipn_length. destruct s as [|a [|b s]]; try discriminate D. cbn [length] in *. lia.
Qed.
End Strip.

Lemma split_slashes : forall n s, split (repeat SL n ++ s) = repeat [] n ++ split s.
Proof. induction n as [|n IH]; intros s; cbn [repeat app]; [reflexivity|]. change (SL :: repeat SL n ++ s) with ([] ++ SL :: (repeat SL n ++ s)). rewrite split_app, IH. reflexivity. Qed.
Lemma split_path : forall names, Forall noslash names -> names <> [] -> split (path names) = [] :: names.
Proof. intros names N E. unfold path. change (SL :: join names) with ([] ++ SL :: join names). rewrite split_app, split_join by auto. reflexivity. Qed.
Lemma entry_noslash : forall l, Forall entry l -> Forall noslash l.
Proof. intros l F. eapply Forall_impl; [|exact F]. intros c (_ & X & _). exact X. Qed.
Lemma keep_entries : forall l, Forall entry l -> keep l = l.
Proof.
  induction l as [|c l IH]; intros F; [reflexivity|]. inversion F as [|? ? (C1 & _ & C2 & _) Fl]; subst. unfold keep in *. cbn [filter].
  rewrite (leqb_neq c []), (leqb_neq c DOT) by auto. cbn [orb negb]. rewrite IH by auto. reflexivity.
Qed.
Lemma keep_in : forall l c, Forall noslash l -> Forall (fun c => c <> DOTDOT) l -> In c (keep l) -> In c l /\ entry c.
Proof.
  intros l c N F X. unfold keep in X. apply filter_In in X. destruct X as (X & Y). split; auto. rewrite Forall_forall in N, F.
  apply negb_true_iff, orb_false_iff in Y. destruct Y as (Y1 & Y2). split; [intros ->; discriminate Y1|]. split; [apply N; auto|]. split; [intros ->; discriminate Y2|apply F; auto].
Qed.
Lemma keep_app : forall a b, keep (a ++ b) = keep a ++ keep b.
Proof. intros a b. apply filter_app. Qed.
Lemma slashes_path : forall c l, entry c -> slashes (path (c :: l)) = 1%nat.
Proof.
  intros c l (C1 & C2 & _). destruct c as [|x c]; [contradiction|]. unfold path. assert (X : x <> SL) by (intros ->; apply C2; left; reflexivity).
  destruct l; cbn [join app slashes]; rewrite Z.eqb_refl; destruct (Z.eqb_spec x SL); congruence.
Qed.
(** normpath of an absolute path without "..". *)
Lemma normpath_path : forall c root l, entry c -> Forall entry root -> Forall noslash l -> Forall (fun c => c <> DOTDOT) l ->
  normpath (path (c :: root ++ l)) = path (c :: root ++ keep l).
Proof.
  intros c root l Ec Er N F. unfold normpath. change (path (c :: root ++ l)) with (SL :: join (c :: root ++ l)) at 1. cbn iota.
  rewrite slashes_path by auto. assert (N' : Forall noslash (c :: root ++ l)).
  { constructor; [apply Ec|]. apply Forall_app. split; [apply entry_noslash; auto|auto]. }
  rewrite split_path by (auto; discriminate).
  assert (F' : Forall (fun c => c <> DOTDOT) (c :: root ++ l)).
  { constructor; [apply Ec|]. apply Forall_app. split; auto. eapply Forall_impl; [|exact Er]. intros z Z. apply Z. }
  rewrite ncomps_plain by (constructor; [discriminate|exact F']). cbn [rev app]. change (keep ([] :: c :: root ++ l)) with (keep ((c :: root) ++ l)).
  rewrite keep_app, keep_entries by (constructor; auto). cbn [Nat.eqb repeat app]. reflexivity.
Qed.

Definition root_ok (root : list (list Z)) : Prop := root <> [] /\ Forall plain root.
Lemma root_entries : forall root, root_ok root -> Forall entry root.
Proof. intros root (_ & F). eapply Forall_impl; [|exact F]. intros c (X & _). exact X. Qed.
Definition OKC (spec c : list Z) : Prop := noslash c /\ c <> DOTDOT /\ (c = [] \/ In c (split spec)).

(** *** applyroot stays below the root *)
Theorem applyroot_contained : forall root spec, root_ok root ->
  exists rest, applyroot (path root) spec = path (root ++ rest) /\ Forall entry rest /\ (forall c, In c rest -> In c (split spec) \/ dotted c = false).
Proof.
  intros root spec R. pose proof (root_entries root R) as Fr. destruct R as (R & _). destruct root as [|r root]; [contradiction|]. inversion Fr as [|? ? Er Fr']; subst.
  unfold applyroot.
  assert (V : sinv (OKC spec) (normpath spec)).
  { unfold normpath. destruct spec as [|a spec]; [exists 0%nat, [DOT]; split; [reflexivity|constructor]|]. set (s := a :: spec).
    destruct (ncomps_shape (split s) (negb (Nat.eqb (slashes s) 0)) [] (split_noslash s)) as (k & names & E & F & A & In_).
    { exists 0%nat, []. split; [reflexivity|]. split; [constructor|auto]. }
    rewrite E. assert (Fn : Forall (OKC s) names).
    { rewrite Forall_forall in *. intros c X. destruct (F c X) as (_ & C2 & _ & C4). split; auto. split; auto. right. destruct (In_ c X) as [[]|Y]. exact Y. }
    assert (G : sinv (OKC s) (repeat SL (slashes s) ++ join (repeat DOTDOT k ++ names))).
    { destruct (slashes s) as [|n] eqn:Sl.
      - cbn [repeat app]. destruct (repeat DOTDOT k ++ names) as [|z l] eqn:Ez; [exists 0%nat, [[]]; split; [reflexivity|constructor]|].
        exists k, names. split; [|destruct names; [auto|inversion Fn; auto]]. rewrite <- Ez. apply split_join; [|rewrite Ez; discriminate].
        apply Forall_app. split; [|apply entry_noslash; auto]. apply Forall_forall. intros c X. apply repeat_spec in X. subst c. intros [Y|[Y|[]]]; discriminate Y.
      - cbn [Nat.eqb negb] in A. rewrite (A eq_refl). cbn [repeat app]. exists 0%nat. change (SL :: repeat SL n ++ join names) with ([] ++ SL :: repeat SL n ++ join names).
        rewrite split_app, split_slashes. change (split []) with [@nil Z]. exists ([] :: repeat [] n ++ split (join names)). split; [reflexivity|].
        apply Forall_app. assert (O : OKC s []) by (split; [intros []|split; [discriminate|left; reflexivity]]).
        split; [apply Forall_forall; intros c X; apply repeat_spec in X; subst c; exact O|].
        destruct names as [|z names]; [constructor; [exact O|constructor]|]. rewrite split_join; [exact Fn|apply entry_noslash; auto|discriminate]. }
    cbv zeta. destruct (repeat SL (slashes s) ++ join (repeat DOTDOT k ++ names)) eqn:Ep; [exists 0%nat, [DOT]; split; [reflexivity|constructor]|exact G]. }
  destruct (strip_done (OKC spec) (length (normpath spec)) (normpath spec) (Nat.le_refl _) V) as (V' & D).
  set (s := strip (length (normpath spec)) (normpath spec)) in *. destruct V' as (k & l & E & F). destruct (undotted_split s D) as (x & l' & E' & Dx).
  assert (k = 0%nat /\ l = x :: l') as (-> & ->).
  { destruct k as [|k]; [split; [reflexivity|rewrite <- E', E; reflexivity]|]. exfalso. rewrite E in E'. cbn [repeat app] in E'. injection E' as <- _. discriminate Dx. }
  pose proof (split_noslash s) as Ns. rewrite E' in Ns. cbn [repeat app] in E.
  assert (Nd : Forall (fun c => c <> DOTDOT) (x :: l')).
  { constructor; [intros ->; discriminate Dx|]. eapply Forall_impl; [|exact F]. intros c (_ & X & _). exact X. }
  assert (P1 : path (r :: root) ++ SL :: s = path (r :: root ++ (x :: l'))).
  { rewrite <- (join_split (path (r :: root) ++ SL :: s)), split_app, E', split_path by (try apply entry_noslash; auto; discriminate). reflexivity. }
  rewrite P1, normpath_path by auto.
  assert (K : forall c, In c (keep (x :: l')) -> In c (x :: l') /\ entry c) by (intros c X; apply keep_in; auto).
  assert (Ke : Forall entry (keep (x :: l'))) by (apply Forall_forall; intros c X; apply K; auto).
  exists (keep (x :: l')). split.
  - assert (Kd : Forall (fun c => c <> DOTDOT) (keep (x :: l'))) by (eapply Forall_impl; [|exact Ke]; intros c X; apply X).
    pose proof (entry_noslash _ Ke) as Kn. rewrite normpath_path by auto. rewrite (keep_entries (keep _)) by auto. reflexivity.
  - split; auto. intros c X. destruct (K c X) as ([<-|Y] & Ec); [right; exact Dx|]. rewrite Forall_forall in F. destruct (F c Y) as (_ & _ & [->|Z]); [right; reflexivity|left; exact Z].
Qed.

(** *** Trimming *)
Lemma ends_app : forall s suf, ends s suf = true -> s = drop_end (length suf) s ++ suf.
Proof.
  intros s suf E. unfold ends in E. apply andb_true_iff in E. destruct E as (L & E). apply leqb_eq in E. unfold drop_end.
  transitivity (firstn (length s - length suf) s ++ skipn (length s - length suf) s); [symmetry; apply firstn_skipn|rewrite E; reflexivity].
Qed.
Lemma drop_app : forall s suf, drop_end (length suf) (s ++ suf) = s.
Proof. intros s suf. unfold drop_end. rewrite app_length, Nat.add_sub. rewrite firstn_app, Nat.sub_diag, firstn_all. cbn [firstn]. apply app_nil_r. Qed.
Lemma tail_cut : forall a c p suf, a ++ SL :: c = p ++ suf -> noslash suf -> exists c', c = c' ++ suf /\ p = a ++ SL :: c'.
Proof.
  intros a c p suf E N. apply app_eq_app in E. destruct E as (l & [(-> & E)|(-> & E)]).
  - exfalso. apply N. rewrite E. apply in_or_app. right. left. reflexivity.
  - destruct l as [|z l]; [exfalso; apply N; cbn [app] in E; rewrite <- E; left; reflexivity|]. cbn [app] in E. injection E as <- E. exists l. auto.
Qed.
Definition SUFS : list (list Z) := [[]; [59; 42]; [42; 46; 42]; [42; 46; 42; 59; 42]].
Lemma trim_path : forall a c, exists c' suf, In suf SUFS /\ c = c' ++ suf /\ trim (a ++ SL :: c) = a ++ SL :: c'.
Proof.
  intros a c. assert (N1 : noslash [59; 42]) by (intros [X|[X|[]]]; discriminate X). assert (N2 : noslash [42; 46; 42]) by (intros [X|[X|[X|[]]]]; discriminate X).
  assert (T : forall c, exists c' suf, (suf = [] \/ suf = [42; 46; 42]) /\ c = c' ++ suf /\
            (if ends (a ++ SL :: c) [42; 46; 42] then drop_end 3 (a ++ SL :: c) else a ++ SL :: c) = a ++ SL :: c').
  { intros d. destruct (ends (a ++ SL :: d) [42; 46; 42]) eqn:E.
    - apply ends_app in E. destruct (tail_cut _ _ _ _ E N2) as (d' & -> & E2). exists d', [42; 46; 42]. auto.
    - exists d, []. rewrite app_nil_r. auto. }
  unfold trim. destruct (ends (a ++ SL :: c) [59; 42]) eqn:E.
  - apply ends_app in E. destruct (tail_cut _ _ _ _ E N1) as (d & -> & E2). cbn [length] in E2. rewrite E2.
    destruct (T d) as (c' & suf & S & -> & E3). exists c', (suf ++ [59; 42]). cbv zeta. split; [unfold SUFS; destruct S as [->| ->]; cbn; auto|]. rewrite app_assoc. auto.
  - destruct (T c) as (c' & suf & S & -> & E3). exists c', suf. cbv zeta. split; [unfold SUFS; destruct S as [->| ->]; cbn; auto|]. auto.
Qed.
Lemma join_snoc : forall l d, l <> [] -> join (l ++ [d]) = join l ++ SL :: d.
Proof.
  induction l as [|y l IH]; intros d N; [contradiction|]. destruct l as [|z l]; [reflexivity|].
  change (join ((y :: z :: l) ++ [d])) with (y ++ SL :: join ((z :: l) ++ [d])). rewrite IH by discriminate.
  change (join (y :: z :: l)) with (y ++ SL :: join (z :: l)). rewrite <- app_assoc. reflexivity.
Qed.
Lemma path_snoc : forall l, exists a, forall d, path (l ++ [d]) = a ++ SL :: d.
Proof.
  intros l. unfold path. destruct l as [|x l]; [exists []; reflexivity|]. exists (SL :: join (x :: l)). intros d. rewrite join_snoc by discriminate. reflexivity.
Qed.
Lemma path_more : forall l d, l <> [] -> path l ++ SL :: d = path (l ++ [d]).
Proof. intros l d N. unfold path. rewrite join_snoc by auto. reflexivity. Qed.

(** *** Walking *)
Lemma walk_entries : forall l at_ m, Forall entry l -> walk at_ (l ++ m) = walk (rev l ++ at_) m.
Proof.
  induction l as [|c l IH]; intros at_ m F; [reflexivity|]. inversion F as [|? ? (C1 & _ & C2 & C3) Fl]; subst. cbn [app walk].
  rewrite (leqb_neq c []), (leqb_neq c DOT), (leqb_neq c DOTDOT) by auto. cbn [orb]. rewrite IH by auto. cbn [rev]. rewrite <- app_assoc. reflexivity.
Qed.
Lemma walk_nodd : forall l at_, ~ In DOTDOT l -> exists r, walk at_ l = rev at_ ++ r.
Proof.
  induction l as [|c l IH]; intros at_ N; cbn [walk]; [exists []; rewrite app_nil_r; reflexivity|]. assert (N' : ~ In DOTDOT l) by (intros X; apply N; right; auto).
  destruct (leqb c [] || leqb c DOT); [apply IH; auto|]. rewrite (leqb_neq c DOTDOT) by (intros ->; apply N; left; reflexivity).
  destruct (IH (c :: at_) N') as (r & E). exists (c :: r). rewrite E. cbn [rev]. rewrite <- app_assoc. reflexivity.
Qed.

(** The only names that the trimming turns into "..". *)
Definition ESC : list (list Z) := [DOTDOT ++ [59; 42]; DOTDOT ++ [42; 46; 42]; DOTDOT ++ [42; 46; 42; 59; 42]].
(** What a request is matched against: below the root come names of directory
    entries, and at the end one or two components of which ".." can be one. *)
Lemma pattern_shape : forall root spec dirop isdir, root_ok root ->
  exists rest l, pattern (path root) spec dirop isdir = path (root ++ rest ++ l) /\ Forall entry rest /\ Forall noslash l /\
    (~ In DOTDOT l \/ (exists e, In e ESC /\ In e (split spec)) /\ (l = [DOTDOT] \/ l = [DOTDOT; [42]])).
Proof.
  intros root spec dirop isdir R. destruct (applyroot_contained root spec R) as (rest & E & F & In_). unfold pattern. rewrite E.
  assert (St : forall l c, c <> [] -> noslash c -> ends (path (l ++ [c])) [SL] = false).
  { intros l c C N. destruct (ends (path (l ++ [c])) [SL]) eqn:X; auto. exfalso. apply ends_app in X. destruct (exists_last C) as (c0 & z & ->).
    destruct (path_snoc l) as (a & E1). rewrite E1 in X. rewrite app_comm_cons, app_assoc in X. apply app_inj_tail in X. destruct X as (_ & ->). apply N. apply in_or_app. right. left. reflexivity. }
  assert (St2 : noslash [42]) by (intros [Y|[]]; discriminate Y).
  assert (St3 : ~ In DOTDOT [[42]]) by (intros [Y|[]]; discriminate Y).
  destruct (list_eq_dec (list_eq_dec Z.eq_dec) rest []) as [->|Nr].
  - rewrite app_nil_r. destruct R as (R & Fp). destruct (exists_last R) as (r0 & r & ->).
    apply Forall_app in Fp. destruct Fp as (_ & Fp). inversion Fp as [|? ? ((P1 & P2 & _) & P3) _]; subst.
    assert (T : trim (path (r0 ++ [r])) = path (r0 ++ [r])).
    { destruct (path_snoc r0) as (a & E1). rewrite E1. destruct (trim_path a r) as (c' & suf & S & -> & ->).
      assert (suf = []) as ->; [|rewrite app_nil_r; reflexivity].
      unfold magic in P3. rewrite existsb_app in P3. apply orb_false_iff in P3. destruct P3 as (_ & P3). destruct S as [<-|[<-|[<-|[<-|[]]]]]; [reflexivity|discriminate P3|discriminate P3|discriminate P3]. }
    rewrite T. cbv zeta. destruct (dirop && isdir).
    + exists [], [[42]]. rewrite St by auto. change [SL; 42] with (SL :: [42]). rewrite path_more by (intros X; apply app_eq_nil in X; destruct X as (_ & X); discriminate X). auto.
    + exists [], []. rewrite !app_nil_r. split; [reflexivity|]. split; [constructor|]. split; [constructor|]. left. intros [].
  - destruct (exists_last Nr) as (rest' & w & ->). apply Forall_app in F. destruct F as (F & Fw). inversion Fw as [|? ? Ew _]; subst.
    assert (A1 : root ++ rest' ++ [w] = (root ++ rest') ++ [w]) by apply app_assoc. rewrite A1. destruct (path_snoc (root ++ rest')) as (a & E2). rewrite E2.
    destruct (trim_path a w) as (c' & suf & S & -> & ->). rewrite <- E2.
    assert (Nc : noslash c') by (destruct Ew as (_ & Nw & _); intros X; apply Nw; apply in_or_app; auto).
    assert (I1 : In (c' ++ suf) (split spec) \/ dotted (c' ++ suf) = false) by (apply In_; apply in_or_app; right; left; reflexivity).
    assert (I2 : c' = DOTDOT -> exists e, In e ESC /\ In e (split spec)).
    { intros ->. exists (DOTDOT ++ suf). destruct I1 as [I1|I1]; [|discriminate I1]. split; auto. unfold ESC.
      destruct S as [<-|[<-|[<-|[<-|[]]]]]; [exfalso; apply Ew; reflexivity|left; reflexivity|right; left; reflexivity|right; right; left; reflexivity]. }
    assert (Cd : c' = DOTDOT \/ c' <> DOTDOT) by (destruct (list_eq_dec Z.eq_dec c' DOTDOT); auto).
    cbv zeta. destruct (dirop && isdir).
    + destruct (list_eq_dec Z.eq_dec c' []) as [->|Nz].
      * assert (X : ends (path ((root ++ rest') ++ [[]])) [SL] = true).
        { rewrite E2. unfold ends. rewrite app_length. cbn [length]. rewrite Nat.add_sub. rewrite skipn_app, skipn_all, Nat.sub_diag. cbn [skipn app]. rewrite leqb_refl, andb_true_r. apply Nat.leb_le. lia. }
        rewrite X. rewrite E2, <- app_assoc. cbn [app]. rewrite <- E2. exists rest', [[42]]. rewrite <- app_assoc. auto.
      * rewrite St by auto. change [SL; 42] with (SL :: [42]). rewrite path_more by (intros X; apply app_eq_nil in X; destruct X as (_ & X); discriminate X).
        exists rest', [c'; [42]]. rewrite <- !app_assoc. split; [reflexivity|]. split; auto. split; auto.
        destruct Cd as [->|Cd]; [right; split; [apply I2; reflexivity|auto]|left; intros [Y|[Y|[]]]; [congruence|discriminate Y]].
    + exists rest', [c']. rewrite <- app_assoc. split; [reflexivity|]. split; auto. split; auto.
      destruct Cd as [->|Cd]; [right; split; [apply I2; reflexivity|auto]|left; intros [Y|[]]; congruence].
Qed.

(** The places of the files that a request can name. *)
Lemma globs_place : forall root rest l fn, root_ok root -> Forall entry rest -> Forall noslash l -> globs (path (root ++ rest ++ l)) fn ->
  exists rest' l', place fn = walk (rev rest' ++ rev root) l' /\
    Forall2 (fun p f => if magic p then entry f else f = p) l l'.
Proof.
  intros root rest l fn R Fe Nl (fs & -> & G). pose proof (root_entries root R) as Re.
  assert (Nn : Forall noslash (root ++ rest ++ l)) by (apply Forall_app; split; [apply entry_noslash; auto|]; apply Forall_app; split; [apply entry_noslash; auto|auto]).
  rewrite split_path in G; [|auto|destruct R as (R & _); destruct root; [contradiction|discriminate]].
  inversion G as [|? f0 ? fs0 G0 G1]; subst. change (magic []) with false in G0. cbn iota in G0. subst f0.
  apply Forall2_app_inv_l in G1. destruct G1 as (f1 & f23 & G1 & G23 & ->). apply Forall2_app_inv_l in G23. destruct G23 as (f2 & f3 & G2 & G3 & ->).
  assert (f1 = root) as ->.
  { destruct R as (_ & Fp). clear -G1 Fp. revert f1 G1. induction root as [|r root IH]; intros f1 G1; inversion G1 as [|? f ? fs H1 H2]; subst; [reflexivity|].
    inversion Fp as [|? ? (_ & M) Fp']; subst. rewrite M in H1. subst f. f_equal. apply IH; auto. }
  assert (F2 : Forall entry f2).
  { clear -G2 Fe. revert f2 G2. induction rest as [|r rest IH]; intros f2 G2; inversion G2 as [|? f ? fs H1 H2]; subst; [constructor|]. inversion Fe; subst.
    constructor; [destruct (magic r); [auto|subst f; auto]|apply IH; auto]. }
  assert (F3 : Forall noslash f3).
  { clear -G3 Nl. revert f3 G3. induction l as [|r l IH]; intros f3 G3; inversion G3 as [|? f ? fs H1 H2]; subst; [constructor|]. inversion Nl; subst.
    constructor; [destruct (magic r); [apply H1|subst f; auto]|apply IH; auto]. }
  exists f2, f3. split; [|exact G3].
  unfold place. rewrite split_join; [|constructor; [intros []|]; apply Forall_app; split; [apply entry_noslash; auto|]; apply Forall_app; split; [apply entry_noslash; auto|auto]|discriminate].
  cbn [walk leqb orb]. rewrite walk_entries by auto. rewrite walk_entries by auto. rewrite app_nil_r. reflexivity.
Qed.
Lemma globbed_nodd : forall l l', Forall2 (fun p f => if magic p then entry f else f = p) l l' -> ~ In DOTDOT l -> ~ In DOTDOT l'.
Proof.
  induction 1 as [|p f l l' H _ IH]; intros N; [auto|]. intros [->|X]; [|apply IH; auto; intros Y; apply N; right; auto].
  destruct (magic p); [apply H; reflexivity|subst p; apply N; left; reflexivity].
Qed.

(** *** C60 *)
(** Unless the request has a name that the trimming turns into "..", every
    file it can reach is below the root. *)
Theorem fal_contained_partial : forall root spec dirop isdir fn, root_ok root -> (forall e, In e ESC -> ~ In e (split spec)) ->
  globs (pattern (path root) spec dirop isdir) fn -> within root fn.
Proof.
  intros root spec dirop isdir fn R N G. destruct (pattern_shape root spec dirop isdir R) as (rest & l & E & Fe & Nl & D). rewrite E in G.
  destruct (globs_place root rest l fn R Fe Nl G) as (rest' & l' & P & F2). destruct D as [D|((e & E1 & E2) & _)]; [|destruct (N e E1 E2)].
  destruct (walk_nodd l' (rev rest' ++ rev root) (globbed_nodd _ _ F2 D)) as (r & W). exists (rest' ++ r). rewrite P, W, rev_app_distr, !rev_involutive, app_assoc. reflexivity.
Qed.
(** No request gets further out than to the directory that holds the root. *)
Theorem fal_one_level : forall root spec dirop isdir fn, root_ok root ->
  globs (pattern (path root) spec dirop isdir) fn -> within (removelast root) fn.
Proof.
  intros root spec dirop isdir fn R G. destruct (pattern_shape root spec dirop isdir R) as (rest & l & E & Fe & Nl & D). rewrite E in G.
  destruct (globs_place root rest l fn R Fe Nl G) as (rest' & l' & P & F2).
  destruct R as (R & Fp). destruct (exists_last R) as (r0 & r & ->). rewrite removelast_last. unfold within. rewrite P.
  destruct D as [D|(_ & D)].
  - destruct (walk_nodd l' (rev rest' ++ rev (r0 ++ [r])) (globbed_nodd _ _ F2 D)) as (x & W). exists ([r] ++ rest' ++ x). rewrite W, rev_app_distr, !rev_involutive, <- !app_assoc. reflexivity.
  - assert (X : exists m, l' = DOTDOT :: m /\ ~ In DOTDOT m).
    { destruct D as [->| ->]; inversion F2 as [|? f ? fs H1 H2]; subst; change (magic DOTDOT) with false in H1; cbn iota in H1; subst f; exists fs; (split; [reflexivity|]).
      - inversion H2; subst. intros [].
      - apply (globbed_nodd _ _ H2). intros [Y|[]]; discriminate Y. }
    destruct X as (m & -> & Nm). cbn [walk]. rewrite leqb_refl. change (leqb DOTDOT [] || leqb DOTDOT DOT) with false. cbn iota.
    destruct (walk_nodd m (tl (rev rest' ++ rev (r0 ++ [r]))) Nm) as (x & W). rewrite W.
    destruct (rev rest') as [|y z] eqn:Er.
    + rewrite rev_app_distr. cbn [rev app tl]. rewrite rev_involutive. exists x. reflexivity.
    + cbn [app tl]. exists ([r] ++ rev z ++ x). rewrite rev_app_distr, rev_involutive, <- !app_assoc. reflexivity.
Qed.
(** A file below the root can be asked for by its name. *)
Theorem fal_by_name : forall root names isdir, root_ok root -> names <> [] -> Forall plain names -> dotted (join names) = false ->
  pattern (path root) (join names) false isdir = path (root ++ names) /\ globs (pattern (path root) (join names) false isdir) (path (root ++ names)) /\
  place (path (root ++ names)) = root ++ names.
Proof.
  intros root names isdir R Nn Fp D. assert (Fe : Forall entry names) by (eapply Forall_impl; [|exact Fp]; intros c (X & _); exact X).
  assert (En : normpath (join names) = join names).
  { destruct names as [|a names]; [contradiction|]. pose proof (Forall_inv Fe) as (A1 & A2 & _). destruct a as [|z a]; [contradiction|].
    unfold normpath. assert (X : exists q, join ((z :: a) :: names) = z :: q) by (destruct names; cbn [join app]; eauto). destruct X as (q & X). rewrite X at 1. cbv zeta.
    assert (S : slashes (join ((z :: a) :: names)) = 0%nat). { rewrite X. cbn [slashes]. destruct (Z.eqb_spec z SL) as [->|]; [exfalso; apply A2; left; reflexivity|reflexivity]. }
    rewrite S, split_join; [|apply entry_noslash; auto|discriminate]. rewrite ncomps_plain; [|eapply Forall_impl; [|exact Fe]; intros c Y; apply Y]. cbn [rev app repeat].
    rewrite keep_entries by auto. rewrite X. reflexivity. }
  assert (Ea : applyroot (path root) (join names) = path (root ++ names)).
  { unfold applyroot. rewrite En. cbv zeta. assert (S : strip (length (join names)) (join names) = join names) by (destruct (length (join names)); cbn [strip]; [reflexivity|rewrite D; reflexivity]).
    rewrite S. pose proof (root_entries root R) as Re. destruct R as (R & _). destruct root as [|r root]; [contradiction|]. inversion Re; subst.
    assert (P1 : path (r :: root) ++ SL :: join names = path (r :: root ++ names)).
    { rewrite <- (join_split (path (r :: root) ++ SL :: join names)), split_app, split_join, split_path by (try apply entry_noslash; auto; discriminate). reflexivity. }
    assert (Kd : Forall (fun c => c <> DOTDOT) names) by (eapply Forall_impl; [|exact Fe]; intros c X; apply X). pose proof (entry_noslash _ Fe) as Kn.
    rewrite P1, !normpath_path, !keep_entries by (auto; rewrite ?keep_entries; auto). reflexivity. }
  assert (Ep : pattern (path root) (join names) false isdir = path (root ++ names)).
  { unfold pattern. rewrite Ea. cbn [andb]. cbv zeta. destruct (exists_last Nn) as (n0 & w & ->). rewrite app_assoc. destruct (path_snoc (root ++ n0)) as (a & E1). rewrite E1.
    destruct (trim_path a w) as (c' & suf & S & -> & ->). assert (suf = []) as ->; [|rewrite app_nil_r; reflexivity].
    apply Forall_app in Fp. destruct Fp as (_ & Fp). pose proof (Forall_inv Fp) as (_ & P3).
    unfold magic in P3. rewrite existsb_app in P3. apply orb_false_iff in P3. destruct P3 as (_ & P3). destruct S as [<-|[<-|[<-|[<-|[]]]]]; [reflexivity|discriminate P3|discriminate P3|discriminate P3]. }
  pose proof (root_entries root R) as Re. assert (Fa : Forall entry (root ++ names)) by (apply Forall_app; auto).
  assert (Na : root ++ names <> []) by (intros X; apply app_eq_nil in X; destruct X; contradiction).
  split; [exact Ep|]. rewrite Ep. split.
  - exists (split (path (root ++ names))). split; [symmetry; apply join_split|]. rewrite split_path by (auto; apply entry_noslash; auto). constructor; [reflexivity|].
    assert (Fq : Forall plain (root ++ names)) by (apply Forall_app; split; [apply R|auto]). clear -Fq. induction Fq as [|c l (X & M) _ IH]; constructor; auto. rewrite M. reflexivity.
  - unfold place. rewrite split_path by (auto; apply entry_noslash; auto). cbn [walk leqb orb]. rewrite <- (app_nil_r (root ++ names)) at 1. rewrite walk_entries by auto. cbn [walk].
    rewrite app_nil_r, rev_involutive. reflexivity.
Qed.
(** A directory request for "/..;*" lists the directory that holds the root. *)
Theorem fal_escape_refuted : exists root spec fn, root_ok root /\ globs (pattern (path root) spec true true) fn /\ ~ within root fn.
Proof.
  exists [[104]; [114]], [47; 46; 46; 59; 42], (path [[104]; [114]; DOTDOT; [120]]).
  assert (E : forall x, x <> 47 -> x <> 46 -> x <> 42 -> x <> 63 -> x <> 91 -> plain [x]).
  { intros x A B C D F. split; [split; [discriminate|]; split; [intros [X|[]]; unfold SL in X; congruence|]; split; [intros X; injection X as X; congruence|discriminate]|].
    unfold magic. cbn [existsb]. destruct (Z.eqb_spec x 42), (Z.eqb_spec x 63), (Z.eqb_spec x 91); cbn [orb]; congruence. }
  split; [split; [discriminate|]; constructor; [|constructor; [|constructor]]; apply E; discriminate|]. split.
  - assert (P : pattern (path [[104]; [114]]) [47; 46; 46; 59; 42] true true = path [[104]; [114]; DOTDOT; [42]]) by (vm_compute; reflexivity). rewrite P.
    exists [[]; [104]; [114]; DOTDOT; [120]]. split; [reflexivity|]. assert (S : split (path [[104]; [114]; DOTDOT; [42]]) = [[]; [104]; [114]; DOTDOT; [42]]) by (vm_compute; reflexivity). rewrite S.
    repeat (constructor; [first [reflexivity|apply E; discriminate]|]). constructor.
  - intros (rest & X). vm_compute in X. discriminate X.
Qed.
(** Requests that do not get out. *)
Example fal_demo :
  let root := path [[104]; [114]] in
  pattern root [46; 46; 47; 46; 46; 47; 101] false false = path [[104]; [114]; [101]] /\          (* ../../e *)
  pattern root [47; 101; 47; 46; 46; 47; 46; 46; 47; 102] false false = path [[104]; [114]; [102]] /\  (* /e/../../f *)
  pattern root [] true true = path [[104]; [114]; [42]] /\
  pattern root [42; 46; 42; 59; 42] true true = path [[104]; [114]; [42]].                         (* *.*;* *)
Proof. vm_compute. auto. Qed.

Print Assumptions applyroot_contained.
Print Assumptions fal_contained_partial.
Print Assumptions fal_one_level.
Print Assumptions fal_by_name.
Print Assumptions fal_escape_refuted.
