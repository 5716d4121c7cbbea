(** Property C52: the abbreviated keyword dictionary. *)
From Verif Require Import Base Dict I3Model.

(** *** Specification *)
(** Two spellings that differ in case only. *)
Definition same_letter (a b : Z) : Prop := a = b \/ (65 <= a <= 90 /\ b = a + 32) \/ (65 <= b <= 90 /\ a = b + 32).
Definition same_case (a b : list Z) : Prop := Forall2 same_letter a b.
(** [a] abbreviates [k]: up to case, a prefix with at least three characters,
    or all of it. *)
Definition abbreviates (a k : list Z) : Prop :=
  exists p q, k = p ++ q /\ same_case a p /\ (3 <= zlen p \/ q = []).

Lemma lower1_same : forall a b, same_letter a b <-> lower1 a = lower1 b.
Proof.
  intros a b. unfold same_letter, lower1.
  destruct (Z.leb_spec 65 a), (Z.leb_spec a 90), (Z.leb_spec 65 b), (Z.leb_spec b 90); cbn [andb]; lia.
Qed.
Lemma lower_same : forall a b, same_case a b <-> lower a = lower b.
Proof.
  unfold same_case. induction a as [|x a IH]; intros b; split; intros H.
  - inversion H; subst. reflexivity.
  - destruct b; [constructor|discriminate].
  - inversion H as [|? y ? b' L F]; subst. cbn [lower map]. f_equal; [apply lower1_same; auto|apply IH; auto].
  - destruct b as [|y b]; [discriminate|]. cbn [lower map] in H. injection H as L F.
    constructor; [apply lower1_same; auto|apply IH; auto].
Qed.
Lemma lower_app : forall a b, lower (a ++ b) = lower a ++ lower b.
Proof. intros. apply map_app. Qed.
Lemma zlen_lower : forall a, zlen (lower a) = zlen a.
Proof. intros. unfold zlen, lower. rewrite map_length. reflexivity. Qed.
Lemma startswith_spec : forall s p, startswith s p = true <-> exists q, s = p ++ q.
Proof.
  induction s as [|y s IH]; destruct p as [|x p]; cbn [startswith]; split; intros H; auto; try discriminate.
  - exists []. reflexivity.
  - destruct H as (q & H). discriminate.
  - exists (y :: s). reflexivity.
  - apply andb_true_iff in H as [E H]. apply Z.eqb_eq in E. apply IH in H as (q & ->). subst. exists q. reflexivity.
  - destruct H as (q & H). injection H as -> ->. rewrite Z.eqb_refl. cbn [andb]. apply IH. eauto.
Qed.
Lemma upto3_app : forall (p q : list Z), 3 <= zlen p -> upto 3 (p ++ q) = upto 3 p.
Proof.
  intros p q H. unfold upto, zlen in *. change (Z.to_nat 3) with 3%nat. rewrite firstn_app.
  replace (3 - length p)%nat with O by lia. cbn [firstn]. apply app_nil_r.
Qed.
Lemma upto_upto : forall (l : list Z), upto 3 (upto 3 l) = upto 3 l.
Proof. intros. unfold upto. rewrite firstn_firstn. reflexivity. Qed.
Lemma lower_upto : forall l, lower (upto 3 l) = upto 3 (lower l).
Proof. intros. unfold upto, lower. rewrite firstn_map. reflexivity. Qed.
Lemma abbrev_lower : forall a k, abbreviates a k <->
  upto 3 (lower a) = upto 3 (lower k) /\ startswith (lower k) (lower a) = true.
Proof.
  intros a k. rewrite startswith_spec. split.
  - intros (p & q & -> & S & L). apply lower_same in S. rewrite S, lower_app. split; [|eauto].
    destruct L as [L| ->]; [rewrite upto3_app; auto; rewrite zlen_lower; auto|rewrite app_nil_r; reflexivity].
  - intros (U & q & E). pose proof (zlen_nonneg _ a) as La.
    assert (LK : zlen k = zlen a + zlen q) by (rewrite <- (zlen_lower k), E, zlen_app, zlen_lower; auto).
    pose proof (zlen_nonneg _ q).
    exists (upto (zlen a) k), (from (zlen a) k). rewrite upto_from. split; auto. split.
    + apply lower_same. unfold upto, lower. rewrite <- firstn_map. change (map lower1 k) with (lower k). rewrite E.
      symmetry. apply upto_app_exact. symmetry. apply zlen_lower.
    + rewrite zlen_upto by lia. destruct (Z.leb_spec 3 (zlen a)); auto. right.
      assert (X : zlen (upto 3 (lower a)) = zlen (upto 3 (lower k))) by (rewrite U; auto).
      unfold upto, zlen in X. rewrite !firstn_length in X. change (Z.to_nat 3) with 3%nat in X.
      pose proof (zlen_lower a) as Y1. pose proof (zlen_lower k) as Y2. unfold zlen in *.
      assert (length q = O) by lia. destruct (from (Z.of_nat (length a)) k) eqn:F; auto. exfalso.
      assert (Z : zlen (from (Z.of_nat (length a)) k) = zlen k - Z.of_nat (length a)) by (apply zlen_from; unfold zlen; lia).
      rewrite F in Z. unfold zlen in Z. cbn [length] in Z. lia.
Qed.

(** *** Histories *)
Inductive i3op := ISet (k : list Z) (v : Z) | IDel (k : list Z).
Definition i3_step (d : i3dict Z) (o : i3op) : i3dict Z :=
  match o with
  | ISet k v => i3_set d k v
  | IDel k => match i3_del d k with Ok d => d | Err _ => d end
  end.
Definition i3_run (l : list i3op) : i3dict Z := fold_left i3_step l [].
(** Keys compete when they have the same first three characters up to case. *)
Definition competes (a b : list Z) : Prop := same_case (firstn 3 a) (firstn 3 b).
(** The entry an abbreviation finds: the last competing key stored, not deleted
    since, provided it is what is abbreviated. *)
Inductive current : list i3op -> list Z -> list Z -> Z -> Prop :=
| CSet : forall l a k v, competes a k -> current (l ++ [ISet k v]) a k v
| CSkip : forall l a k v k' v', current l a k v -> ~ competes a k' -> current (l ++ [ISet k' v']) a k v
| CKeep : forall l a k v k', current l a k v -> ~ abbreviates k' k -> current (l ++ [IDel k']) a k v.

Lemma competes_lower : forall a b, competes a b <-> upto 3 (lower a) = upto 3 (lower b).
Proof.
  intros. unfold competes. rewrite lower_same. unfold upto, lower. rewrite !firstn_map. reflexivity.
Qed.
Lemma abbrev_competes : forall a k, abbreviates a k -> competes a k.
Proof. intros a k H. apply abbrev_lower in H as [H _]. apply competes_lower. auto. Qed.
Lemma i3_get_spec : forall (d : i3dict Z) key v, i3_get d key = Ok v <->
  exists k, dget leqb d (upto 3 (lower key)) = Some (k, v) /\ startswith k (lower key) = true.
Proof.
  intros. unfold i3_get. destruct (dget leqb d (upto 3 (lower key))) as [[k v']|].
  - destruct (startswith k (lower key)) eqn:S; split; intros H.
    + injection H as ->. eauto.
    + destruct H as (k' & E & _). injection E as -> ->. reflexivity.
    + discriminate.
    + destruct H as (k' & E & S'). injection E as -> ->. congruence.
  - split; [discriminate|]. intros (k & E & _). discriminate.
Qed.
Lemma run_current : forall l a kl v, dget leqb (i3_run l) (upto 3 (lower a)) = Some (kl, v) <->
  exists k, kl = lower k /\ current l a k v.
Proof.
  induction l as [|o l IH] using rev_ind; intros a kl v.
  - cbn. split; [discriminate|]. intros (k & _ & C). inversion C; destruct l; discriminate.
  - unfold i3_run. rewrite fold_left_app. cbn [fold_left]. fold (i3_run l). destruct o as [k v'|k]; cbn [i3_step].
    + unfold i3_set. rewrite dget_dset by apply decides_leqb.
      destruct (leqb (upto 3 (lower a)) (upto 3 (lower k))) eqn:E.
      * apply leqb_eq, competes_lower in E. split.
        -- intros H. injection H as <- <-. exists k. split; auto. constructor. auto.
        -- intros (k0 & -> & C). inversion C as [l0 ? ? ? C1 E1|l0 ? ? ? k' v'' C1 N E1|l0 ? ? ? k' C1 N E1]; subst;
             apply app_inj_tail in E1 as [_ E1]; try discriminate; injection E1 as -> ->; [reflexivity|contradiction].
      * assert (N : ~ competes a k) by (intros C; apply competes_lower in C; rewrite C, (proj2 (leqb_eq _ _) eq_refl) in E; discriminate).
        rewrite IH. split; intros (k0 & -> & C); exists k0; (split; [auto|]).
        -- apply CSkip; auto.
        -- inversion C as [l0 ? ? ? C1 E1|l0 ? ? ? k' v'' C1 N' E1|l0 ? ? ? k' C1 N' E1]; subst;
             apply app_inj_tail in E1 as [-> E1]; try discriminate; injection E1 as -> ->; [contradiction|auto].
    + unfold i3_del. destruct (i3_get (i3_run l) k) as [v'|e] eqn:G; cbn [bind].
      * apply i3_get_spec in G as (k1 & G & S). rewrite lower_upto. rewrite dget_ddel by apply decides_leqb.
        destruct (leqb (upto 3 (lower a)) (upto 3 (lower k))) eqn:E.
        -- split; [discriminate|]. intros (k0 & -> & C). exfalso.
           inversion C as [l0 ? ? ? C1 E1|l0 ? ? ? k' v'' C1 N' E1|l0 ? ? ? k' C1 N' E1]; subst;
             apply app_inj_tail in E1 as [-> E1]; try discriminate; injection E1 as ->.
           apply leqb_eq in E. apply N'. apply abbrev_lower.
           assert (X : dget leqb (i3_run l) (upto 3 (lower a)) = Some (lower k0, v)) by (apply IH; eauto).
           rewrite E, G in X. injection X as -> ->. split; auto.
           rewrite startswith_spec in S. destruct S as (q & S). rewrite <- E.
           (* the stored key competes *)
           assert (CC : competes a k0).
           { clear -C1. induction C1; auto. }
           apply competes_lower in CC. exact CC.
        -- rewrite IH. split; intros (k0 & -> & C); exists k0; (split; [auto|]).
           ++ apply CKeep; auto. intros AB. apply abbrev_competes, competes_lower in AB.
              assert (CC : competes a k0). { clear -C. induction C; auto. }
              apply competes_lower in CC. rewrite CC, AB, (proj2 (leqb_eq _ _) eq_refl) in E. discriminate.
           ++ inversion C as [l0 ? ? ? C1 E1|l0 ? ? ? k' v'' C1 N' E1|l0 ? ? ? k' C1 N' E1]; subst;
                apply app_inj_tail in E1 as [-> E1]; try discriminate; injection E1 as ->. auto.
      * rewrite IH. split; intros (k0 & -> & C); exists k0; (split; [auto|]).
        -- apply CKeep; auto. intros AB.
           assert (X : dget leqb (i3_run l) (upto 3 (lower a)) = Some (lower k0, v)) by (apply IH; eauto).
           assert (CC : competes a k0). { clear -C. induction C; auto. }
           apply competes_lower in CC. apply abbrev_lower in AB as [AB SW].
           assert (Y : i3_get (i3_run l) k = Ok v) by (apply i3_get_spec; exists (lower k0); rewrite AB, <- CC; auto). congruence.
        -- inversion C as [l0 ? ? ? C1 E1|l0 ? ? ? k' v'' C1 N' E1|l0 ? ? ? k' C1 N' E1]; subst;
             apply app_inj_tail in E1 as [-> E1]; try discriminate; injection E1 as ->. auto.
Qed.
(** For every history of assignments and deletions and every spelling: a lookup
    succeeds iff the spelling abbreviates the current competing key, and yields
    its value. *)
Theorem i3_lookup : forall l a v, i3_get (i3_run l) a = Ok v <-> exists k, current l a k v /\ abbreviates a k.
Proof.
  intros l a v. rewrite i3_get_spec. split.
  - intros (kl & G & S). apply run_current in G as (k & -> & C). exists k. split; auto. apply abbrev_lower. split; auto.
    assert (CC : competes a k). { clear -C. induction C; auto. } apply competes_lower in CC. auto.
  - intros (k & C & AB). exists (lower k). split; [apply run_current; eauto|]. apply abbrev_lower in AB as [_ AB]. auto.
Qed.
Print Assumptions i3_lookup.
(** All spellings of a key set, find and delete the same entry. *)
Theorem i3_spellings : forall d k a v, abbreviates a k -> i3_get (i3_set d k v) a = @Ok Z v.
Proof.
  intros d k a v H. apply abbrev_lower in H as [U S]. apply i3_get_spec. exists (lower k). unfold i3_set. rewrite U.
  rewrite dget_dset_same by apply decides_leqb. auto.
Qed.
Theorem i3_delete : forall d k a v, abbreviates a k -> exists d', i3_del (i3_set d k v) a = Ok d' /\
  (forall b, competes b k -> i3_contains d' b = false) /\ (forall b, ~ competes b k -> i3_get d' b = @i3_get Z d b).
Proof.
  intros d k a v H. pose proof H as H'. apply abbrev_lower in H' as [U S]. unfold i3_del. rewrite i3_spellings by auto. cbn [bind].
  rewrite lower_upto, U. eexists. split; [reflexivity|]. split; intros b Hb; rewrite competes_lower in Hb.
  - unfold i3_contains, i3_get. rewrite dget_ddel by apply decides_leqb. rewrite Hb, (proj2 (leqb_eq _ _) eq_refl). reflexivity.
  - unfold i3_get, i3_set. rewrite dget_ddel_other by (auto; apply decides_leqb).
    rewrite dget_dset_other by (auto; apply decides_leqb). reflexivity.
Qed.
Print Assumptions i3_delete.
(** Limits: an unambiguous abbreviation shorter than three characters of a
    longer key is not found; storing a competing key discards another entry. *)
Theorem i3_short_refuted : exists d k a, i3_run [ISet k 1] = d /\ same_case a (firstn 2 k) /\ i3_get d a = Err EKey.
Proof. exists (i3_run [ISet [108; 105; 110; 101] 1]), [108; 105; 110; 101], [76; 73]. split; [reflexivity|]. split; [|reflexivity].
  cbn [firstn]. constructor; [right; left; lia|]. constructor; [right; left; lia|]. constructor. Qed.
Theorem i3_overwrite_refuted : exists k1 k2, ~ same_case k1 k2 /\
  i3_get (i3_run [ISet k1 1; ISet k2 2]) k1 = Err EKey.
Proof.
  exists [99; 105; 114; 99], [99; 105; 114; 108]. split; [|reflexivity]. intros H. apply lower_same in H. discriminate H.
Qed.
Theorem i3_setdefault_refuted : forall (d : i3dict Z) k v, i3_setdefault d k v = Err EName.
Proof. reflexivity. Qed.
(** Token comparison: no minimum length. *)
Theorem i3eq_spec : forall a b, lower b = b -> (i3eq a b = true <-> exists p q, b = p ++ q /\ same_case a p).
Proof.
  intros a b L. unfold i3eq. rewrite startswith_spec. split.
  - intros (q & E). exists (lower a), q. split; auto. apply lower_same. unfold lower. rewrite map_map.
    apply map_ext. intros c. unfold lower1. destruct (Z.leb_spec 65 c), (Z.leb_spec c 90); cbn [andb]; auto;
      destruct (Z.leb_spec 65 (c + 32)), (Z.leb_spec (c + 32) 90), (Z.leb_spec 65 c), (Z.leb_spec c 90); cbn [andb]; lia.
  - intros (p & q & -> & S). apply lower_same in S. rewrite lower_app in L. exists (lower q). rewrite S, L. reflexivity.
Qed.
Print Assumptions i3eq_spec.
(** A list of tokens matches a list of expected words if its first tokens match
    these one by one; more tokens may follow. *)
Theorem i3eq_list_spec : forall a b, i3eq_list a b = true <-> exists a1 a2, a = a1 ++ a2 /\ Forall2 (fun x y => i3eq x y = true) a1 b.
Proof.
  intros a b. unfold i3eq_list. revert a. induction b as [|y b IH]; intros a.
  - replace (zlen a <? zlen []) with false by (unfold zlen; cbn [length]; lia). split; [intros _; exists [], a; split; [reflexivity|constructor]|destruct a; reflexivity].
  - destruct a as [|x a].
    + replace (zlen [] <? zlen (y :: b)) with true by (unfold zlen; cbn [length]; lia). split; [discriminate|]. intros (a1 & a2 & E & F). inversion F; subst. discriminate E.
    + replace (zlen (x :: a) <? zlen (y :: b)) with (zlen a <? zlen b) by (unfold zlen; cbn [length]; destruct (Z.of_nat (length a) <? Z.of_nat (length b)) eqn:Q; symmetry; lia).
      cbn [i3eq_zip]. specialize (IH a). split.
      * intros E. assert (E1 : i3eq x y = true /\ (if zlen a <? zlen b then false else i3eq_zip a b) = true) by (destruct (zlen a <? zlen b); [discriminate E|]; apply andb_prop; exact E).
        destruct E1 as (E1 & E2). apply IH in E2. destruct E2 as (a1 & a2 & -> & F). exists (x :: a1), a2. split; [reflexivity|constructor; assumption].
      * intros (a1 & a2 & E & F). inversion F as [|x' y' a1' b' H1 H2]; subst. injection E as <- ->.
        assert (E2 : (if zlen (a1' ++ a2) <? zlen b then false else i3eq_zip (a1' ++ a2) b) = true) by (apply IH; exists a1', a2; auto).
        destruct (zlen (a1' ++ a2) <? zlen b); [discriminate E2|]. rewrite H1, E2. reflexivity.
Qed.
Print Assumptions i3eq_list_spec.
(** The operator [in] says whether a lookup would succeed. *)
Theorem i3_in : forall l a, i3_contains (i3_run l) a = true <-> exists k v, current l a k v /\ abbreviates a k.
Proof.
  intros l a. unfold i3_contains. split.
  - destruct (i3_get (i3_run l) a) as [v|] eqn:E; [|discriminate]. intros _. apply i3_lookup in E. destruct E as (k & H). eauto.
  - intros (k & v & H). rewrite (proj2 (i3_lookup l a v)); eauto.
Qed.
Print Assumptions i3_in.
Example i3_demo : i3_get (i3_run [ISet [76; 105; 110; 101] 5; ISet [78; 111; 100; 101] 6; IDel [110; 79; 68]]) [108; 73; 78] = Ok 5 /\
  i3_get (i3_run [ISet [76; 105; 110; 101] 5; ISet [78; 111; 100; 101] 6; IDel [110; 79; 68]]) [78; 111; 100; 101] = Err EKey /\
  abbreviates [108; 73; 78] [76; 105; 110; 101].
Proof.
  split; [reflexivity|]. split; [reflexivity|]. apply abbrev_lower. vm_compute. auto.
Qed.
